(** The exponential histogram (Model_ExpHist.v): one interval, and the delta reader. *)
From Coq Require Import Lia.
From Verif Require Import Spec_ExpHist Proof_Metrics Proof_ExpMapping Proof_Buckets.
Local Open Scope Z_scope.
Local Arguments total : simpl never.

(** ** One side *)
Definition side_ok (mx : Z) (b : buckets) (l : list Z) : Prop :=
  wf b /\ size b <= mx /\ rep b l /\ (l = [] -> b = b_new)
  /\ (l <> [] -> In (b_start b) l /\ In (b_end b) l).

Lemma side_new mx : 1 <= mx -> side_ok mx b_new [].
Proof.
  intros H. split; [apply wf_fresh|]. split; [cbn; lia|]. split; [intros i; apply count_at_fresh|].
  split; [reflexivity|congruence].
Qed.
Lemma wf_one b : wf b -> b_counts b = [0] -> exists i, b = B [0] i i i.
Proof.
  intros (H1 & H2 & _) E. destruct b as [c ba st en]. cbn in *. subst c. unfold size in H2. cbn in H2.
  exists st. f_equal; lia.
Qed.
Lemma b_item_0 b : wf b -> b_item b 0 = count_at b (b_start b).
Proof.
  intros W. pose proof W as (H1 & H2 & _). pose proof (size_nonneg b).
  rewrite count_at_cell by (auto; lia). unfold b_item, item, cell.
  change (Z.of_nat (length (b_counts b))) with (size b).
  set (bias := b_base b - b_start b). destruct (Z.ltb_spec 0 bias), (Z.ltb_spec (b_start b) (b_base b)); try lia.
  - unfold pos_of. destruct (Z.ltb_spec (0 + size b - bias) 0); [lia|]. f_equal. lia.
  - unfold pos_of. replace (0 - bias) with 0 by lia. cbn. f_equal. lia.
Qed.
Lemma b_len_0 mx b l : side_ok mx b l -> b_len b = 0 <-> l = [].
Proof.
  intros (W & _ & R & E & T). pose proof W as (H1 & H2 & _). split.
  - unfold b_len. intros H. destruct l as [|x l]; [reflexivity|exfalso].
    destruct (T ltac:(discriminate)) as (Ts & _). destruct (b_counts b) as [|c0 cs] eqn:Ec.
    + unfold size in H2. rewrite Ec in H2. cbn in H2. lia.
    + rewrite b_item_0 in H by exact W.
      pose proof (count_in_In (fun y => y =? b_start b) _ _ Ts (Z.eqb_refl _)) as P. rewrite <- R in P.
      destruct (Z.eqb_spec (b_end b) (b_start b)), (Z.eqb_spec (count_at b (b_start b)) 0); cbn [andb] in H; lia.
  - intros ->. rewrite (E eq_refl). reflexivity.
Qed.
Lemma count_in_app' p l m : count_in p (l ++ m) = count_in p l + count_in p m.
Proof. unfold count_in. rewrite filter_app, app_length. lia. Qed.
Lemma count_in_repeat i j d : count_in (fun x => x =? j) (repeat i d) = if j =? i then Z.of_nat d else 0.
Proof.
  rewrite (Z.eqb_sym j i). induction d as [|d IH]; cbn [repeat]; [destruct (i =? j); reflexivity|].
  rewrite count_in_cons, IH. destruct (i =? j); lia.
Qed.
(** Make room and add, when the window allows it. *)
Lemma room_add mx b l i d : wf b -> size b <= mx -> rep b l -> 0 <= d ->
  b_end b - i < mx -> i - b_start b < mx ->
  exists b', add_index (make_room b i mx) i d = Some b' /\ wf b' /\ size b' <= mx
    /\ rep b' (l ++ repeat i (Z.to_nat d))
    /\ b_start b' = Z.min (b_start b) i /\ b_end b' = Z.max (b_end b) i.
Proof.
  intros W S R Hd H1 H2. destruct (make_room_spec b i mx W S H1 H2) as (W1 & S1 & St1 & E1 & C1).
  destruct (add_index_spec (make_room b i mx) i d W1 ltac:(lia)) as (b' & Ea & W2 & S2 & St2 & E2 & C2).
  exists b'. split; [exact Ea|]. split; [exact W2|]. split; [lia|]. split; [|lia].
  intros j. rewrite C2, C1, R, count_in_app', count_in_repeat. destruct (j =? i); lia.
Qed.
Lemma side_add mx b l i d : side_ok mx b l -> 0 < d -> (forall x, In x l -> x - i < mx /\ i - x < mx) -> 1 <= mx ->
  exists b', b_add mx b i d = Some b' /\ side_ok mx b' (l ++ repeat i (Z.to_nat d)).
Proof.
  intros Hs Hd Hw Hm. pose proof (b_len_0 mx b l Hs) as L. destruct Hs as (W & S & R & E & T). unfold b_add.
  assert (Ne : l ++ repeat i (Z.to_nat d) <> []).
  { destruct (Z.to_nat d) eqn:Ed; [lia|]. destruct l; discriminate. }
  assert (Hi : In i (l ++ repeat i (Z.to_nat d))).
  { apply in_or_app. right. destruct (Z.to_nat d) eqn:Ed; [lia|]. now left. }
  destruct (Z.eqb_spec (b_len b) 0) as [Z0|N0].
  - apply L in Z0. subst l. specialize (E eq_refl). subst b. cbn [b_new b_counts]. clear L.
    destruct (room_add mx (B [0] i i i) [] i d) as (b' & Ea & W' & S' & R' & St & En); try (cbn; lia).
    + apply wf_fresh.
    + intros j. apply count_at_fresh.
    + exists b'. split; [exact Ea|]. split; [exact W'|]. split; [exact S'|]. split; [exact R'|].
      split; [contradiction|]. intros _. cbn [b_start b_end] in St, En. rewrite St, En, Z.min_id, Z.max_id. auto.
  - assert (Nl : l <> []) by (intros ->; apply N0, L; reflexivity). destruct (T Nl) as (Ts & Te).
    destruct (room_add mx b l i d W S R ltac:(lia)) as (b' & Ea & W' & S' & R' & St & En).
    + apply Hw. exact Te.
    + apply Hw. exact Ts.
    + exists b'. split; [exact Ea|]. split; [exact W'|]. split; [exact S'|]. split; [exact R'|].
      split; [contradiction|]. intros _. rewrite St, En.
      split; [destruct (Z.min_spec (b_start b) i) as [[_ ->]|[_ ->]]|destruct (Z.max_spec (b_end b) i) as [[_ ->]|[_ ->]]];
        auto; apply in_or_app; now left.
Qed.
Lemma side_down mx b l k : side_ok mx b l -> 0 <= k -> side_ok mx (downscale_by b k) (map (fun i => Z.shiftr i k) l).
Proof.
  intros (W & S & R & E & T) Hk. unfold downscale_by. destruct (Z.eqb_spec k 0) as [->|N].
  - rewrite (map_ext _ (fun i => i)) by (intros; apply Z.shiftr_0_r). rewrite map_id. repeat split; auto; try apply W; now apply T.
  - destruct (downscale_spec b k l W Hk R) as (W' & S' & St & En & R').
    split; [exact W'|]. split; [lia|]. split; [exact R'|]. split.
    + intros El. destruct l as [|x l]; [|discriminate]. specialize (E eq_refl). subst b.
      change (size b_new) with 1 in S'. cbn [b_new b_start b_end] in St, En. rewrite Z.shiftr_0_l in St, En.
      enough (E0 : b_counts (downscale b_new k) = [0]).
      { destruct (wf_one _ W' E0) as (i & Ei). rewrite Ei in *. cbn in St. now subst i. }
      set (b' := downscale b_new k) in *. clearbody b'. clear -W' S' R'.
      pose proof (b_item_0 b' W') as I. specialize (R' (b_start b')). cbn in R'. change (count_in _ []) with 0 in R'.
      pose proof W' as (H1 & H2 & _). rewrite R' in I. unfold b_item, item in I.
      unfold size in S'. destruct (b_counts b') as [|c [|c' cs]] eqn:Ec; cbn in S'; try lia.
      rewrite <- Ec in *. unfold size in H2. rewrite Ec in *. cbn in H2. unfold pos_of in I.
      assert (Eb : b_base b' = b_start b') by lia. rewrite Eb, Z.sub_diag in I. cbn in I. congruence.
    + intros Nl. assert (Nl' : l <> []) by (destruct l; [contradiction|discriminate]). destruct (T Nl') as (Ts & Te).
      rewrite St, En. split; [apply (in_map (fun i => Z.shiftr i k)), Ts|apply (in_map (fun i => Z.shiftr i k)), Te].
Qed.

(** C43 *)
Lemma contents_snoc ops o : contents (ops ++ [o])
  = match o with BAdd i d => contents ops ++ repeat i (Z.to_nat d) | BDown k => map (fun i => Z.shiftr i k) (contents ops) end.
Proof. unfold contents. rewrite fold_left_app. reflexivity. Qed.
Lemma b_run_side mx ops : 1 <= mx -> respects mx ops -> exists b, b_run mx ops = Some b /\ side_ok mx b (contents ops).
Proof.
  intros Hm. induction ops as [|o ops IH] using rev_ind; intros [F R].
  - exists b_new. split; [reflexivity|now apply side_new].
  - apply Forall_app in F. destruct F as [F Fo]. inversion Fo as [|? ? Ho _]; subst.
    destruct IH as (b & Eb & Hb).
    { split; [exact F|]. intros n. destruct (Nat.le_ge_cases n (length ops)) as [L|L].
      - specialize (R n). rewrite firstn_app in R. replace (n - length ops)%nat with 0%nat in R by lia.
        cbn [firstn] in R. now rewrite app_nil_r in R.
      - specialize (R (length ops)). rewrite firstn_app, Nat.sub_diag, firstn_all in R. cbn [firstn] in R.
        rewrite app_nil_r in R. now rewrite firstn_all2. }
    unfold b_run in *. rewrite fold_left_app, Eb, contents_snoc. cbn [fold_left b_apply]. destruct o as [i d|k].
    + specialize (R (length (ops ++ [BAdd i d]))). rewrite firstn_all, contents_snoc in R.
      assert (Hi : In i (contents ops ++ repeat i (Z.to_nat d))).
      { apply in_or_app. right. destruct (Z.to_nat d) eqn:Ed; [lia|]. now left. }
      apply side_add; auto. intros x Hx. assert (Hx' : In x (contents ops ++ repeat i (Z.to_nat d))) by (apply in_or_app; now left).
      split; apply R; assumption.
    + eexists. split; [reflexivity|]. now apply side_down.
Qed.
Lemma rep_shows mx b l : wf b -> size b <= mx -> rep b l -> shows (fun i => i) mx l (b_start b) (get_offset_counts b).
Proof.
  intros W S R. pose proof (wf_bias b W) as Hb. pose proof W as (H1 & H2 & _).
  unfold shows. rewrite offset_counts_length by exact Hb. change (Z.of_nat (length (b_counts b))) with (size b).
  split; [exact S|]. split.
  - intros v Hv. pose proof (rep_range b l v W R Hv). lia.
  - intros j Hj. rewrite <- R. rewrite count_at_cell by (auto; unfold size; lia). apply offset_counts_nth; auto.
Qed.
Lemma side_shows mx b l : side_ok mx b l -> shows (fun i => i) mx l (b_start b) (get_offset_counts b).
Proof. intros (W & S & R & _). now apply rep_shows. Qed.
Lemma shows_map idx mx l o c : shows (fun i => i) mx (map idx l) o c -> shows idx mx l o c.
Proof.
  intros (H1 & H2 & H3). split; [exact H1|]. split.
  - intros v Hv. apply H2. now apply in_map.
  - intros j Hj. rewrite H3 by exact Hj. unfold count_in. f_equal. clear. induction l as [|x l IH]; [reflexivity|].
    cbn [map filter]. destruct (idx x =? _); cbn [length]; congruence.
Qed.

(** ** How much to scale down *)
Lemma half_diff lo hi : lo <= hi -> 0 <= Z.shiftr hi 1 - Z.shiftr lo 1 <= (hi - lo + 1) / 2.
Proof.
  intros H. rewrite !Z.shiftr_div_pow2 by lia. change (2 ^ 1) with 2.
  pose proof (Z.div_le_mono lo hi 2 ltac:(lia) H).
  pose proof (Z.div_mod lo 2 ltac:(lia)). pose proof (Z.mod_pos_bound lo 2 ltac:(lia)).
  pose proof (Z.div_mod hi 2 ltac:(lia)). pose proof (Z.mod_pos_bound hi 2 ltac:(lia)).
  split; [lia|]. apply Z.div_le_lower_bound; lia.
Qed.
Lemma loop_fits mx fuel : 2 <= mx -> forall lo hi, lo <= hi -> hi - lo <= 2 ^ (Z.of_nat fuel) ->
  let c := scale_change_loop (S fuel) mx lo hi in 0 <= c /\ Z.shiftr hi c - Z.shiftr lo c < mx.
Proof.
  intros Hm. induction fuel as [|f IH]; intros lo hi Hl Hd.
  - cbn [scale_change_loop]. change (2 ^ Z.of_nat 0) with 1 in Hd. destruct (Z.leb_spec mx (hi - lo)); [lia|].
    cbn zeta. rewrite !Z.shiftr_0_r. lia.
  - remember (S f) as g eqn:Eg. cbn [scale_change_loop]. destruct (Z.leb_spec mx (hi - lo)).
    + destruct (half_diff lo hi Hl) as (D1 & D2).
      destruct (IH (Z.shiftr lo 1) (Z.shiftr hi 1) ltac:(lia)) as (C1 & C2).
      { subst g. rewrite Nat2Z.inj_succ, Z.pow_succ_r in Hd by lia. eapply Z.le_trans; [exact D2|].
        apply Z.lt_succ_r. apply Z.div_lt_upper_bound; lia. }
      subst g. set (c := scale_change_loop (S f) mx (Z.shiftr lo 1) (Z.shiftr hi 1)) in *. cbn zeta.
      rewrite !Z.shiftr_shiftr in C2 by lia. split; [lia|exact C2].
    + cbn zeta. rewrite !Z.shiftr_0_r. lia.
Qed.
Lemma loop_least mx fuel : forall lo hi c', 0 <= c' -> Z.shiftr hi c' - Z.shiftr lo c' < mx ->
  scale_change_loop fuel mx lo hi <= c'.
Proof.
  induction fuel as [|f IH]; intros lo hi c' Hc H; cbn [scale_change_loop]; [exact Hc|].
  destruct (Z.leb_spec mx (hi - lo)); [|exact Hc].
  destruct (Z.eq_dec c' 0) as [->|N]; [rewrite !Z.shiftr_0_r in H; lia|].
  specialize (IH (Z.shiftr lo 1) (Z.shiftr hi 1) (c' - 1) ltac:(lia)).
  rewrite !Z.shiftr_shiftr in IH by lia. replace (1 + (c' - 1)) with c' in IH by lia. specialize (IH H). lia.
Qed.
Lemma scale_change_fits mx lo hi : 2 <= mx -> lo <= hi ->
  let c := get_scale_change mx lo hi in 0 <= c /\ Z.shiftr hi c - Z.shiftr lo c < mx.
Proof.
  intros Hm Hl. unfold get_scale_change. pose proof (Z.log2_nonneg (hi - lo)) as L.
  replace (Z.to_nat (Z.log2 (hi - lo) + 2)) with (S (Z.to_nat (Z.log2 (hi - lo) + 1))) by lia.
  apply loop_fits; auto. rewrite Z2Nat.id by lia. destruct (Z.eq_dec lo hi) as [->|N].
  - rewrite Z.sub_diag. vm_compute. discriminate.
  - pose proof (Z.log2_spec (hi - lo) ltac:(lia)) as S. replace (Z.log2 (hi - lo) + 1) with (Z.succ (Z.log2 (hi - lo))) by lia. lia.
Qed.
Lemma scale_change_least mx lo hi c' : 0 <= c' -> Z.shiftr hi c' - Z.shiftr lo c' < mx -> get_scale_change mx lo hi <= c'.
Proof. intros. now apply loop_least. Qed.
Lemma scale_change_empty mx : 1 <= mx -> get_scale_change mx 0 (-1) = 0.
Proof.
  intros H. unfold get_scale_change. change (Z.to_nat (Z.log2 (-1 - 0) + 2)) with 2%nat. cbn [scale_change_loop].
  destruct (Z.leb_spec mx (-1 - 0)); [lia|reflexivity].
Qed.

(** ** Adding a measurement *)
Section Hist.
Variable log_floor : Z -> Z -> Z.
Hypothesis Cons : log_consistent log_floor.
Let idx := map_to_index log_floor.

(** The part of [aggregate] for a value that is not zero: buckets of its side, of the other side, mapping. *)
Definition place (mx m : Z) (this other : buckets) (a : Z) : buckets * buckets * Z * bool :=
  let index := map_to_index log_floor m a in
  let empty := b_len this =? 0 in
  let this := if empty then B (b_counts this) index index index else this in
  let rescale :=
    if empty then None
    else if (index <? b_start this) && (mx <=? b_end this - index) then Some (index, b_end this)
    else if (b_end this <? index) && (mx <=? index - b_start this) then Some (b_start this, index)
    else None in
  let finish this other m index :=
    let this := make_room this index mx in
    match add_index this index 1 with Some this => (this, other, m, true) | None => (this, other, m, false) end in
  match rescale with
  | None => finish this other m index
  | Some (low, high) =>
      let change := get_scale_change mx low high in
      let this := downscale_by this change in
      let other := downscale_by other change in
      match new_mapping (m - change) with
      | None => (this, other, m, false)
      | Some m => finish this other m (map_to_index log_floor m a)
      end
  end.
Lemma new_mapping_some m : -10 <= m <= 20 -> new_mapping m = Some m.
Proof.
  intros H. unfold new_mapping. destruct (Z.leb_spec m 0).
  - destruct (Z.ltb_spec m (-10)); [lia|reflexivity].
  - destruct (Z.ltb_spec 20 m); [lia|reflexivity].
Qed.
Lemma map_indexes m k l : 0 <= k -> -10 <= m - k -> m <= 20 -> Forall is_double l ->
  map (fun i => Z.shiftr i k) (map (idx m) l) = map (idx (m - k)) l.
Proof.
  intros Hk H1 H2 F. rewrite map_map. apply map_ext_in. intros v Hv. rewrite Forall_forall in F.
  symmetry. apply map_shift; auto.
Qed.
Lemma place_spec mx m this other A A' a : 2 <= mx -> -10 <= m <= 20 -> is_double a -> Forall is_double A -> Forall is_double A' ->
  side_ok mx this (map (idx m) A) -> side_ok mx other (map (idx m) A') ->
  exists this' other' m', place mx m this other a = (this', other', m', true) /\ -10 <= m' <= m
    /\ side_ok mx this' (map (idx m') (A ++ [a])) /\ side_ok mx other' (map (idx m') A')
    /\ (m' = m \/ ~ within mx (map (idx (m' + 1)) (A ++ [a]))).
Proof.
  intros Hmx Hm Da DA DA' Ht Ho. unfold place. pose proof (b_len_0 mx this _ Ht) as L.
  set (index := map_to_index log_floor m a).
  destruct (Z.eqb_spec (b_len this) 0) as [E0|N0].
  - assert (EA : map (idx m) A = []) by now apply L.
    destruct (side_add mx this (map (idx m) A) index 1 Ht ltac:(lia)) as (b' & Eb & Sb); [rewrite EA; intros x []|lia|].
    unfold b_add in Eb. rewrite E0 in Eb. cbn [Z.eqb] in Eb.
    exists b', other, m. rewrite Eb. split; [reflexivity|]. split; [lia|]. split; [rewrite map_app; exact Sb|]. auto.
  - assert (NA : map (idx m) A <> []) by (intros E; apply N0, L; exact E).
    pose proof Ht as (W & S & R & _ & T). destruct (T NA) as (Ts & Te). pose proof W as (H1 & H2 & _).
    assert (Direct : b_end this - index < mx -> index - b_start this < mx ->
      exists this' other' m',
        match add_index (make_room this index mx) index 1 with
        | Some t => (t, other, m, true) | None => (make_room this index mx, other, m, false) end = (this', other', m', true)
        /\ -10 <= m' <= m /\ side_ok mx this' (map (idx m') (A ++ [a])) /\ side_ok mx other' (map (idx m') A')
    /\ (m' = m \/ ~ within mx (map (idx (m' + 1)) (A ++ [a])))).
    { intros D1 D2. destruct (side_add mx this (map (idx m) A) index 1 Ht ltac:(lia)) as (b' & Eb & Sb); [|lia|].
      { intros x Hx. pose proof (rep_range _ _ _ W R Hx). lia. }
      unfold b_add in Eb. destruct (Z.eqb_spec (b_len this) 0); [contradiction|]. rewrite Eb.
      exists b', other, m. split; [reflexivity|]. split; [lia|]. split; [rewrite map_app; exact Sb|]. auto. }
    assert (Res : forall low high, low <= high -> (low = index /\ high = b_end this \/ low = b_start this /\ high = index) ->
      let change := get_scale_change mx low high in
      exists this' other' m',
        match new_mapping (m - change) with
        | None => (downscale_by this change, downscale_by other change, m, false)
        | Some m' => match add_index (make_room (downscale_by this change) (map_to_index log_floor m' a) mx)
                             (map_to_index log_floor m' a) 1 with
                     | Some t => (t, downscale_by other change, m', true)
                     | None => (make_room (downscale_by this change) (map_to_index log_floor m' a) mx, downscale_by other change, m', false)
                     end
        end = (this', other', m', true)
        /\ -10 <= m' <= m /\ side_ok mx this' (map (idx m') (A ++ [a])) /\ side_ok mx other' (map (idx m') A')
    /\ (m' = m \/ ~ within mx (map (idx (m' + 1)) (A ++ [a])))).
    { intros low high Hlh Hcase change. destruct (scale_change_fits mx low high Hmx Hlh) as (C0 & Cf). fold change in C0, Cf.
      assert (Low : forall x, x = index \/ In x (map (idx m) A) -> -1 <= Z.shiftr x (m + 10) <= 0).
      { assert (G : forall v, is_double v -> -1 <= Z.shiftr (idx m v) (m + 10) <= 0).
        { intros v Dv. unfold idx. rewrite <- map_shift by (auto; lia). replace (m - (m + 10)) with (-10) by lia. now apply map_lowest. }
        intros x [->|Hx]; [now apply G|]. apply in_map_iff in Hx. destruct Hx as (v & <- & Hv). apply G.
        rewrite Forall_forall in DA. auto. }
      assert (C1 : change <= m + 10).
      { apply scale_change_least; [lia|].
        assert (-1 <= Z.shiftr low (m + 10) <= 0) by (apply Low; destruct Hcase as [[-> _]|[-> _]]; auto).
        assert (-1 <= Z.shiftr high (m + 10) <= 0) by (apply Low; destruct Hcase as [[_ ->]|[_ ->]]; auto). lia. }
      rewrite new_mapping_some by lia. set (m' := m - change).
      pose proof (side_down mx this _ change Ht C0) as Ht'. rewrite map_indexes in Ht' by (auto; lia). fold m' in Ht'.
      pose proof (side_down mx other _ change Ho C0) as Ho'. rewrite map_indexes in Ho' by (auto; lia). fold m' in Ho'.
      assert (Ei : map_to_index log_floor m' a = Z.shiftr index change) by (unfold m', index; apply map_shift; auto; lia).
      assert (Wn : forall x, In x (map (idx m') A) -> x - map_to_index log_floor m' a < mx /\ map_to_index log_floor m' a - x < mx).
      { intros x Hx. rewrite Ei. assert (Hx' := Hx). apply in_map_iff in Hx. destruct Hx as (v & <- & Hv).
        assert (In (idx m v) (map (idx m) A)) as Hin by now apply in_map. pose proof (rep_range _ _ _ W R Hin) as Rg.
        assert (Dv : is_double v) by (rewrite Forall_forall in DA; auto).
        assert (Ev : idx m' v = Z.shiftr (idx m v) change) by (unfold m', idx; apply map_shift; auto; lia). rewrite Ev.
        pose proof (shiftr_mono change (b_start this) (idx m v) C0 ltac:(lia)).
        pose proof (shiftr_mono change (idx m v) (b_end this) C0 ltac:(lia)).
        assert (Z.shiftr (b_end this) change - Z.shiftr (b_start this) change < mx).
        { pose proof (out_le (b_start this) change C0 (Z.to_nat (b_end this - b_start this))) as O. unfold out in O.
          replace (b_start this + Z.of_nat (Z.to_nat (b_end this - b_start this))) with (b_end this) in O by lia. lia. }
        destruct Hcase as [[-> ->]|[-> ->]].
        - pose proof (shiftr_mono change index (b_end this) C0 Hlh). split; [lia|].
          destruct (Z_le_gt_dec (Z.shiftr index change) (Z.shiftr (idx m v) change)); lia.
        - pose proof (shiftr_mono change (b_start this) index C0 Hlh). split; [|lia].
          destruct (Z_le_gt_dec (Z.shiftr (idx m v) change) (Z.shiftr index change)); lia. }
      destruct (side_add mx (downscale_by this change) (map (idx m') A) (map_to_index log_floor m' a) 1 Ht' ltac:(lia) Wn ltac:(lia)) as (b' & Eb & Sb).
      unfold b_add in Eb. destruct (Z.eqb_spec (b_len (downscale_by this change)) 0) as [Z0|_].
      { apply (b_len_0 _ _ _ Ht') in Z0. exfalso. apply NA. destruct A; [reflexivity|discriminate]. }
      rewrite Eb. exists b', (downscale_by other change), m'. split; [reflexivity|]. split; [unfold m'; lia|].
      split; [rewrite map_app; exact Sb|]. split; [exact Ho'|].
      destruct (Z.eq_dec change 0) as [E0|N]; [left; unfold m'; lia|right]. intros Fit.
      assert (Ec : change <= change - 1); [|lia]. apply scale_change_least; [lia|].
      replace (m' + 1) with (m - (change - 1)) in Fit by (unfold m'; lia).
      rewrite <- map_indexes in Fit by (try (apply Forall_app; split; auto); lia).
      rewrite map_app in Fit.
      assert (G : forall x, In x (map (idx m) A) \/ x = index -> In (Z.shiftr x (change - 1)) (map (fun i => Z.shiftr i (change - 1)) (map (idx m) A ++ map (idx m) [a]))).
      { intros x Hx. apply (in_map (fun i => Z.shiftr i (change - 1))). apply in_or_app. destruct Hx as [Hx| ->]; [now left|right; now left]. }
      apply Fit; apply G; destruct Hcase as [[-> ->]|[-> ->]]; auto. }
    destruct ((index <? b_start this) && (mx <=? b_end this - index)) eqn:E1.
    + apply andb_true_iff in E1. destruct E1 as (E1 & E2). apply Z.ltb_lt in E1. apply (Res index (b_end this)); [lia|auto].
    + destruct ((b_end this <? index) && (mx <=? index - b_start this)) eqn:E2.
      * apply andb_true_iff in E2. destruct E2 as (E2 & E3). apply Z.ltb_lt in E2. apply (Res (b_start this) index); [lia|auto].
      * apply Direct.
        -- apply andb_false_iff in E1. destruct E1 as [E1|E1]; [apply Z.ltb_ge in E1|apply Z.leb_gt in E1]; lia.
        -- apply andb_false_iff in E2. destruct E2 as [E2|E2]; [apply Z.ltb_ge in E2|apply Z.leb_gt in E2]; lia.
Qed.

(** ** The current interval holds the measurements [l]. *)
Definition all_zero (l : list Z) : bool := forallb (fun v => v =? 0) l.
Definition cur_ok (mx m : Z) (c : einterval) (l : list Z) : Prop :=
  match l with
  | [] => c = ei_empty
  | _ => exists pos neg,
      c = EI (Some pos) (Some neg) (lmin l) (lmax l) (total l) (Z.of_nat (length l)) (count_in (fun v => v =? 0) l)
            (Some (if all_zero l then 0 else m))
      /\ side_ok mx pos (map (idx m) (positives l)) /\ side_ok mx neg (map (idx m) (negatives l))
  end.
Lemma positives_double l : Forall measurable l -> Forall is_double (positives l).
Proof.
  intros F. rewrite Forall_forall in *. intros v Hv. unfold positives in Hv. apply filter_In in Hv. destruct Hv as (Hv & P).
  apply Z.ltb_lt in P. destruct (F v Hv) as [->|D]; [lia|]. rewrite Z.abs_eq in D by lia. exact D.
Qed.
Lemma negatives_double l : Forall measurable l -> Forall is_double (negatives l).
Proof.
  intros F. rewrite Forall_forall in *. intros v Hv. unfold negatives in Hv. apply in_map_iff in Hv. destruct Hv as (x & <- & Hv).
  apply filter_In in Hv. destruct Hv as (Hv & P).
  apply Z.ltb_lt in P. destruct (F x Hv) as [->|D]; [lia|]. rewrite Z.abs_neq in D by lia. exact D.
Qed.
Lemma positives_app l m : positives (l ++ m) = positives l ++ positives m.
Proof. apply filter_app. Qed.
Lemma negatives_app l m : negatives (l ++ m) = negatives l ++ negatives m.
Proof. unfold negatives. now rewrite filter_app, map_app. Qed.
Lemma all_zero_app l m : all_zero (l ++ m) = all_zero l && all_zero m.
Proof. apply forallb_app. Qed.
Lemma zero_count_le l : count_in (fun v => v =? 0) l <= Z.of_nat (length l)
  /\ (count_in (fun v => v =? 0) l = Z.of_nat (length l) <-> all_zero l = true).
Proof.
  induction l as [|x l (IH1 & IH2)]; [split; [cbn; lia|split; reflexivity]|].
  rewrite count_in_cons. cbn [length all_zero forallb]. fold (all_zero l). destruct (x =? 0); cbn [andb].
  - split; [lia|]. rewrite <- IH2. lia.
  - split; [lia|]. split; [lia|discriminate].
Qed.
Lemma all_zero_none l : all_zero l = true -> positives l = [] /\ negatives l = [].
Proof.
  unfold all_zero, positives, negatives. induction l as [|y l IH]; [auto|]. cbn [forallb filter].
  destruct (Z.eqb_spec y 0) as [->|]; [|discriminate]. exact IH.
Qed.
Lemma nonempty_snoc {X} (l : list X) v (P : list X -> Prop) : (forall x l', P (x :: l')) -> P (l ++ [v]).
Proof. destruct l; cbn; auto. Qed.

(** [m0]: the scale the interval started with. *)
Definition best (mx m0 m : Z) (l : list Z) : Prop :=
  m <= m0 /\ (m = m0 \/ ~ (within mx (map (idx (m + 1)) (positives l)) /\ within mx (map (idx (m + 1)) (negatives l)))).
Lemma within_app mx l r : within mx (l ++ r) -> within mx l.
Proof. intros H x y Hx Hy. apply H; apply in_or_app; now left. Qed.
Lemma best_more mx m0 m l v : best mx m0 m l -> best mx m0 m (l ++ [v]).
Proof.
  intros (H1 & H2). split; [exact H1|]. destruct H2 as [H2|H2]; [now left|right]. intros (P & N). apply H2.
  rewrite positives_app, map_app in P. rewrite negatives_app, map_app in N. split; eapply within_app; eassumption.
Qed.
Lemma aggregate_ok m0 h l v : best (eh_max_size h) m0 (eh_mapping h) l -> 2 <= eh_max_size h -> -10 <= eh_mapping h <= 20 -> Forall measurable l -> measurable v ->
  cur_ok (eh_max_size h) (eh_mapping h) (eh_cur h) l ->
  exists m' c', eh_aggregate log_floor h v
      = (EH (eh_attrs h) (eh_instr h) (eh_start h) (eh_max_size h) m' c' (eh_prev h) (eh_prev_start h), true)
    /\ -10 <= m' <= eh_mapping h /\ cur_ok (eh_max_size h) m' c' (l ++ [v]) /\ best (eh_max_size h) m0 m' (l ++ [v]).
Proof.
  intros Hbest Hmx Hm F Hv Hc. set (mx := eh_max_size h) in *. set (m := eh_mapping h) in *.
  assert (Cur : exists pos neg, or_new (ei_pos (eh_cur h)) = pos /\ or_new (ei_neg (eh_cur h)) = neg
     /\ ei_min (eh_cur h) = lmin l /\ ei_max (eh_cur h) = lmax l /\ ei_sum (eh_cur h) = total l
     /\ ei_count (eh_cur h) = Z.of_nat (length l) /\ ei_zero (eh_cur h) = count_in (fun v => v =? 0) l
     /\ (l <> [] -> ei_scale (eh_cur h) = Some (if all_zero l then 0 else m))
     /\ side_ok mx pos (map (idx m) (positives l)) /\ side_ok mx neg (map (idx m) (negatives l))).
  { unfold cur_ok in Hc. destruct l as [|x l'].
    - rewrite Hc. exists b_new, b_new. do 7 (split; [reflexivity|]). split; [congruence|]. split; apply side_new; lia.
    - destruct Hc as (pos & neg & -> & Hp & Hn). exists pos, neg. cbn [ei_pos ei_neg or_new ei_min ei_max ei_sum ei_count ei_zero ei_scale].
      do 7 (split; [reflexivity|]). split; [reflexivity|]. split; assumption. }
  destruct Cur as (pos & neg & Ep & En & Emin & Emax & Es & Ec & Ez & Esc & Sp & Sn).
  assert (Done : forall m' p n zero sc, sc = Some (if all_zero (l ++ [v]) then 0 else m') ->
     zero = count_in (fun v => v =? 0) (l ++ [v]) ->
     side_ok mx p (map (idx m') (positives (l ++ [v]))) -> side_ok mx n (map (idx m') (negatives (l ++ [v]))) ->
     cur_ok mx m' (EI (Some p) (Some n) (ext_min (lmin l) (Fin v)) (ext_max (lmax l) (Fin v)) (total l + v) (Z.of_nat (length l) + 1) zero sc) (l ++ [v])).
  { intros m' p n zero sc -> -> Hp Hn. unfold cur_ok. destruct (l ++ [v]) as [|y l'] eqn:El; [destruct l; discriminate|]. rewrite <- El in *.
    exists p, n. split; [|split; assumption]. rewrite lmin_snoc, lmax_snoc, total_app, app_length. f_equal; [|cbn; lia].
    unfold total at 3. cbn. lia. }
  unfold eh_aggregate. rewrite Ep, En, Emin, Emax, Es, Ec, Ez. fold mx m.
  destruct (Z.eqb_spec v 0) as [V0|V0].
  - subst v. eexists m, _. split; [reflexivity|]. split; [lia|]. split; [|now apply best_more]. apply Done.
    + rewrite all_zero_app. change (all_zero [0]) with true. rewrite andb_true_r.
      destruct (zero_count_le l) as (Z1 & Z2). destruct (Z.eqb_spec (Z.of_nat (length l) + 1) (count_in (fun v => v =? 0) l + 1)) as [E|E].
      * assert (all_zero l = true) as -> by (apply Z2; lia). reflexivity.
      * destruct (all_zero l) eqn:Ea; [exfalso; assert (count_in (fun v => v =? 0) l = Z.of_nat (length l)) by (now apply Z2); lia|].
        rewrite Esc; [try rewrite Ea; reflexivity|]. intros ->. discriminate.
    + rewrite count_in_app'. reflexivity.
    + rewrite positives_app. cbn [positives filter]. change (0 <? 0) with false. cbn. now rewrite app_nil_r.
    + rewrite negatives_app. change (negatives [0]) with (@nil Z). now rewrite app_nil_r.
  - assert (Dv : is_double (Z.abs v)) by (destruct Hv; [contradiction|assumption]).
    assert (Az : all_zero (l ++ [v]) = false).
    { rewrite all_zero_app. cbn [all_zero forallb]. destruct (Z.eqb_spec v 0); [contradiction|]. now rewrite andb_false_r. }
    assert (Zc : count_in (fun v => v =? 0) l = count_in (fun v => v =? 0) (l ++ [v])).
    { rewrite count_in_app'. unfold count_in at 3. cbn [filter]. destruct (Z.eqb_spec v 0); [contradiction|]. cbn. lia. }
    destruct (Z.ltb_spec 0 v) as [Pv|Pv].
    + rewrite Z.abs_eq in Dv by lia.
      destruct (place_spec mx m pos neg (positives l) (negatives l) v Hmx Hm Dv (positives_double l F) (negatives_double l F) Sp Sn)
        as (p' & n' & m' & E & Hm' & Sp' & Sn' & Bs).
      assert (Ev : positives (l ++ [v]) = positives l ++ [v] /\ negatives (l ++ [v]) = negatives l).
      { rewrite positives_app, negatives_app. cbn [positives filter]. unfold negatives at 2. cbn [filter].
        destruct (Z.ltb_spec 0 v); [|lia]. destruct (Z.ltb_spec v 0); [lia|]. cbn. rewrite app_nil_r. auto. }
      destruct Ev as (Ev1 & Ev2). rewrite <- Ev1 in Sp', Bs. rewrite <- Ev2 in Sn'.
      assert (Best : best mx m0 m' (l ++ [v])) by (destruct Bs as [->|Bs]; [now apply best_more|split; [destruct Hbest; lia|right; tauto]]).
      exists m'. unfold place in E. cbn zeta beta iota in E |- *.
      set (this := if b_len pos =? 0 then _ else pos) in *.
      destruct (if b_len pos =? 0 then None else _) as [[lo hi]|] in E |- *.
      * destruct (new_mapping (m - get_scale_change mx lo hi)) as [m2|]; [|discriminate].
        destruct (add_index _ _ _) as [t|]; [|discriminate]. injection E as -> -> ->.
        eexists. split; [reflexivity|]. split; [lia|]. split; [|exact Best]. apply Done; auto. now rewrite Az.
      * destruct (add_index _ _ _) as [t|]; [|discriminate]. injection E as -> -> ->.
        eexists. split; [reflexivity|]. split; [lia|]. split; [|exact Best]. apply Done; auto. now rewrite Az.
    + rewrite Z.abs_neq in Dv by lia.
      destruct (place_spec mx m neg pos (negatives l) (positives l) (- v) Hmx Hm Dv (negatives_double l F) (positives_double l F) Sn Sp)
        as (n' & p' & m' & E & Hm' & Sn' & Sp' & Bs).
      assert (Ev : positives (l ++ [v]) = positives l /\ negatives (l ++ [v]) = negatives l ++ [- v]).
      { rewrite positives_app, negatives_app. unfold positives at 2. unfold negatives at 2. cbn [filter].
        destruct (Z.ltb_spec 0 v); [lia|]. destruct (Z.ltb_spec v 0); [|lia]. cbn. rewrite app_nil_r. auto. }
      destruct Ev as (Ev1 & Ev2). rewrite <- Ev2 in Sn', Bs. rewrite <- Ev1 in Sp'.
      assert (Best : best mx m0 m' (l ++ [v])) by (destruct Bs as [->|Bs]; [now apply best_more|split; [destruct Hbest; lia|right; tauto]]).
      exists m'. unfold place in E. cbn zeta beta iota in E |- *.
      set (this := if b_len neg =? 0 then _ else neg) in *.
      destruct (if b_len neg =? 0 then None else _) as [[lo hi]|] in E |- *.
      * destruct (new_mapping (m - get_scale_change mx lo hi)) as [m2|]; [|discriminate].
        destruct (add_index _ _ _) as [t|]; [|discriminate]. injection E as -> -> ->.
        eexists. split; [reflexivity|]. split; [lia|]. split; [|exact Best]. apply Done; auto. now rewrite Az.
      * destruct (add_index _ _ _) as [t|]; [|discriminate]. injection E as -> -> ->.
        eexists. split; [reflexivity|]. split; [lia|]. split; [|exact Best]. apply Done; auto. now rewrite Az.
Qed.

(** ** Histories *)
Section Run.
Variable t : temporality.
Variable Inv : list mop -> list Z -> ehist -> Prop.
Variable Good : window -> Prop.
Variable R : window -> ecollected -> Prop.
Hypothesis HM : forall b s h v, Inv b s h -> measurable v ->
  exists h', eh_aggregate log_floor h v = (h', true) /\ Inv b (s ++ [v]) h'.
Hypothesis HC : forall b s h now, Inv b s h ->
  (Good (W b s now) -> snd (eh_collect h t now) <> ERaised)
  /\ (snd (eh_collect h t now) <> ERaised ->
      Inv (b ++ map Measure s ++ [Collect now]) [] (fst (eh_collect h t now)) /\ R (W b s now) (snd (eh_collect h t now))).
Definition frun (ops : list mop) (s : erun) : erun := fold_left (estep log_floor t) ops s.
Lemma frun_cons o ops s : frun (o :: ops) s = frun ops (estep log_floor t s o).
Proof. reflexivity. Qed.
Lemma frun_out ops : forall h ok out, exists h' ok' out', frun ops (ER h ok out) = ER h' ok' (out ++ out')
  /\ frun ops (ER h true []) = ER h' (er_ok (frun ops (ER h true []))) out' /\ ok' = ok && er_ok (frun ops (ER h true [])).
Proof.
  induction ops as [|o ops IH]; intros h ok out.
  - exists h, ok, []. cbn. rewrite app_nil_r, andb_true_r. auto.
  - rewrite !frun_cons. destruct o as [v|now]; unfold estep; cbn [er_hist er_ok er_points].
    + destruct (eh_aggregate log_floor h v) as [h1 ok1]. cbn [andb].
      destruct (IH h1 (ok && ok1) out) as (h' & ok' & out' & E1 & E2 & E3).
      destruct (IH h1 ok1 []) as (h2 & ok2 & out2 & E4 & E5 & E6).
      rewrite E2 in E5. injection E5 as <- <-. exists h', ok', out'.
      rewrite E1, E4. cbn [app er_ok].
      split; [reflexivity|]. split; [reflexivity|]. rewrite E3, E6. now rewrite andb_assoc.
    + destruct (eh_collect h t now) as [h1 r]. cbn [andb app].
      set (ok1 := match r with ERaised => false | _ => true end).
      destruct (IH h1 (ok && ok1) (out ++ [r])) as (h' & ok' & out' & E1 & E2 & E3).
      destruct (IH h1 ok1 [r]) as (h2 & ok2 & out2 & E4 & E5 & E6).
      rewrite E2 in E5. injection E5 as <- <-. exists h', ok', (r :: out'). rewrite E1, E4. cbn [app er_ok].
      rewrite <- app_assoc. split; [reflexivity|]. split; [reflexivity|]. rewrite E3, E6. now rewrite andb_assoc.
Qed.
Lemma run_windows ops : forall b s h, Forall measurable (measured ops) -> Inv b s h ->
  (Forall Good (windows_from b s ops) -> er_ok (frun ops (ER h true [])) = true)
  /\ (er_ok (frun ops (ER h true [])) = true -> Forall2 R (windows_from b s ops) (er_points (frun ops (ER h true [])))).
Proof.
  induction ops as [|o ops IH]; intros b s h F I; [split; [reflexivity|constructor]|].
  rewrite !frun_cons. destruct o as [v|now]; unfold estep; cbn [windows_from er_hist er_ok er_points].
  - cbn [measured] in F. inversion F as [|? ? Fv F']; subst. destruct (HM b s h v I Fv) as (h1 & -> & I1). apply IH; assumption.
  - destruct (HC b s h now I) as (C1 & C2). destruct (eh_collect h t now) as [h1 r]. cbn [fst snd] in *. cbn [andb app].
    destruct (frun_out ops h1 (match r with ERaised => false | _ => true end) [r]) as (h' & ok' & out' & E1 & E2 & E3).
    rewrite E1. cbn [er_ok er_points app].
    assert (Hr : {r <> ERaised} + {r = ERaised}) by (destruct r; [left|left|right]; congruence).
    destruct Hr as [Hr| ->].
    + destruct (C2 Hr) as (I1 & R1). cbn [measured] in F. destruct (IH _ _ _ F I1) as (J1 & J2).
      assert (E3' : ok' = er_ok (frun ops (ER h1 true []))) by (rewrite E3; destruct r; [reflexivity|reflexivity|contradiction]).
      rewrite E3'. rewrite E2 in J2 at 2. cbn [er_points] in J2. split.
      * intros G. apply J1. inversion G; assumption.
      * intros G. constructor; auto.
    + rewrite E3. cbn [andb]. split; [|discriminate]. intros G. inversion G as [|? ? G1 _]; subst. exfalso. now apply C1.
Qed.
End Run.

(** ** C44: the delta reader *)
Lemma point_ok mx m c l attrs start now : -10 <= m <= 20 -> l <> [] -> cur_ok mx m c l ->
  exists pos neg, ei_pos c = Some pos /\ ei_neg c = Some neg
    /\ exp_histogram_of log_floor mx l (point_of attrs start now c pos neg)
    /\ (all_zero l = false -> ei_scale c = Some m).
Proof.
  intros Hm Hl H. unfold cur_ok in H. destruct l as [|x l']; [contradiction|]. set (l := x :: l') in *.
  destruct H as (pos & neg & -> & Hp & Hn). exists pos, neg. split; [reflexivity|]. split; [reflexivity|]. split.
  - unfold exp_histogram_of, point_of. cbn [ep_count ep_sum ep_min ep_max ep_zero ep_scale ep_pos_offset ep_pos_counts ep_neg_offset ep_neg_counts
      ei_count ei_sum ei_min ei_max ei_zero ei_scale].
    split; [reflexivity|]. split; [reflexivity|]. split; [apply lmin_spec|]. split; [apply lmax_spec|]. split; [reflexivity|].
    destruct (all_zero l) eqn:Az.
    + exists 0. split; [reflexivity|]. split; [lia|].
      destruct (all_zero_none l Az) as (Ep & En).
      rewrite Ep in *. rewrite En in *. cbn [map] in Hp, Hn. split; apply shows_map; apply side_shows; assumption.
    + exists m. split; [reflexivity|]. split; [lia|]. split; apply shows_map; apply side_shows; assumption.
  - intros ->. reflexivity.
Qed.
Definition delta_point (mx : Z) (attrs : mattrs) (start : Z) (w : window) (r : ecollected) : Prop :=
  match w_since w with
  | [] => r = ENone
  | _ => exists p, r = EPoint p /\ exp_histogram_of log_floor mx (w_since w) p
      /\ ep_attrs p = attrs /\ ep_start p = previous_time start w /\ ep_time p = w_now w
  end.
Lemma eh_new_some attrs instr start mx ms h : eh_new attrs instr start mx ms = Some h ->
  2 <= mx /\ -10 <= ms <= 20 /\ h = EH attrs instr start mx ms ei_empty ei_empty start.
Proof.
  unfold eh_new. destruct (Z.ltb_spec mx 2); [discriminate|]. destruct (_ <? mx); [discriminate|]. cbn [orb].
  unfold new_mapping. destruct (Z.leb_spec ms 0).
  - destruct (Z.ltb_spec ms (-10)); [discriminate|]. intros [= <-]. repeat split; lia.
  - destruct (Z.ltb_spec 20 ms); [discriminate|]. intros [= <-]. repeat split; lia.
Qed.
Lemma delta_run attrs start mx ms h0 ops : eh_new attrs DELTA start mx ms = Some h0 -> Forall measurable (measured ops) ->
  er_ok (eh_run log_floor DELTA h0 ops) = true
  /\ Forall2 (delta_point mx attrs start) (windows ops) (er_points (eh_run log_floor DELTA h0 ops)).
Proof.
  intros E F. apply eh_new_some in E. destruct E as (Hmx & Hms & ->).
  destruct (run_windows DELTA
    (fun b s h => exists m c p prev_start, h = EH attrs DELTA start mx m c p prev_start /\ -10 <= m <= 20
       /\ cur_ok mx m c s /\ Forall measurable s /\ prev_start = last (collections b) start)
    (fun _ => True) (delta_point mx attrs start)) with (ops := ops) (b := @nil mop) (s := @nil Z)
    (h := EH attrs DELTA start mx ms ei_empty ei_empty start) as (H1 & H2); auto.
  - intros b s h v (m & c & p & ps & -> & Hm & Hc & Fs & Hps) Hv.
    destruct (aggregate_ok m (EH attrs DELTA start mx m c p ps) s v) as (m' & c' & Ea & Hm' & Hc' & _); auto.
    { split; [cbn; lia|now left]. }
    rewrite Ea. eexists. split; [reflexivity|]. exists m', c', p, ps. cbn [eh_attrs eh_instr eh_start eh_max_size eh_prev eh_prev_start eh_mapping] in *.
    split; [reflexivity|]. split; [lia|]. split; [exact Hc'|]. split; [|exact Hps]. apply Forall_app. auto.
  - intros b s h now (m & c & p & ps & -> & Hm & Hc & Fs & Hps). unfold eh_collect. cbn [eh_instr is_delta eh_cur eh_prev eh_attrs eh_prev_start eh_start eh_max_size eh_mapping fst snd].
    assert (P : snd (EH attrs DELTA start mx m ei_empty p now, match ei_pos c with
       | Some pos => match ei_neg c with Some neg => EPoint (point_of attrs ps now c pos neg) | None => ERaised end
       | None => match ei_neg c with Some _ => ERaised | None => ENone end end) <> ERaised /\
       delta_point mx attrs start (W b s now) (match ei_pos c with
       | Some pos => match ei_neg c with Some neg => EPoint (point_of attrs ps now c pos neg) | None => ERaised end
       | None => match ei_neg c with Some _ => ERaised | None => ENone end end)).
    { cbn [snd]. unfold delta_point. cbn [w_since w_now]. destruct s as [|x s'].
      - cbn in Hc. subst c. cbn. split; [discriminate|reflexivity].
      - destruct (point_ok mx m c (x :: s') attrs ps now Hm ltac:(discriminate) Hc) as (pos & neg & -> & -> & H & _).
        split; [discriminate|]. eexists. split; [reflexivity|]. split; [exact H|]. unfold previous_time. cbn. auto. }
    cbn [snd] in P. destruct P as (P1 & P2). split; [auto|]. intros _. split; [|exact P2].
    exists m, ei_empty, p, now. split; [reflexivity|]. split; [exact Hm|]. split; [reflexivity|]. split; [constructor|].
    rewrite collections_window, last_snoc. reflexivity.
  - exists ms, ei_empty, ei_empty, start. split; [reflexivity|]. split; [exact Hms|]. split; [reflexivity|]. split; [constructor|reflexivity].
  - fold (eh_run log_floor DELTA (EH attrs DELTA start mx ms ei_empty ei_empty start) ops) in *.
    assert (Ok : er_ok (eh_run log_floor DELTA (EH attrs DELTA start mx ms ei_empty ei_empty start) ops) = true).
    { apply H1. apply Forall_forall. auto. }
    split; [exact Ok|]. now apply H2.
Qed.
(** One interval: the scale is the best one. *)
Lemma one_interval t attrs start mx ms h0 l : eh_new attrs DELTA start mx ms = Some h0 -> Forall measurable l ->
  exists m c, er_hist (eh_run log_floor t h0 (map Measure l)) = EH attrs DELTA start mx m c ei_empty start
    /\ er_ok (eh_run log_floor t h0 (map Measure l)) = true /\ er_points (eh_run log_floor t h0 (map Measure l)) = []
    /\ -10 <= m <= 20 /\ cur_ok mx m c l /\ best mx ms m l.
Proof.
  intros E F. apply eh_new_some in E. destruct E as (Hmx & Hms & ->). unfold eh_run.
  induction l as [|v l IH] using rev_ind.
  - exists ms, ei_empty. cbn. repeat split; auto; try lia.
  - apply Forall_app in F. destruct F as (F & Fv). inversion Fv; subst. destruct (IH F) as (m & c & E1 & E2 & E3 & Hm & Hc & Hb).
    rewrite map_app, fold_left_app. cbn [map fold_left]. destruct (fold_left _ (map Measure l) _) as [h ok out]. cbn [er_hist er_ok er_points] in *. subst.
    cbn [estep er_hist er_ok er_points].
    destruct (aggregate_ok ms (EH attrs DELTA start mx m c ei_empty start) l v) as (m' & c' & Ea & Hm' & Hc' & Hb'); auto.
    rewrite Ea. exists m', c'. cbn [eh_attrs eh_instr eh_start eh_max_size eh_prev eh_prev_start eh_mapping er_hist er_ok er_points] in *.
    repeat (split; [reflexivity||lia|]). auto.
Qed.
Lemma best_scale attrs start mx ms h0 l now p : eh_new attrs DELTA start mx ms = Some h0 -> Forall measurable l ->
  er_points (eh_run log_floor DELTA h0 (map Measure l ++ [Collect now])) = [EPoint p] -> (exists v, In v l /\ v <> 0) ->
  forall scale s, ep_scale p = Some scale -> scale < s <= ms ->
  ~ (within mx (map (map_to_index log_floor s) (positives l)) /\ within mx (map (map_to_index log_floor s) (negatives l))).
Proof.
  intros E F Hp (v & Hv & Nv) scale s Hs Hlt. destruct (one_interval DELTA attrs start mx ms h0 l E F) as (m & c & E1 & E2 & E3 & Hm & Hc & Hb).
  apply eh_new_some in E. destruct E as (Hmx & Hms & ->).
  unfold eh_run in *. rewrite fold_left_app in Hp. destruct (fold_left _ (map Measure l) _) as [h ok out]. cbn [er_hist er_ok er_points] in *. subst.
  cbn [fold_left estep er_hist] in Hp. unfold eh_collect in Hp.
  cbn [eh_instr is_delta eh_cur eh_prev eh_attrs eh_prev_start eh_start eh_max_size eh_mapping er_points app] in Hp.
  destruct (point_ok mx m c l attrs start now Hm ltac:(intros ->; contradiction) Hc) as (pos & neg & Ep & En & _ & Sc).
  rewrite Ep, En in Hp. injection Hp as <-. cbn [ep_scale point_of] in Hs. rewrite Sc in Hs.
  2:{ destruct (all_zero l) eqn:Az; [|reflexivity]. exfalso. unfold all_zero in Az. rewrite forallb_forall in Az. specialize (Az v Hv). apply Z.eqb_eq in Az. contradiction. }
  injection Hs as <-. destruct Hb as (_ & [->|Hb]); [lia|]. intros (P & N). apply Hb.
  assert (D : forall L, Forall is_double L -> within mx (map (idx s) L) -> within mx (map (idx (m + 1)) L)).
  { intros L FL Wn x y Hx Hy. apply in_map_iff in Hx. destruct Hx as (x0 & <- & Hx). apply in_map_iff in Hy. destruct Hy as (y0 & <- & Hy).
    assert (G : forall z, In z L -> idx (m + 1) z = Z.shiftr (idx s z) (s - (m + 1))).
    { intros z Hz. set (k := s - (m + 1)). replace (m + 1) with (s - k) by lia. unfold idx. apply map_shift; auto; try lia. rewrite Forall_forall in FL. auto. }
    rewrite !G by assumption. specialize (Wn (idx s x0) (idx s y0) (in_map _ _ _ Hx) (in_map _ _ _ Hy)).
    destruct (Z_le_gt_dec (idx s y0) (idx s x0)) as [L0|L0].
    - pose proof (out_le (idx s y0) (s - (m + 1)) ltac:(lia) (Z.to_nat (idx s x0 - idx s y0))) as O. unfold out in O.
      replace (idx s y0 + Z.of_nat (Z.to_nat (idx s x0 - idx s y0))) with (idx s x0) in O by lia. lia.
    - pose proof (shiftr_mono (s - (m + 1)) (idx s x0) (idx s y0) ltac:(lia) ltac:(lia)). lia. }
  split; apply D; auto using positives_double, negatives_double.
Qed.
Lemma shows_total index mx l o c : shows index mx l o c -> total c = Z.of_nat (length l).
Proof.
  intros (_ & H2 & H3). 
  assert (E : c = map (fun q => count_in (fun v => index v =? o + Z.of_nat q) l) (seq 0 (length c))).
  { apply nth_ext with (d := 0) (d' := 0); [now rewrite map_length, seq_length|]. intros n Hn. rewrite (H3 n Hn).
    set (f := fun q => count_in (fun v => index v =? o + Z.of_nat q) l).
    rewrite nth_indep with (d' := f 0%nat) by (now rewrite map_length, seq_length).
    rewrite map_nth, seq_nth by exact Hn. reflexivity. }
  rewrite E. clear E H3. revert H2. generalize (length c) as n. intros n H. induction l as [|v l IH].
  - cbn [length]. rewrite total_map_zero; [reflexivity|]. reflexivity.
  - rewrite (map_ext _ (fun q => (if index v =? o + Z.of_nat q then 1 else 0) + count_in (fun v => index v =? o + Z.of_nat q) l)) by (intros q; apply (count_in_cons (fun v => index v =? o + Z.of_nat q))).
    rewrite total_map_add, IH by (intros; apply H; now right). cbn [length].
    pose proof (H v (or_introl eq_refl)) as Hv.
    rewrite (total_single _ n (Z.to_nat (index v - o))); [|lia|].
    + rewrite Z2Nat.id by lia. replace (o + (index v - o)) with (index v) by lia. rewrite Z.eqb_refl. lia.
    + intros x Hx. destruct (Z.eqb_spec (index v) (o + Z.of_nat x)); [lia|reflexivity].
Qed.
Lemma sign_split l : Z.of_nat (length l) = count_in (fun v => v =? 0) l + Z.of_nat (length (positives l)) + Z.of_nat (length (negatives l)).
Proof.
  unfold positives, negatives. rewrite map_length. induction l as [|v l IH]; [reflexivity|]. rewrite count_in_cons. cbn [filter length].
  destruct (Z.eqb_spec v 0), (Z.ltb_spec 0 v), (Z.ltb_spec v 0); cbn [length]; lia.
Qed.
Lemma histogram_total mx l p : exp_histogram_of log_floor mx l p ->
  ep_count p = ep_zero p + total (ep_pos_counts p) + total (ep_neg_counts p).
Proof.
  intros (H1 & _ & _ & _ & H5 & scale & _ & _ & Hp & Hn).
  rewrite H1, H5, (shows_total _ _ _ _ _ Hp), (shows_total _ _ _ _ _ Hn). apply sign_split.
Qed.
End Hist.
