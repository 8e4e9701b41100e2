(** The exponential histogram with a cumulative reader: merging the interval into what came before. *)
From Coq Require Import Lia.
From Verif Require Import Spec_ExpHist Proof_Metrics Proof_ExpMapping Proof_Buckets Proof_ExpHist.
Local Open Scope Z_scope.
Local Arguments total : simpl never.

(** ** [merge] *)
Definition pos_index (b : buckets) (i : Z) : Z :=
  let ci := b_base b + i in if b_end b <? ci then ci - size b else ci.
Lemma pos_index_cell b x : wf b -> b_start b <= x <= b_end b -> pos_index b (Z.of_nat (cell b x)) = x.
Proof.
  intros (H1 & H2 & _) Hx. unfold pos_index, cell. destruct (Z.ltb_spec x (b_base b)); rewrite Z2Nat.id by lia;
    match goal with |- context [b_end b <? ?y] => destruct (Z.ltb_spec (b_end b) y) end; lia.
Qed.
Lemma cell_pos_index b i : wf b -> (i < length (b_counts b))%nat -> nth i (b_counts b) 0 <> 0 ->
  b_start b <= pos_index b (Z.of_nat i) <= b_end b /\ cell b (pos_index b (Z.of_nat i)) = i.
Proof.
  intros (H1 & H2 & H3) Hi Hn. assert (Hs : Z.of_nat i < size b) by (unfold size; lia). unfold pos_index.
  destruct (Z.ltb_spec (b_end b) (b_base b + Z.of_nat i)).
  - destruct (Z_lt_le_dec (b_base b + Z.of_nat i) (b_start b + size b)) as [L|L].
    + exfalso. apply Hn. specialize (H3 (b_base b + Z.of_nat i) ltac:(lia)).
      replace (cell b (b_base b + Z.of_nat i)) with i in H3; [exact H3|]. unfold cell.
      destruct (Z.ltb_spec (b_base b + Z.of_nat i) (b_base b)); lia.
    + split; [lia|]. unfold cell. destruct (Z.ltb_spec (b_base b + Z.of_nat i - size b) (b_base b)); lia.
  - split; [lia|]. unfold cell. destruct (Z.ltb_spec (b_base b + Z.of_nat i) (b_base b)); lia.
Qed.
Lemma cell_count b l i : wf b -> rep b l -> (i < length (b_counts b))%nat ->
  nth i (b_counts b) 0 = count_in (fun x => Nat.eqb (cell b x) i) l.
Proof.
  intros W R Hi. pose proof W as (H1 & H2 & _). assert (Hs : Z.of_nat i < size b) by (unfold size; lia).
  set (x := if b_base b + Z.of_nat i <? b_start b + size b then b_base b + Z.of_nat i else b_base b + Z.of_nat i - size b).
  assert (Hx : b_start b <= x < b_start b + size b) by (unfold x; destruct (Z.ltb_spec (b_base b + Z.of_nat i) (b_start b + size b)); lia).
  assert (Cx : cell b x = i).
  { unfold x, cell. destruct (Z.ltb_spec (b_base b + Z.of_nat i) (b_start b + size b)).
    - destruct (Z.ltb_spec (b_base b + Z.of_nat i) (b_base b)); lia.
    - destruct (Z.ltb_spec (b_base b + Z.of_nat i - size b) (b_base b)); lia. }
  rewrite <- Cx at 1. rewrite <- count_at_cell by assumption. rewrite R. unfold count_in. do 2 f_equal.
  apply filter_ext_in. intros y Hy. pose proof (rep_range b l y W R Hy) as Ry.
  destruct (Nat.eqb_spec (cell b y) i) as [E|E], (Z.eqb_spec y x) as [E'|E']; auto; exfalso.
  - apply E'. apply (cell_inj b); auto; try lia; congruence.
  - apply E. now subst y.
Qed.
Lemma cell_regroup b l k j : wf b -> rep b l ->
  total (map (fun i => if Z.shiftr (pos_index b (Z.of_nat i)) k =? j then nth i (b_counts b) 0 else 0) (seq 0 (length (b_counts b))))
  = count_in (fun x => x =? j) (map (fun i => Z.shiftr i k) l).
Proof.
  intros W R. pose proof W as (H1 & H2 & _).
  rewrite (map_ext_in _ (fun i => if Z.shiftr (pos_index b (Z.of_nat i)) k =? j then count_in (fun x => Nat.eqb (cell b x) i) l else 0)).
  2:{ intros i Hi. apply in_seq in Hi. rewrite (cell_count b l i W R) by lia. reflexivity. }
  assert (Rg : forall x, In x l -> b_start b <= x <= b_end b) by (intros x Hx; now apply (rep_range b l x)).
  clear R. induction l as [|x l IH].
  - rewrite total_map_zero; [reflexivity|]. intros i _. destruct (_ =? j); reflexivity.
  - cbn [map]. rewrite count_in_cons, <- IH by (intros; apply Rg; now right).
    pose proof (Rg x (or_introl eq_refl)) as Hx.
    rewrite (map_ext _ (fun i => (if Z.shiftr (pos_index b (Z.of_nat i)) k =? j then if Nat.eqb (cell b x) i then 1 else 0 else 0)
       + (if Z.shiftr (pos_index b (Z.of_nat i)) k =? j then count_in (fun x => Nat.eqb (cell b x) i) l else 0))).
    2:{ intros i. rewrite (count_in_cons (fun x => Nat.eqb (cell b x) i)). destruct (_ =? j); [reflexivity|lia]. }
    rewrite total_map_add. f_equal. rewrite (total_single _ _ (cell b x)).
    + rewrite pos_index_cell by assumption. rewrite Nat.eqb_refl. reflexivity.
    + apply cell_lt; [exact W|]. lia.
    + intros i Hi. destruct (_ =? j); [|reflexivity]. destruct (Nat.eqb_spec (cell b x) i); congruence.
Qed.

Lemma merge_one_spec mx prev i d : wf prev -> size prev <= mx ->
  (b_end prev - i < mx /\ i - b_start prev < mx /\ exists b', merge_one mx prev i d = (b', true) /\ wf b' /\ size b' <= mx
     /\ b_start b' = Z.min (b_start prev) i /\ b_end b' = Z.max (b_end prev) i
     /\ forall j, count_at b' j = count_at prev j + (if j =? i then d else 0))
  \/ (snd (merge_one mx prev i d) = false /\ ~ (b_end prev - i < mx /\ i - b_start prev < mx)).
Proof.
  intros W S. pose proof W as (H1 & H2 & _).
  assert (Ok : b_end prev - i < mx -> i - b_start prev < mx -> exists b', add_index (make_room prev i mx) i d = Some b' /\ wf b' /\ size b' <= mx
     /\ b_start b' = Z.min (b_start prev) i /\ b_end b' = Z.max (b_end prev) i
     /\ forall j, count_at b' j = count_at prev j + (if j =? i then d else 0)).
  { intros D1 D2. destruct (make_room_spec prev i mx W S D1 D2) as (W1 & S1 & St1 & E1 & C1).
    destruct (add_index_spec (make_room prev i mx) i d W1 ltac:(lia)) as (b' & Ea & W2 & S2 & St2 & E2 & C2).
    exists b'. split; [exact Ea|]. split; [exact W2|]. split; [lia|]. split; [lia|]. split; [lia|]. intros j. now rewrite C2, C1. }
  unfold merge_one. destruct (Z.ltb_spec i (b_start prev)) as [L|L]; cbn [andb].
  - destruct (Z.leb_spec mx (b_end prev - i)); [right; split; [reflexivity|lia]|]. left.
    destruct (Ok ltac:(lia) ltac:(lia)) as (b' & Eb & Hb).
    assert (En : b_end (make_room prev i mx) <? i = false).
    { apply Z.ltb_ge. destruct (make_room_spec prev i mx W S ltac:(lia) ltac:(lia)) as (_ & _ & _ & E1 & _). lia. }
    rewrite En. cbn [andb]. rewrite Eb. split; [lia|]. split; [lia|]. exists b'. auto.
  - destruct (Z.ltb_spec (b_end prev) i) as [G|G]; cbn [andb].
    + destruct (Z.leb_spec mx (i - b_start prev)); [right; split; [reflexivity|lia]|]. left.
      destruct (Ok ltac:(lia) ltac:(lia)) as (b' & Eb & Hb). rewrite Eb. split; [lia|]. split; [lia|]. exists b'. auto.
    + left. destruct (Ok ltac:(lia) ltac:(lia)) as (b' & Eb & Hb).
      assert (Em : make_room prev i mx = prev).
      { unfold make_room. destruct (Z.ltb_spec i (b_start prev)); [lia|]. destruct (Z.ltb_spec (b_end prev) i); [lia|reflexivity]. }
      rewrite Em in Eb. rewrite Eb. split; [lia|]. split; [lia|]. exists b'. auto.
Qed.

Lemma merge_from_spec mx cur k l : forall prev i, wf prev -> size prev <= mx ->
  let r := merge_from mx prev cur k i l in
  let at_ q := Z.shiftr (pos_index cur (i + Z.of_nat q)) k in
  (snd r = true -> wf (fst r) /\ size (fst r) <= mx
     /\ (forall j, count_at (fst r) j = count_at prev j + total (map (fun q => if at_ q =? j then nth q l 0 else 0) (seq 0 (length l))))
     /\ forall Q : Z -> Prop, Q (b_start prev) -> Q (b_end prev) -> (forall q, (q < length l)%nat -> nth q l 0 <> 0 -> Q (at_ q)) ->
        Q (b_start (fst r)) /\ Q (b_end (fst r)))
  /\ (forall lo hi, hi - lo < mx -> lo <= b_start prev -> b_end prev <= hi ->
        (forall q, (q < length l)%nat -> nth q l 0 <> 0 -> lo <= at_ q <= hi) -> snd r = true).
Proof.
  induction l as [|x l IH]; intros prev i W S; cbn [merge_from].
  - cbn [fst snd length seq map]. split; [|reflexivity]. intros _. split; [exact W|]. split; [exact S|].
    split; [intros j; change (total []) with 0; lia|]. auto.
  - change (b_base cur + i) with (b_base cur + i). fold (size cur).
    change (if b_end cur <? b_base cur + i then b_base cur + i - size cur else b_base cur + i) with (pos_index cur i).
    assert (At : forall q, pos_index cur (i + 1 + Z.of_nat q) = pos_index cur (i + Z.of_nat (Datatypes.S q))) by (intros q; f_equal; lia).
    assert (Sum : forall j, total (map (fun q => if Z.shiftr (pos_index cur (i + Z.of_nat q)) k =? j then nth q (x :: l) 0 else 0) (seq 0 (length (x :: l))))
       = (if Z.shiftr (pos_index cur i) k =? j then x else 0)
         + total (map (fun q => if Z.shiftr (pos_index cur (i + 1 + Z.of_nat q)) k =? j then nth q l 0 else 0) (seq 0 (length l)))).
    { intros j. cbn [length seq map]. rewrite <- seq_shift, map_map. unfold total. cbn [fold_right]. fold (total).
      cbn [nth]. change (Z.of_nat 0) with 0. rewrite Z.add_0_r. do 2 f_equal. apply map_ext. intros q. now rewrite At. }
    destruct (Z.eqb_spec x 0) as [X0|X0].
    + destruct (IH prev (i + 1) W S) as (I1 & I2). cbn zeta in *. split.
      * intros Hr. destruct (I1 Hr) as (J1 & J2 & J3 & J4). split; [exact J1|]. split; [exact J2|]. split.
        -- intros j. rewrite Sum, J3. destruct (_ =? j); lia.
        -- intros Q Q1 Q2 Q3. apply J4; auto. intros q Hq Hn. rewrite At. apply Q3; [cbn; lia|exact Hn].
      * intros lo hi B1 B2 B3 B4. apply (I2 lo hi); auto. intros q Hq Hn. rewrite At. apply B4; [cbn; lia|exact Hn].
    + destruct (merge_one_spec mx prev (Z.shiftr (pos_index cur i) k) x W S) as [(D1 & D2 & b' & Eb & W' & S' & St & En & C)|(Eb & D)].
      * rewrite Eb. destruct (IH b' (i + 1) W' S') as (I1 & I2). cbn zeta in *. split.
        -- intros Hr. destruct (I1 Hr) as (J1 & J2 & J3 & J4). split; [exact J1|]. split; [exact J2|]. split.
           ++ intros j. rewrite Sum, J3, C, (Z.eqb_sym j). lia.
           ++ intros Q Q1 Q2 Q3.
              assert (Q0 : Q (Z.shiftr (pos_index cur i) k)).
              { specialize (Q3 0%nat ltac:(cbn; lia) X0). change (Z.of_nat 0) with 0 in Q3. now rewrite Z.add_0_r in Q3. }
              apply J4.
              ** rewrite St. destruct (Z.min_spec (b_start prev) (Z.shiftr (pos_index cur i) k)) as [[_ ->]|[_ ->]]; assumption.
              ** rewrite En. destruct (Z.max_spec (b_end prev) (Z.shiftr (pos_index cur i) k)) as [[_ ->]|[_ ->]]; assumption.
              ** intros q Hq Hn. rewrite At. apply Q3; [cbn; lia|exact Hn].
        -- intros lo hi B1 B2 B3 B4.
           assert (B0 : lo <= Z.shiftr (pos_index cur i) k <= hi).
           { specialize (B4 0%nat ltac:(cbn; lia) X0). change (Z.of_nat 0) with 0 in B4. now rewrite Z.add_0_r in B4. }
           apply (I2 lo hi); try lia. intros q Hq Hn. rewrite At. apply B4; [cbn; lia|exact Hn].
      * destruct (merge_one mx prev (Z.shiftr (pos_index cur i) k) x) as [pr ok]. cbn [snd] in Eb. subst ok. cbn [fst snd]. split; [discriminate|].
        intros lo hi B1 B2 B3 B4. exfalso. apply D.
        assert (B0 : lo <= Z.shiftr (pos_index cur i) k <= hi).
        { specialize (B4 0%nat ltac:(cbn; lia) X0). change (Z.of_nat 0) with 0 in B4. now rewrite Z.add_0_r in B4. }
        pose proof W as (G1 & G2 & _). lia.
Qed.
(** With what both sides hold. *)
Lemma merge_spec mx prev cur scale ms P L : wf prev -> size prev <= mx -> rep prev P -> wf cur -> rep cur L ->
  let r := merge mx prev cur scale ms in
  let k := scale - ms in
  (snd r = true -> wf (fst r) /\ size (fst r) <= mx /\ rep (fst r) (P ++ map (fun i => Z.shiftr i k) L)
     /\ forall Q : Z -> Prop, Q (b_start prev) -> Q (b_end prev) -> (forall x, In x L -> Q (Z.shiftr x k)) ->
        Q (b_start (fst r)) /\ Q (b_end (fst r)))
  /\ (forall lo hi, hi - lo < mx -> lo <= b_start prev -> b_end prev <= hi ->
        (forall x, In x L -> lo <= Z.shiftr x k <= hi) -> snd r = true).
Proof.
  intros W S R Wc Rc r k. destruct (merge_from_spec mx cur k (b_counts cur) prev 0 W S) as (M1 & M2).
  fold (merge mx prev cur scale ms) in M1, M2. fold r in M1, M2. cbn zeta in M1, M2.
  assert (Nz : forall q, (q < length (b_counts cur))%nat -> nth q (b_counts cur) 0 <> 0 -> In (pos_index cur (Z.of_nat q)) L).
  { intros q Hq Hn. destruct (cell_pos_index cur q Wc Hq Hn) as (Hp & Hcell). set (x := pos_index cur (Z.of_nat q)) in *.
    assert (C : count_at cur x <> 0).
    { rewrite count_at_cell by (auto; destruct Wc as (? & ? & _); lia). rewrite Hcell. exact Hn. }
    rewrite Rc in C. clearbody x. clear -C. induction L as [|y L IH]; [cbn in C; contradiction|].
    rewrite count_in_cons in C. destruct (Z.eqb_spec y x); [now left|right; apply IH; lia]. }
  split.
  - intros Hr. destruct (M1 Hr) as (J1 & J2 & J3 & J4). split; [exact J1|]. split; [exact J2|]. split.
    + intros j. rewrite J3, R, count_in_app'. f_equal. apply (cell_regroup cur L k j Wc Rc).
    + intros Q Q1 Q2 Q3. apply J4; auto. intros q Hq Hn. apply Q3. now apply Nz.
  - intros lo hi B1 B2 B3 B4. apply (M2 lo hi); auto. intros q Hq Hn. apply B4. now apply Nz.
Qed.

(** ** Sides that need not be tight *)
Definition low (s x : Z) : Prop := -1 <= Z.shiftr x (s + 10) <= 0.
Definition loose (mx s : Z) (b : buckets) (l : list Z) : Prop :=
  wf b /\ size b <= mx /\ rep b l /\ low s (b_start b) /\ low s (b_end b).
Lemma low_shift s k x : low s x -> 0 <= k -> -10 <= s - k -> low (s - k) (Z.shiftr x k).
Proof. unfold low. intros H Hk Hs. rewrite Z.shiftr_shiftr by lia. replace (k + (s - k + 10)) with (s + 10) by lia. exact H. Qed.
Lemma loose_copy mx s b l : loose mx s b l -> loose mx s (copy_empty b) [].
Proof.
  intros (W & S & _ & L1 & L2). destruct W as (H1 & H2 & H3).
  assert (Sz : size (copy_empty b) = size b) by (unfold size, copy_empty; cbn [b_counts]; now rewrite map_length).
  assert (N : forall n, nth n (b_counts (copy_empty b)) 0 = 0).
  { intros n. cbn [copy_empty b_counts]. clear. revert n. induction (b_counts b) as [|x c IH]; intros [|n]; cbn; auto. }
  assert (W' : wf (copy_empty b)).
  { split; [exact H1|]. split; [rewrite Sz; exact H2|]. intros i _. apply N. }
  split; [exact W'|]. split; [lia|]. split; [|split; assumption].
  intros i. change (count_in _ []) with 0. destruct (Z_lt_le_dec i (b_start (copy_empty b))); [apply count_at_out; auto|].
  destruct (Z_lt_le_dec (b_end (copy_empty b)) i); [apply count_at_out; auto|].
  rewrite count_at_cell; [apply N|exact W'|]. destruct W' as (? & ? & _). lia.
Qed.

Section Hist.
Variable log_floor : Z -> Z -> Z.
Hypothesis Cons : log_consistent log_floor.
Let idx := map_to_index log_floor.

Lemma idx_low s v : -10 <= s <= 20 -> is_double v -> low s (idx s v).
Proof.
  intros Hs Dv. unfold low, idx. rewrite <- map_shift by (auto; lia). replace (s - (s + 10)) with (-10) by lia. now apply map_lowest.
Qed.
Lemma side_loose mx s b A : 1 <= mx -> -10 <= s <= 20 -> Forall is_double A -> side_ok mx b (map (idx s) A) -> loose mx s b (map (idx s) A).
Proof.
  intros Hmx Hs F (W & S & R & E & T). split; [exact W|]. split; [exact S|]. split; [exact R|].
  destruct A as [|a A]; cbn [map] in *.
  - rewrite (E eq_refl). cbn [b_new b_start b_end]. unfold low. rewrite Z.shiftr_0_l. lia.
  - destruct (T ltac:(discriminate)) as (Ts & Te).
    assert (G : forall x, In x (map (idx s) (a :: A)) -> low s x).
    { intros x Hx. apply in_map_iff in Hx. destruct Hx as (v & <- & Hv). apply idx_low; auto. rewrite Forall_forall in F. auto. }
    split; apply G; assumption.
Qed.
Lemma loose_down mx s b A k : Forall is_double A -> 0 <= k -> -10 <= s - k -> s <= 20 -> loose mx s b (map (idx s) A) ->
  loose mx (s - k) (downscale_by b k) (map (idx (s - k)) A)
  /\ b_start (downscale_by b k) = Z.shiftr (b_start b) k /\ b_end (downscale_by b k) = Z.shiftr (b_end b) k.
Proof.
  intros F Hk Hs Hs' (W & S & R & L1 & L2). unfold downscale_by. destruct (Z.eqb_spec k 0) as [->|N].
  - rewrite Z.sub_0_r, !Z.shiftr_0_r. repeat split; auto; try apply W; try apply L1; apply L2.
  - destruct (downscale_spec b k _ W Hk R) as (W' & S' & St & En & R'). rewrite (map_indexes log_floor Cons) in R' by (auto; lia).
    split; [|auto]. split; [exact W'|]. split; [lia|]. split; [exact R'|]. rewrite St, En. split; apply low_shift; assumption.
Qed.
Lemma shift_span k a b : 0 <= k -> a <= b -> 0 <= Z.shiftr b k - Z.shiftr a k <= b - a.
Proof.
  intros Hk H. pose proof (shiftr_mono k a b Hk H). pose proof (out_le a k Hk (Z.to_nat (b - a))) as O. unfold out in O.
  replace (a + Z.of_nat (Z.to_nat (b - a))) with b in O by lia. lia.
Qed.
(** The ranges compared, and the change of scale they need. *)
Lemma low_high mx prev cur ps sc P L : 2 <= mx -> loose mx ps prev P -> loose mx sc cur L -> -10 <= ps -> -10 <= sc ->
  let ms0 := Z.min ps sc in
  let r := get_low_high_both prev cur ps sc ms0 in
  let c := get_scale_change mx (fst r) (snd r) in
  0 <= c <= ms0 + 10 /\ forall ms, ms <= ms0 - c -> exists lo hi, hi - lo < mx
    /\ (b_counts prev <> [0] -> lo <= Z.shiftr (b_start prev) (ps - ms) /\ Z.shiftr (b_end prev) (ps - ms) <= hi)
    /\ (b_counts cur <> [0] -> lo <= Z.shiftr (b_start cur) (sc - ms) /\ Z.shiftr (b_end cur) (sc - ms) <= hi).
Proof.
  intros Hmx (Wp & _ & _ & Lp1 & Lp2) (Wc & _ & _ & Lc1 & Lc2) Hps Hsc ms0 r c.
  destruct Wp as (P1 & P2 & _). destruct Wc as (C1 & C2 & _).
  (* one side *)
  assert (One : forall b s, b_start b <= b_end b -> low s (b_start b) -> low s (b_end b) -> ms0 <= s -> -10 <= ms0 ->
     (b_counts b = [0] /\ get_low_high b s ms0 = (0, -1))
     \/ (b_counts b <> [0] /\ get_low_high b s ms0 = (Z.shiftr (b_start b) (s - ms0), Z.shiftr (b_end b) (s - ms0))
         /\ Z.shiftr (b_start b) (s - ms0) <= Z.shiftr (b_end b) (s - ms0)
         /\ low ms0 (Z.shiftr (b_start b) (s - ms0)) /\ low ms0 (Z.shiftr (b_end b) (s - ms0)))).
  { intros b s Hse Ls Le Hms Hlo. unfold get_low_high. destruct (list_eq_dec Z.eq_dec (b_counts b) [0]) as [->|N]; [left; auto|right].
    split; [exact N|]. split.
    - destruct (b_counts b) as [|[|?|?] [|? ?]]; try reflexivity. contradiction.
    - split; [apply shiftr_mono; lia|].
      assert (Q : forall x, low s x -> low ms0 (Z.shiftr x (s - ms0))).
      { intros x Hx. replace ms0 with (s - (s - ms0)) at 1 by lia. apply low_shift; auto; lia. }
      auto. }
  assert (Fin : forall lo hi, lo <= hi -> low ms0 lo -> low ms0 hi -> fst r = lo -> snd r = hi ->
     0 <= c <= ms0 + 10 /\ forall ms, ms <= ms0 - c -> Z.shiftr hi (ms0 - ms) - Z.shiftr lo (ms0 - ms) < mx).
  { intros lo hi Hlh Hl Hh E1 E2. unfold c. rewrite E1, E2.
    destruct (scale_change_fits mx lo hi Hmx Hlh) as (F1 & F2). cbn zeta in F1, F2. set (cc := get_scale_change mx lo hi) in *.
    assert (F3 : cc <= ms0 + 10) by (apply scale_change_least; [lia|unfold low in *; lia]).
    split; [lia|]. intros ms Hms. replace (ms0 - ms) with (cc + (ms0 - cc - ms)) by lia. rewrite <- !Z.shiftr_shiftr by lia.
    pose proof (shift_span (ms0 - cc - ms) (Z.shiftr lo cc) (Z.shiftr hi cc) ltac:(lia) (shiftr_mono cc lo hi F1 Hlh)). lia. }
  assert (More : forall x s lo ms, ms <= ms0 -> ms0 <= s -> lo <= Z.shiftr x (s - ms0) -> Z.shiftr lo (ms0 - ms) <= Z.shiftr x (s - ms)).
  { intros x s lo ms H1 H2 H3. replace (s - ms) with ((s - ms0) + (ms0 - ms)) by lia. rewrite <- Z.shiftr_shiftr by lia. apply shiftr_mono; lia. }
  assert (Less : forall x s hi ms, ms <= ms0 -> ms0 <= s -> Z.shiftr x (s - ms0) <= hi -> Z.shiftr x (s - ms) <= Z.shiftr hi (ms0 - ms)).
  { intros x s hi ms H1 H2 H3. replace (s - ms) with ((s - ms0) + (ms0 - ms)) by lia. rewrite <- Z.shiftr_shiftr by lia. apply shiftr_mono; lia. }
  assert (Min1 : ms0 <= ps) by (unfold ms0; lia). assert (Min2 : ms0 <= sc) by (unfold ms0; lia). assert (Min3 : -10 <= ms0) by (unfold ms0; lia).
  destruct (One prev ps ltac:(lia) Lp1 Lp2 Min1 Min3) as [(Ep & Gp)|(Ep & Gp & Op & Qp1 & Qp2)],
           (One cur sc ltac:(lia) Lc1 Lc2 Min2 Min3) as [(Ec & Gc)|(Ec & Gc & Oc & Qc1 & Qc2)].
  - assert (Er : r = (0, -1)) by (unfold r, get_low_high_both; rewrite Gp, Gc; reflexivity).
    assert (E0 : c = 0) by (unfold c; rewrite Er; apply scale_change_empty; lia).
    rewrite E0. split; [lia|]. intros ms _. exists 0, 0. split; [lia|]. split; contradiction.
  - set (lo := Z.shiftr (b_start cur) (sc - ms0)) in *. set (hi := Z.shiftr (b_end cur) (sc - ms0)) in *.
    assert (Er : r = (lo, hi)).
    { unfold r, get_low_high_both. rewrite Gp, Gc. destruct (Z.ltb_spec hi lo); [lia|]. reflexivity. }
    destruct (Fin lo hi Oc Qc1 Qc2) as (F1 & F2); [now rewrite Er|now rewrite Er|]. split; [exact F1|]. intros ms Hms.
    exists (Z.shiftr lo (ms0 - ms)), (Z.shiftr hi (ms0 - ms)). split; [now apply F2|]. split; [contradiction|].
    intros _. split; [apply More|apply Less]; unfold lo, hi; lia.
  - set (lo := Z.shiftr (b_start prev) (ps - ms0)) in *. set (hi := Z.shiftr (b_end prev) (ps - ms0)) in *.
    assert (Er : r = (lo, hi)) by (unfold r, get_low_high_both; rewrite Gp, Gc; reflexivity).
    destruct (Fin lo hi Op Qp1 Qp2) as (F1 & F2); [now rewrite Er|now rewrite Er|]. split; [exact F1|]. intros ms Hms.
    exists (Z.shiftr lo (ms0 - ms)), (Z.shiftr hi (ms0 - ms)). split; [now apply F2|]. split; [|contradiction].
    intros _. split; [apply More|apply Less]; unfold lo, hi; lia.
  - set (lo := Z.min (Z.shiftr (b_start prev) (ps - ms0)) (Z.shiftr (b_start cur) (sc - ms0))).
    set (hi := Z.max (Z.shiftr (b_end prev) (ps - ms0)) (Z.shiftr (b_end cur) (sc - ms0))).
    assert (Er : r = (lo, hi)).
    { unfold r, get_low_high_both. rewrite Gp, Gc. destruct (Z.ltb_spec (Z.shiftr (b_end cur) (sc - ms0)) (Z.shiftr (b_start cur) (sc - ms0))); [lia|].
      destruct (Z.ltb_spec (Z.shiftr (b_end prev) (ps - ms0)) (Z.shiftr (b_start prev) (ps - ms0))); [lia|]. reflexivity. }
    destruct (Fin lo hi) as (F1 & F2); [unfold lo, hi; lia| | |now rewrite Er|now rewrite Er|].
    { unfold lo. destruct (Z.min_spec (Z.shiftr (b_start prev) (ps - ms0)) (Z.shiftr (b_start cur) (sc - ms0))) as [[_ ->]|[_ ->]]; assumption. }
    { unfold hi. destruct (Z.max_spec (Z.shiftr (b_end prev) (ps - ms0)) (Z.shiftr (b_end cur) (sc - ms0))) as [[_ ->]|[_ ->]]; assumption. }
    split; [exact F1|]. intros ms Hms. exists (Z.shiftr lo (ms0 - ms)), (Z.shiftr hi (ms0 - ms)). split; [now apply F2|].
    split; intros _; (split; [apply More|apply Less]; unfold lo, hi; lia).
Qed.

(** One side of a cumulative collection.  [Fresh]: the previous buckets are an empty copy of the current ones. *)
Definition compatible (prev cur : buckets) (ps sc : Z) (P L : list Z) : Prop :=
  L = [] \/ P <> [] \/ (ps = sc /\ b_start prev = b_start cur /\ b_end prev = b_end cur).
Lemma side_merge mx prev cur ps sc ms A B : 2 <= mx -> Forall is_double A -> Forall is_double B ->
  loose mx ps prev (map (idx ps) A) -> loose mx sc cur (map (idx sc) B) -> -10 <= ps <= 20 -> -10 <= sc <= 20 -> -10 <= ms ->
  let r0 := get_low_high_both prev cur ps sc (Z.min ps sc) in
  ms <= Z.min ps sc - get_scale_change mx (fst r0) (snd r0) ->
  let r := merge mx (downscale_by prev (ps - ms)) cur sc ms in
  (snd r = true -> loose mx ms (fst r) (map (idx ms) (A ++ B)))
  /\ (compatible prev cur ps sc A B -> snd r = true).
Proof.
  intros Hmx FA FB Hp Hc Hps Hsc Hms r0 Hle r.
  destruct (low_high mx prev cur ps sc _ _ Hmx Hp Hc ltac:(lia) ltac:(lia)) as (Hch & Hfit). fold r0 in Hch, Hfit. cbn zeta in Hch, Hfit.
  destruct (loose_down mx ps prev A (ps - ms) FA ltac:(lia) ltac:(lia) ltac:(lia) Hp) as (Hd & St & En).
  replace (ps - (ps - ms)) with ms in Hd by lia. pose proof Hc as (Wc & Sc & Rc & _). pose proof Hd as (Wd & Sd & Rd & Ld1 & Ld2).
  destruct (merge_spec mx (downscale_by prev (ps - ms)) cur sc ms _ _ Wd Sd Rd Wc Rc) as (M1 & M2). fold r in M1, M2. cbn zeta in M1, M2.
  assert (Em : map (fun i => Z.shiftr i (sc - ms)) (map (idx sc) B) = map (idx ms) B).
  { unfold idx. rewrite (map_indexes log_floor Cons) by (auto; lia). now replace (sc - (sc - ms)) with ms by lia. }
  split.
  - intros Hr. destruct (M1 Hr) as (J1 & J2 & J3 & J4). rewrite Em, <- map_app in J3.
    assert (In' : forall x, In x (map (idx sc) B) -> low ms (Z.shiftr x (sc - ms))).
    { intros x Hx. assert (Hx' : In (Z.shiftr x (sc - ms)) (map (idx ms) B)).
      { rewrite <- Em. now apply (in_map (fun i => Z.shiftr i (sc - ms))). }
      apply in_map_iff in Hx'. destruct Hx' as (v & <- & Hv). apply idx_low; [lia|]. rewrite Forall_forall in FB. auto. }
    destruct (J4 (low ms) Ld1 Ld2 In') as (Q1 & Q2). split; [exact J1|]. split; [exact J2|]. split; [exact J3|]. split; assumption.
  - destruct (Hfit ms ltac:(lia)) as (lo & hi & F1 & F2 & F3). pose proof Hp as (Wp & _ & Rp & _).
    assert (Nz : forall (b : buckets) (l : list Z), wf b -> rep b l -> l <> [] -> b_counts b <> [0]).
    { intros b l W R N E. destruct (wf_one b W E) as (i & ->). destruct l as [|x l]; [contradiction|].
      specialize (R x). rewrite count_at_fresh in R. pose proof (count_in_In (fun y => y =? x) (x :: l) x (or_introl eq_refl) (Z.eqb_refl x)). lia. }
    intros [->|Comp].
    + (* nothing to merge *)
      destruct (Z_lt_le_dec (b_end (downscale_by prev (ps - ms)) - b_start (downscale_by prev (ps - ms))) mx) as [L|L].
      * apply (M2 (b_start (downscale_by prev (ps - ms))) (b_end (downscale_by prev (ps - ms)))); try lia. intros x [].
      * destruct Wd as (D1 & D2 & _). lia.
    + destruct B as [|v0 B0]; [apply (M2 (b_start (downscale_by prev (ps - ms))) (b_end (downscale_by prev (ps - ms)))); try lia; [destruct Wd as (D1 & D2 & _); lia|intros x []]|].
      set (B := v0 :: B0) in *.
      assert (Nc : b_counts cur <> [0]) by (apply (Nz cur (map (idx sc) B)); auto; discriminate).
      destruct (F3 Nc) as (G1 & G2).
      assert (Rx : forall x, In x (map (idx sc) B) -> lo <= Z.shiftr x (sc - ms) <= hi).
      { intros x Hx. pose proof (rep_range cur _ x Wc Rc Hx).
        pose proof (shiftr_mono (sc - ms) (b_start cur) x ltac:(lia) ltac:(lia)). pose proof (shiftr_mono (sc - ms) x (b_end cur) ltac:(lia) ltac:(lia)). lia. }
      apply (M2 lo hi); auto.
      * rewrite St. destruct Comp as [NA|(-> & -> & _)]; [|exact G1].
        apply F2. apply (Nz prev (map (idx ps) A)); auto. destruct A; [contradiction|discriminate].
      * rewrite En. destruct Comp as [NA|(-> & _ & ->)]; [|exact G2].
        apply F2. apply (Nz prev (map (idx ps) A)); auto. destruct A; [contradiction|discriminate].
Qed.

(** ** Cumulative collections *)
Definition held (mx : Z) (i : einterval) (l : list Z) : Prop :=
  exists pos neg s, i = EI (Some pos) (Some neg) (lmin l) (lmax l) (total l) (Z.of_nat (length l)) (count_in (fun v => v =? 0) l) (Some s)
    /\ -10 <= s <= 20 /\ loose mx s pos (map (idx s) (positives l)) /\ loose mx s neg (map (idx s) (negatives l)).
Lemma cur_held mx m c l : 2 <= mx -> -10 <= m <= 20 -> Forall measurable l -> l <> [] -> cur_ok log_floor mx m c l -> held mx c l.
Proof.
  intros Hmx Hm F Hl H. unfold cur_ok in H. destruct l as [|x l']; [contradiction|]. set (l := x :: l') in *.
  destruct H as (pos & neg & -> & Hp & Hn). exists pos, neg, (if all_zero l then 0 else m). split; [reflexivity|].
  destruct (all_zero l) eqn:Az.
  - destruct (all_zero_none l Az) as (Ep & En). rewrite Ep, En in *. cbn [map] in *. split; [lia|].
    split; apply (side_loose mx 0 _ []); auto; lia.
  - split; [exact Hm|]. split; apply side_loose; auto using positives_double, negatives_double; lia.
Qed.
Lemma b_new_loose mx s : 1 <= mx -> -10 <= s <= 20 -> loose mx s b_new [].
Proof. intros H1 H2. apply (side_loose mx s b_new []); auto. now apply side_new. Qed.
Definition cumulative_point (mx : Z) (attrs : mattrs) (start : Z) (w : window) (r : ecollected) : Prop :=
  exists p, r = EPoint p /\ exp_histogram_of log_floor mx (so_far w) p
    /\ ep_attrs p = attrs /\ ep_start p = start /\ ep_time p = w_now w.
Definition prev_ok (mx : Z) (b : list mop) (p : einterval) : Prop :=
  match b with [] => p = ei_empty | _ => held mx p (measured b) end.

Lemma collect_ok attrs start mx m c p ps b s now : 2 <= mx -> -10 <= m <= 20 ->
  Forall measurable s -> Forall measurable (measured b) -> cur_ok log_floor mx m c s -> prev_ok mx b p ->
  let r := eh_collect (EH attrs DELTA start mx m c p ps) CUMULATIVE now in
  (settled (W b s now) -> snd r <> ERaised)
  /\ (snd r <> ERaised -> cumulative_point mx attrs start (W b s now) (snd r)
       /\ exists p', fst r = EH attrs DELTA start mx m ei_empty p' ps /\ held mx p' (measured b ++ s)).
Proof.
  intros Hmx Hm Fs Fb Hc Hp r.
  (* what is compared: [pos], [ppos], ... *)
  assert (V : exists pos ppos neg pneg sc psc,
      pair_up (ei_pos c) (ei_pos p) b_new copy_empty = (pos, ppos) /\ pair_up (ei_neg c) (ei_neg p) b_new copy_empty = (neg, pneg)
      /\ pair_up (ei_scale c) (ei_scale p) m (fun s => s) = (sc, psc) /\ -10 <= sc <= 20 /\ -10 <= psc <= 20
      /\ loose mx sc pos (map (idx sc) (positives s)) /\ loose mx sc neg (map (idx sc) (negatives s))
      /\ loose mx psc ppos (map (idx psc) (positives (measured b))) /\ loose mx psc pneg (map (idx psc) (negatives (measured b)))
      /\ (settled (W b s now) -> compatible ppos pos psc sc (positives (measured b)) (positives s)
                               /\ compatible pneg neg psc sc (negatives (measured b)) (negatives s))
      /\ ei_min c = lmin s /\ ei_max c = lmax s /\ ei_sum c = total s /\ ei_count c = Z.of_nat (length s) /\ ei_zero c = count_in (fun v => v =? 0) s
      /\ ei_min p = lmin (measured b) /\ ei_max p = lmax (measured b) /\ ei_sum p = total (measured b)
      /\ ei_count p = Z.of_nat (length (measured b)) /\ ei_zero p = count_in (fun v => v =? 0) (measured b)).
  { assert (Hc' : (s = [] /\ c = ei_empty) \/ (s <> [] /\ held mx c s)).
    { destruct s as [|x s']; [left; auto|right; split; [discriminate|]]. apply (cur_held mx m); auto. discriminate. }
    assert (Hp' : (b = [] /\ p = ei_empty) \/ (b <> [] /\ held mx p (measured b))).
    { destruct b; [left; auto|right; split; [discriminate|exact Hp]]. }
    unfold compatible, settled. cbn [w_before w_since].
    destruct Hc' as [(-> & ->)|(Ns & pos & neg & sc & -> & Hsc & Lp & Ln)], Hp' as [(-> & ->)|(Nb & ppos & pneg & psc & -> & Hpsc & Lpp & Lpn)].
    - exists b_new, (copy_empty b_new), b_new, (copy_empty b_new), m, m. cbn [ei_pos ei_neg ei_scale ei_empty pair_up measured map].
      pose proof (b_new_loose mx m ltac:(lia) Hm). do 3 (split; [reflexivity|]). do 2 (split; [exact Hm|]).
      do 4 (split; [assumption|]). split; [tauto|]. repeat split.
    - exists (copy_empty ppos), ppos, (copy_empty pneg), pneg, psc, psc. cbn [ei_pos ei_neg ei_scale ei_empty pair_up measured map].
      do 3 (split; [reflexivity|]). do 2 (split; [exact Hpsc|]). split; [eapply loose_copy; eassumption|]. split; [eapply loose_copy; eassumption|].
      do 2 (split; [assumption|]). split; [auto|]. repeat split.
    - exists pos, (copy_empty pos), neg, (copy_empty neg), sc, sc. cbn [ei_pos ei_neg ei_scale ei_empty pair_up measured map].
      do 3 (split; [reflexivity|]). do 2 (split; [exact Hsc|]). do 2 (split; [assumption|]).
      split; [eapply loose_copy; eassumption|]. split; [eapply loose_copy; eassumption|]. split; [intros _; split; right; right; auto|]. repeat split.
    - exists pos, ppos, neg, pneg, sc, psc. cbn [ei_pos ei_neg ei_scale pair_up].
      do 3 (split; [reflexivity|]). split; [exact Hsc|]. split; [exact Hpsc|]. do 4 (split; [assumption|]).
      split; [|repeat split]. destruct b as [|o b']; [contradiction|]. intros (S1 & S2). split.
      + destruct (positives s) as [|x l]; [now left|]. right. left. apply S1. discriminate.
      + destruct (negatives s) as [|x l]; [now left|]. right. left. apply S2. discriminate. }
  destruct V as (pos & ppos & neg & pneg & sc & psc & E1 & E2 & E3 & Hsc & Hpsc & Lp & Ln & Lpp & Lpn & Comp
     & Cmin & Cmax & Csum & Ccount & Czero & Pmin & Pmax & Psum & Pcount & Pzero).
  unfold r, eh_collect. cbn [eh_instr is_delta eh_cur eh_prev eh_attrs eh_prev_start eh_start eh_max_size eh_mapping].
  rewrite E1, E2, E3.
  destruct (low_high mx ppos pos psc sc _ _ Hmx Lpp Lp ltac:(lia) ltac:(lia)) as (Hc1 & _). cbn zeta in Hc1.
  destruct (low_high mx pneg neg psc sc _ _ Hmx Lpn Ln ltac:(lia) ltac:(lia)) as (Hc2 & _). cbn zeta in Hc2.
  pose proof (fun ms H1 H2 => side_merge mx ppos pos psc sc ms (positives (measured b)) (positives s) Hmx
     (positives_double _ Fb) (positives_double _ Fs) Lpp Lp Hpsc Hsc H1 H2) as Mp.
  pose proof (fun ms H1 H2 => side_merge mx pneg neg psc sc ms (negatives (measured b)) (negatives s) Hmx
     (negatives_double _ Fb) (negatives_double _ Fs) Lpn Ln Hpsc Hsc H1 H2) as Mn. cbn zeta in Mp, Mn.
  destruct (get_low_high_both ppos pos psc sc (Z.min psc sc)) as [lp hp]. destruct (get_low_high_both pneg neg psc sc (Z.min psc sc)) as [ln hn].
  cbn [fst snd] in *.
  set (ms := Z.min (Z.min psc sc - get_scale_change mx lp hp) (Z.min psc sc - get_scale_change mx ln hn)).
  destruct (Mp ms ltac:(lia) ltac:(lia)) as (Mp1 & Mp2). destruct (Mn ms ltac:(lia) ltac:(lia)) as (Mn1 & Mn2). clear Mp Mn.
  destruct (merge mx (downscale_by ppos (psc - ms)) pos sc ms) as [ppos' okp]. cbn [fst snd] in Mp1, Mp2.
  destruct okp; cbn [negb].
  2:{ cbn [fst snd]. split; [|congruence]. intros St. destruct (Comp St) as (Cp & _). specialize (Mp2 Cp). discriminate. }
  destruct (merge mx (downscale_by pneg (psc - ms)) neg sc ms) as [pneg' okn]. cbn [fst snd] in Mn1, Mn2.
  destruct okn; cbn [negb].
  2:{ cbn [fst snd]. split; [|congruence]. intros St. destruct (Comp St) as (_ & Cn). specialize (Mn2 Cn). discriminate. }
  cbn [fst snd]. split; [discriminate|]. intros _.
  specialize (Mp1 eq_refl). specialize (Mn1 eq_refl). rewrite <- positives_app in Mp1. rewrite <- negatives_app in Mn1.
  rewrite Cmin, Cmax, Csum, Ccount, Czero, Pmin, Pmax, Psum, Pcount, Pzero, lmin_app, lmax_app.
  assert (Tot : total s + total (measured b) = total (measured b ++ s)) by (rewrite total_app; lia).
  assert (Cnt : Z.of_nat (length s) + Z.of_nat (length (measured b)) = Z.of_nat (length (measured b ++ s))) by (rewrite app_length; lia).
  assert (Zer : count_in (fun v => v =? 0) s + count_in (fun v => v =? 0) (measured b) = count_in (fun v => v =? 0) (measured b ++ s)) by (rewrite count_in_app'; lia).
  rewrite Tot, Cnt, Zer. assert (Hms : -10 <= ms <= 20) by lia. split.
  - eexists. split; [reflexivity|]. unfold so_far. cbn [w_before w_since w_now]. split; [|auto].
    unfold exp_histogram_of, point_of. cbn [ep_count ep_sum ep_min ep_max ep_zero ep_scale ep_pos_offset ep_pos_counts ep_neg_offset ep_neg_counts
      ei_count ei_sum ei_min ei_max ei_zero ei_scale].
    split; [reflexivity|]. split; [reflexivity|]. split; [apply lmin_spec|]. split; [apply lmax_spec|]. split; [reflexivity|].
    exists ms. split; [reflexivity|]. split; [exact Hms|]. destruct Mp1 as (W1 & S1 & R1 & _). destruct Mn1 as (W2 & S2 & R2 & _).
    split; apply shows_map; apply rep_shows; assumption.
  - eexists. split; [reflexivity|]. exists ppos', pneg', ms. auto.
Qed.
Lemma measured_before b s now : measured (b ++ map Measure s ++ [Collect now]) = measured b ++ s.
Proof. apply measured_window. Qed.
Lemma cumulative_run attrs start mx ms h0 ops : eh_new attrs DELTA start mx ms = Some h0 -> Forall measurable (measured ops) ->
  (Forall settled (windows ops) -> er_ok (eh_run log_floor CUMULATIVE h0 ops) = true)
  /\ (er_ok (eh_run log_floor CUMULATIVE h0 ops) = true ->
      Forall2 (cumulative_point mx attrs start) (windows ops) (er_points (eh_run log_floor CUMULATIVE h0 ops))).
Proof.
  intros E F. apply eh_new_some in E. destruct E as (Hmx & Hms & ->).
  apply (run_windows log_floor CUMULATIVE
    (fun b s h => exists m c p, h = EH attrs DELTA start mx m c p start /\ -10 <= m <= 20
       /\ cur_ok log_floor mx m c s /\ Forall measurable s /\ Forall measurable (measured b) /\ prev_ok mx b p)
    settled (cumulative_point mx attrs start)) with (ops := ops) (b := @nil mop) (s := @nil Z)
    (h := EH attrs DELTA start mx ms ei_empty ei_empty start); auto.
  - intros b s h v (m & c & p & -> & Hm & Hc & Fs & Fb & Hp) Hv.
    destruct (aggregate_ok log_floor Cons m (EH attrs DELTA start mx m c p start) s v) as (m' & c' & Ea & Hm' & Hc' & _); auto.
    { split; [cbn; lia|now left]. }
    rewrite Ea. eexists. split; [reflexivity|]. exists m', c', p. cbn [eh_attrs eh_instr eh_start eh_max_size eh_prev eh_prev_start eh_mapping] in *.
    split; [reflexivity|]. split; [lia|]. split; [exact Hc'|]. split; [apply Forall_app; auto|auto].
  - intros b s h now (m & c & p & -> & Hm & Hc & Fs & Fb & Hp).
    destruct (collect_ok attrs start mx m c p start b s now Hmx Hm Fs Fb Hc Hp) as (K1 & K2). cbn zeta in K1, K2.
    split; [exact K1|]. intros Hr. destruct (K2 Hr) as (Pt & p' & E & Hh). split; [|exact Pt].
    exists m, ei_empty, p'. split; [exact E|]. split; [exact Hm|]. split; [reflexivity|]. split; [constructor|].
    rewrite measured_before. split; [apply Forall_app; auto|]. unfold prev_ok.
    destruct (b ++ map Measure s ++ [Collect now]) as [|o l] eqn:El; [destruct b; [destruct s; discriminate|discriminate]|].
    rewrite <- El, measured_before. exact Hh.
  - exists ms, ei_empty, ei_empty. split; [reflexivity|]. split; [exact Hms|]. split; [reflexivity|]. repeat split; constructor.
Qed.
End Hist.
