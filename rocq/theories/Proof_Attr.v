From Verif Require Export Spec_Attr Proof_Dict Proof_Url.
From Verif Require Import Proof_Utf8.

(** ** Lists *)
Lemma lastn_all {A} n (l : list A) : length l <= n -> lastn n l = l.
Proof. intros H. unfold lastn. replace (length l - n) with 0 by lia. reflexivity. Qed.
Lemma lastn_length {A} n (l : list A) : length (lastn n l) = Nat.min n (length l).
Proof. unfold lastn. rewrite skipn_length. lia. Qed.
Lemma skipn_skipn {A} a b (l : list A) : skipn a (skipn b l) = skipn (b + a) l.
Proof.
  revert l. induction b as [|b IH]; intros l; [reflexivity|].
  destruct l as [|x l]; cbn; [now rewrite skipn_nil|]. apply IH.
Qed.
Lemma lastn_snoc {A} n (l : list A) x : 0 < n ->
  lastn n (l ++ [x]) = lastn (n - 1) l ++ [x].
Proof.
  intros Hn. unfold lastn. rewrite app_length. cbn [length].
  rewrite skipn_app. replace (length l + 1 - n) with (length l - (n - 1)) by lia.
  replace (length l - (n - 1) - length l) with 0 by lia. reflexivity.
Qed.
Lemma lastn_0 {A} (l : list A) : lastn 0 l = [].
Proof. unfold lastn. rewrite Nat.sub_0_r. apply skipn_all. Qed.
Lemma tl_skipn {A} (l : list A) : tl l = skipn 1 l.
Proof. destruct l; reflexivity. Qed.
Lemma lastn_pred {A} n (l : list A) : length l >= n -> 0 < n -> tl (lastn n l) = lastn (n - 1) l.
Proof.
  intros H1 H2. rewrite tl_skipn. unfold lastn. rewrite skipn_skipn. f_equal. lia.
Qed.
Lemma lastn_lastn_app {A} m (l : list A) x : lastn m (lastn m l ++ [x]) = lastn m (l ++ [x]).
Proof.
  destruct m as [|m]; [now rewrite !lastn_0|].
  rewrite !lastn_snoc by lia. f_equal. replace (S m - 1) with m by lia.
  unfold lastn. rewrite skipn_skipn, skipn_length. f_equal. lia.
Qed.

(** ** BoundedList *)
Section BListP.
Context {A : Type}.

Lemma dq_append_lastn m (l : list A) x : dq_append (Some m) x (lastn m l) = lastn m (l ++ [x]).
Proof.
  unfold dq_append. rewrite <- lastn_lastn_app. unfold lastn at 3. rewrite app_length. cbn [length].
  f_equal. lia.
Qed.
Lemma dq_extend_lastn m (xs l : list A) :
  fold_left (fun l x => dq_append (Some m) x l) xs (lastn m l) = lastn m (l ++ xs).
Proof.
  revert l. induction xs as [|x xs IH]; intros l; [now rewrite app_nil_r|].
  cbn [fold_left]. rewrite dq_append_lastn, IH, <- app_assoc. reflexivity.
Qed.
Lemma dq_extend_none (xs l : list A) : fold_left (fun l x => dq_append None x l) xs l = l ++ xs.
Proof.
  revert l. induction xs as [|x xs IH]; intros l; [now rewrite app_nil_r|].
  cbn [fold_left dq_append]. rewrite IH, <- app_assoc. reflexivity.
Qed.

Definition bl_is (maxlen : option nat) (h : list A) (b : blist A) : Prop :=
  bl_maxlen b = maxlen
  /\ match maxlen with
     | Some m => bl_items b = lastn m h /\ bl_dropped b = length h - m
     | None => bl_items b = h /\ bl_dropped b = 0
     end.

Lemma bl_step_is maxlen h b o : bl_is maxlen h b -> bl_is maxlen (h ++ offered o) (bl_step b o).
Proof.
  intros [Hm H]. destruct o as [x|xs]; cbn [bl_step offered]; unfold bl_append, bl_extend; rewrite Hm.
  - split; [reflexivity|]. destruct maxlen as [m|]; cbn [bl_items bl_dropped].
    + destruct H as [E D]. rewrite E, D, dq_append_lastn. split; [reflexivity|].
      rewrite lastn_length, app_length. cbn [length].
      destruct (Nat.eqb_spec (Nat.min m (length h)) m); lia.
    + destruct H as [E D]. rewrite E, D. auto.
  - split; [reflexivity|]. destruct maxlen as [m|]; cbn [bl_items bl_dropped].
    + destruct H as [E D]. rewrite E, D, dq_extend_lastn. split; [reflexivity|].
      rewrite lastn_length, app_length. lia.
    + destruct H as [E D]. rewrite E, D, dq_extend_none. auto.
Qed.

Lemma bl_history maxlen ops :
  bl_is maxlen (concat (map offered ops)) (fold_left bl_step ops (bl_new maxlen)).
Proof.
  assert (Hg : forall h b, bl_is maxlen h b ->
            bl_is maxlen (h ++ concat (map offered ops)) (fold_left bl_step ops b)).
  { induction ops as [|o ops IH]; intros h b Hb; cbn [fold_left map concat].
    - now rewrite app_nil_r.
    - rewrite app_assoc. apply IH. now apply bl_step_is. }
  apply (Hg []). split; [reflexivity|]. destruct maxlen; cbn; auto.
Qed.
End BListP.

(** ** Bounded dictionaries *)
Section BoundedP.
Context {K V : Type} `{EqDec K}.
Implicit Types d : dict K V.

Lemma keys_app d e : keys (d ++ e) = keys d ++ keys e.
Proof. apply map_app. Qed.
Lemma dmem_keys k d : dmem k d = true <-> In k (keys d).
Proof.
  unfold dmem. split.
  - destruct (dget k d) as [v|] eqn:E; [|discriminate]. intros _. apply dget_In in E.
    apply in_map_iff. exists (k, v). auto.
  - intros Hin. induction d as [|[k' v'] d IH]; [destruct Hin|]. cbn in *.
    destruct (eq_dec k k'); [reflexivity|]. apply IH. destruct Hin; [congruence|assumption].
Qed.
Lemma dmem_false k d : dmem k d = false <-> ~ In k (keys d).
Proof. rewrite <- dmem_keys. destruct (dmem k d); split; congruence. Qed.

Lemma bput_cases maxlen k v d n :
  (In k (keys d) /\ bput maxlen k v d n = (ddel k d ++ [(k, v)], n))
  \/ (~ In k (keys d) /\ (exists m, maxlen = Some m /\ length d = m) /\ bput maxlen k v d n = (tl d ++ [(k, v)], S n))
  \/ (~ In k (keys d) /\ (forall m, maxlen = Some m -> length d <> m) /\ bput maxlen k v d n = (d ++ [(k, v)], n)).
Proof.
  unfold bput. destruct (dmem k d) eqn:E.
  - left. apply dmem_keys in E. auto.
  - right. apply dmem_false in E. destruct maxlen as [m|].
    + destruct (Nat.eqb_spec (length d) m) as [Em|Em].
      * left. eauto.
      * right. repeat split; auto. intros ? [= <-]. exact Em.
    + right. repeat split; auto. discriminate.
Qed.

Lemma in_tl {A} (x : A) l : In x (tl l) -> In x l.
Proof. destruct l; [tauto|]. now right. Qed.
Lemma keys_tl d : keys (tl d) = tl (keys d).
Proof. destruct d; reflexivity. Qed.
Lemma NoDup_tl {A} (l : list A) : NoDup l -> NoDup (tl l).
Proof. intros Hn. destruct Hn; [constructor|assumption]. Qed.
Lemma ddel_not_key k d : NoDup (keys d) -> ~ In k (keys (ddel k d)).
Proof.
  intros Hn Hin. apply dmem_keys in Hin. unfold dmem in Hin. rewrite dget_ddel_eq in Hin by assumption.
  discriminate.
Qed.

Definition bounded (maxlen : option nat) d : Prop := forall m, maxlen = Some m -> length d <= m.

Lemma bput_inv maxlen k v d n : maxlen <> Some 0 -> NoDup (keys d) -> bounded maxlen d ->
  NoDup (keys (fst (bput maxlen k v d n))) /\ bounded maxlen (fst (bput maxlen k v d n)).
Proof.
  intros H0 Hn Hb. destruct (bput_cases maxlen k v d n) as [[Hk ->]|[(Hk & (m & Em & El) & ->)|(Hk & Hl & ->)]]; cbn [fst].
  - split.
    + rewrite keys_app. apply NoDup_app_snoc; [now apply NoDup_ddel|now apply ddel_not_key].
    + intros m Em. rewrite app_length. cbn. pose proof (length_ddel _ _ Hk). specialize (Hb m Em). lia.
  - split.
    + rewrite keys_app, keys_tl. apply NoDup_app_snoc; [now apply NoDup_tl|]. intros Hin. now apply in_tl in Hin.
    + intros m' Em'. assert (m' = m) by congruence. subst m'. rewrite app_length.
      destruct d as [|x d]; cbn in *; [|lia]. assert (m = 0) by lia. congruence.
  - split.
    + rewrite keys_app. now apply NoDup_app_snoc.
    + intros m Em. specialize (Hb m Em). specialize (Hl m Em). rewrite app_length. cbn. lia.
Qed.

(** Sequences of assignments: the window over the latest values. *)
Lemma latest_keys (l : list (K * V)) k : In k (map fst (latest l)) <-> In k (map fst l).
Proof.
  induction l as [|[k' v] l IH]; cbn [latest]; [tauto|].
  destruct (in_dec eq_dec k' (map fst l)) as [Hi|Hi]; cbn; rewrite IH; [|tauto].
  split; [tauto|]. intros [<-|]; assumption.
Qed.
Lemma latest_snoc (l : list (K * V)) k v : latest (l ++ [(k, v)]) = ddel k (latest l) ++ [(k, v)].
Proof.
  induction l as [|[k' v'] l IH]; [reflexivity|].
  cbn [app latest]. destruct (in_dec eq_dec k' (map fst (l ++ [(k, v)]))) as [Hi|Hi].
  - rewrite IH. f_equal. destruct (in_dec eq_dec k' (map fst l)) as [Hj|Hj]; [reflexivity|].
    rewrite map_app, in_app_iff in Hi. cbn in Hi. destruct Hi as [Hi|[->|[]]]; [tauto|].
    cbn [ddel]. destruct (eq_dec k' k') as [_|]; [|congruence]. apply ddel_notin.
    rewrite <- latest_keys in Hj. exact Hj.
  - rewrite map_app, in_app_iff in Hi. cbn in Hi.
    destruct (in_dec eq_dec k' (map fst l)) as [Hj|Hj]; [tauto|].
    cbn [ddel]. destruct (eq_dec k k') as [->|Hn]; [tauto|]. cbn [app]. now rewrite IH.
Qed.
Lemma latest_nodup (l : list (K * V)) : NoDup (map fst (latest l)).
Proof.
  induction l as [|[k v] l IH]; cbn [latest]; [constructor|].
  destruct (in_dec eq_dec k (map fst l)) as [Hi|Hi]; [assumption|]. cbn. constructor; [|assumption].
  now rewrite latest_keys.
Qed.

Lemma ddel_app_r k d e : ~ In k (keys d) -> ddel k (d ++ e) = d ++ ddel k e.
Proof.
  induction d as [|[k' v'] d IH]; cbn; intros Hn; [reflexivity|].
  destruct (eq_dec k k') as [->|_]; [tauto|]. rewrite IH by tauto. reflexivity.
Qed.
Lemma ddel_app_l k d e : In k (keys d) -> ddel k (d ++ e) = ddel k d ++ e.
Proof.
  induction d as [|[k' v'] d IH]; cbn; intros Hin; [destruct Hin|].
  destruct (eq_dec k k') as [->|Hn]; [reflexivity|]. cbn. rewrite IH; [reflexivity|].
  destruct Hin; [congruence|assumption].
Qed.
Lemma split_lastn {A} n (l : list A) : exists p, l = p ++ lastn n l /\ length p = length l - n.
Proof.
  exists (firstn (length l - n) l). unfold lastn. rewrite firstn_skipn, firstn_length. split; [reflexivity|lia].
Qed.
Lemma lastn_app_suffix {A} n (p b : list A) : length b = n -> lastn n (p ++ b) = b.
Proof.
  intros E. unfold lastn. rewrite app_length, skipn_app.
  replace (length p + length b - n) with (length p) by lia. rewrite skipn_all, Nat.sub_diag. reflexivity.
Qed.

Lemma bput_window m (u : dict K V) k v n : NoDup (keys u) -> 0 < m ->
  fst (bput (Some m) k v (lastn m u) n) = lastn m (ddel k u ++ [(k, v)]).
Proof.
  intros Hnd Hm. destruct (split_lastn m u) as (p & Eu & Lp).
  assert (Lb : length (lastn m u) = Nat.min m (length u)) by apply lastn_length.
  remember (lastn m u) as b eqn:Eb. clear Eb.
  destruct (bput_cases (Some m) k v b n) as [[Hk ->]|[(Hk & (m' & [= <-] & El) & ->)|(Hk & Hl & ->)]]; cbn [fst].
  - (* k in the window *)
    assert (Hkp : ~ In k (keys p)).
    { intros Hp. rewrite Eu, keys_app in Hnd.
      assert (Hd : forall x, In x (keys p) -> ~ In x (keys b)).
      { clear -Hnd. induction (keys p) as [|y l IH]; [intros x []|]. cbn in Hnd.
        inversion Hnd as [|? ? H1 H2]; subst. intros x [<-|Hx].
        - intros Hb. apply H1, in_app_iff. now right.
        - now apply IH. }
      now apply (Hd k Hp). }
    rewrite Eu, ddel_app_r by assumption. rewrite <- app_assoc.
    pose proof (length_ddel _ _ Hk) as Ld.
    destruct (Nat.le_gt_cases m (length u)).
    + symmetry. apply lastn_app_suffix. rewrite app_length. cbn. lia.
    + assert (p = []) by (destruct p; cbn in *; [reflexivity|lia]). subst p. cbn [app].
      symmetry. apply lastn_all. rewrite app_length. cbn. lia.
  - (* full *)
    rewrite lastn_snoc by assumption. f_equal. rewrite Eu.
    destruct (in_dec eq_dec k (keys p)) as [Hp|Hp].
    + rewrite ddel_app_l by assumption. symmetry. unfold lastn. rewrite app_length, skipn_app.
      rewrite tl_skipn. pose proof (length_ddel _ _ Hp).
      rewrite (skipn_all2 (ddel k p)) by lia. cbn [app]. f_equal. lia.
    + rewrite ddel_notin by (rewrite keys_app, in_app_iff; tauto).
      rewrite <- Eu. rewrite <- lastn_pred by lia. f_equal. rewrite Eu. now rewrite lastn_app_suffix.
  - (* room *)
    assert (length b < m) by (specialize (Hl m eq_refl); lia).
    assert (p = []) by (destruct p; cbn in *; [reflexivity|lia]). subst p. cbn [app] in Eu. subst b.
    rewrite ddel_notin by assumption. symmetry. apply lastn_all. rewrite app_length. cbn. lia.
Qed.
Lemma bput_none (u : dict K V) k v n : fst (bput None k v u n) = ddel k u ++ [(k, v)].
Proof.
  destruct (bput_cases None k v u n) as [[Hk ->]|[(Hk & (m' & [=] & El) & ->)|(Hk & Hl & ->)]]; cbn [fst].
  - reflexivity.
  - now rewrite ddel_notin.
Qed.

(** BoundedDict *)
Lemma bd_history_inv maxlen (ops : list (bdop K V)) :
  let b := fold_left bd_step ops (BD maxlen [] 0) in
  bd_maxlen b = maxlen /\ NoDup (keys (bd_dict b)) /\ (forall m, maxlen = Some m -> length (bd_dict b) <= m).
Proof.
  cbn zeta. assert (Hg : forall b : bdict K V,
     bd_maxlen b = maxlen /\ NoDup (keys (bd_dict b)) /\ bounded maxlen (bd_dict b) ->
     let b' := fold_left bd_step ops b in
     bd_maxlen b' = maxlen /\ NoDup (keys (bd_dict b')) /\ bounded maxlen (bd_dict b')).
  { induction ops as [|o ops IH]; intros b Hb; [exact Hb|]. cbn [fold_left]. apply IH.
    destruct Hb as (Em & Hn & Hb). destruct o as [k v|k]; cbn [bd_step].
    - unfold bd_set. destruct (bd_maxlen b) as [[|m]|] eqn:E; cbn [bd_maxlen bd_dict]; auto.
      + pose proof (bput_inv (Some (S m)) k v (bd_dict b) (bd_dropped b)) as Hp.
        destruct (bput (Some (S m)) k v (bd_dict b) (bd_dropped b)). cbn in *. rewrite Em. split; [reflexivity|].
        rewrite Em in Hp. rewrite <- Em. rewrite <- Em in Hb, Hp. apply Hp; auto. discriminate.
      + pose proof (bput_inv None k v (bd_dict b) (bd_dropped b)) as Hp.
        destruct (bput None k v (bd_dict b) (bd_dropped b)). cbn in *. split; [assumption|].
        rewrite <- Em in *. apply Hp; auto. discriminate.
    - unfold bd_del. cbn. split; [assumption|]. split; [now apply NoDup_ddel|].
      intros m E. pose proof (length_ddel_le (bd_dict b) k). specialize (Hb m E). lia. }
  apply Hg. cbn. repeat split; [constructor|]. intros m _. cbn. lia.
Qed.

Lemma bd_set_window maxlen (ops : list (K * V)) :
  bd_dict (bd_from_map maxlen ops)
  = match maxlen with Some m => lastn m (latest ops) | None => latest ops end.
Proof.
  unfold bd_from_map. rewrite <- (rev_involutive ops). induction (rev ops) as [|[k v] l IH].
  - destruct maxlen as [[|m]|]; reflexivity.
  - cbn [rev]. rewrite fold_left_app. cbn [fold_left fst snd]. rewrite latest_snoc.
    set (b := fold_left (fun b kv => bd_set (fst kv) (snd kv) b) (rev l) (BD maxlen [] 0)) in *.
    assert (Em : bd_maxlen b = maxlen).
    { subst b. clear. induction l as [|[k v] l IH]; [reflexivity|]. cbn [rev]. rewrite fold_left_app.
      cbn [fold_left]. unfold bd_set at 1. set (b := fold_left _ _ _) in *.
      destruct (bd_maxlen b) as [[|m]|] eqn:E; [exact E || cbn; congruence| |];
        destruct (bput _ _ _ _ _); cbn; congruence. }
    unfold bd_set. rewrite Em. destruct maxlen as [[|m]|].
    + cbn [bd_dict]. rewrite IH, !lastn_0. reflexivity.
    + pose proof (bput_window (S m) (latest (rev l)) k v (bd_dropped b) (latest_nodup _) (Nat.lt_0_succ m)) as Hw.
      rewrite IH. destruct (bput _ _ _ _ _). exact Hw.
    + pose proof (bput_none (latest (rev l)) k v (bd_dropped b)) as Hw.
      rewrite IH. destruct (bput _ _ _ _ _). exact Hw.
Qed.
End BoundedP.

(** ** Cleaning *)
Lemma strict_decode_spec b s : strict_decode b = Some s <-> utf8_text s b.
Proof.
  rewrite utf8_text_iff. unfold strict_decode. split.
  - destruct (utf8_encode (decode_replace b)) as [b'|] eqn:E; [|discriminate].
    destruct (list_eq_dec N.eq_dec b' b) as [->|]; [|discriminate]. intros [= <-]. exact E.
  - intros E. destruct (utf8_round_trip s (utf8_encode_some _ _ E)) as (bs & E' & _ & Hd).
    assert (bs = b) by congruence. subst bs. rewrite Hd, E.
    destruct (list_eq_dec N.eq_dec b b); [reflexivity|congruence].
Qed.
Lemma strict_decode_none b : strict_decode b = None <-> forall s, ~ utf8_text s b.
Proof.
  split.
  - intros E s Hs. apply strict_decode_spec in Hs. congruence.
  - intros Hn. destruct (strict_decode b) as [s|] eqn:E; [|reflexivity].
    apply strict_decode_spec in E. now apply Hn in E.
Qed.


Lemma slice_to_cut n s s' : slice_to (Z.of_nat n) s = s' <-> cut_to (Some n) s s'.
Proof.
  unfold slice_to, cut_to. destruct (Z.ltb_spec (Z.of_nat n) 0); [lia|]. rewrite Nat2Z.id. split.
  - intros <-. split; [exists (skipn n s); now rewrite firstn_skipn|apply firstn_length].
  - intros [(r & ->) Hl]. rewrite app_length in Hl. rewrite firstn_app.
    destruct (Nat.le_gt_cases n (length s')).
    + rewrite firstn_all2 by lia. replace (n - length s') with 0 by lia. cbn. now rewrite app_nil_r.
    + assert (length r = 0) by lia. destruct r; [|discriminate]. rewrite firstn_nil, app_nil_r.
      apply firstn_all2. lia.
Qed.

Definition is_prim (v : pyval) : Prop :=
  match v with PNone | PSeq _ _ | PObj _ => False | _ => True end.

Lemma clean_value_prim limit v v' : is_prim v ->
  clean_value v (zlim limit) = Some v' <-> cleaned_prim limit v v'.
Proof.
  intros Hp. destruct v as [|b|sub z|sub f|sub s|sub b|tp l|id]; cbn in Hp; try contradiction; cbn [clean_value].
  - split; [intros [= <-]; constructor|intros Hc; inversion Hc; subst; reflexivity].
  - split; [intros [= <-]; constructor|intros Hc; inversion Hc; subst; reflexivity].
  - split; [intros [= <-]; constructor|intros Hc; inversion Hc; subst; reflexivity].
  - destruct limit as [n|]; cbn [zlim option_map].
    + split.
      * intros [= <-]. apply (cl_str (Some n)). now apply slice_to_cut.
      * intros Hc. inversion Hc; subst. do 2 f_equal. now apply slice_to_cut.
    + split.
      * intros [= <-]. now apply (cl_str None).
      * intros Hc. inversion Hc; subst. cbn in *. now subst.
  - destruct (strict_decode b) as [s|] eqn:E.
    + apply strict_decode_spec in E. destruct limit as [n|]; cbn [zlim option_map]; split.
      * intros [= <-]. apply (cl_bytes _ _ _ s); [assumption|]. now apply slice_to_cut.
      * intros Hc. inversion Hc as [| | | |? ? s2 s' E2 Hs]; subst. assert (s2 = s).
        { apply strict_decode_spec in E, E2. congruence. } subst s2.
        do 2 f_equal. now apply slice_to_cut.
      * intros [= <-]. now apply (cl_bytes _ _ _ s).
      * intros Hc. inversion Hc as [| | | |? ? s2 s' E2 Hs]; subst. assert (s2 = s).
        { apply strict_decode_spec in E, E2. congruence. } subst s2. cbn in Hs. now subst.
    + split; [discriminate|]. intros Hc. inversion Hc; subst.
      assert (Hx : strict_decode b = Some s) by now apply strict_decode_spec. congruence.
Qed.

Lemma cleaned_prim_is_prim limit v v' : cleaned_prim limit v v' -> is_prim v.
Proof. destruct 1; exact I. Qed.
Lemma cleaned_prim_type limit v v' : cleaned_prim limit v v' ->
  v' <> PNone /\ (type_of v' <> TOther -> elem_type (type_of v')).
Proof.
  unfold elem_type. destruct 1; cbn; (split; [discriminate|]); try (destruct sub); try tauto;
    try (destruct limit); tauto.
Qed.

(** The loop: the elements are cleaned one by one, all of type [first] (or of one type). *)
Definition of_type (first : option pytype) (e : pyval) : Prop :=
  e = PNone \/ exists t, elem_type t /\ type_of e = t /\ (forall t0, first = Some t0 -> t = t0).
Definition one_type (first : option pytype) (l : list pyval) : Prop :=
  match first with
  | Some t => elem_type t /\ Forall (fun e => e = PNone \/ type_of e = t) l
  | None => homogeneous l
  end.

Lemma one_type_cons_none first l : one_type first (PNone :: l) <-> one_type first l.
Proof.
  destruct first as [t|]; cbn.
  - split; intros [H1 H2]; (split; [assumption|]); [now inversion H2|constructor; auto].
  - unfold homogeneous. split; intros (t & H1 & H2); exists t; (split; [assumption|]); [now inversion H2|constructor; auto].
Qed.

Lemma clean_seq_spec first l limit l' :
  (forall t, first = Some t -> elem_type t) ->
  clean_seq first l (zlim limit) = Some l' <-> Forall2 (cleaned_elem limit) l l' /\ one_type first l'.
Proof.
  revert first l'. induction l as [|e l IH]; intros first l' Hf.
  - cbn. split.
    + intros [= <-]. split; [constructor|]. destruct first as [t|]; cbn.
      * split; [now apply Hf|constructor].
      * exists TBool. split; [now left|constructor].
    + intros [H1 _]. inversion H1. reflexivity.
  - cbn [clean_seq]. destruct (clean_value e (zlim limit)) as [e'|] eqn:Ec.
    + (* a value *)
      assert (He' : e' <> PNone).
      { intros ->. destruct e as [| | | | |? by0| |]; cbn in Ec; try discriminate.
        - destruct limit; discriminate.
        - destruct (strict_decode by0); destruct limit; discriminate. }
      assert (Hprim : type_of e' <> TOther -> cleaned_elem limit e e').
      { intros Ht. constructor. apply clean_value_prim; [|assumption].
        destruct e; cbn in Ec; try discriminate; try exact I; injection Ec as <-; now cbn in Ht. }
      assert (Huniq : forall e2, cleaned_elem limit e e2 -> e2 = e').
      { intros e2 H2. destruct H2 as [|sub b Hb|v v' Hv].
        - discriminate.
        - cbn in Ec. apply strict_decode_none in Hb. rewrite Hb in Ec. discriminate.
        - pose proof (cleaned_prim_is_prim _ _ _ Hv) as Hip. apply clean_value_prim in Hv; [|assumption]. congruence. }
      assert (Het : cleaned_elem limit e e' -> type_of e' <> TOther -> elem_type (type_of e')).
      { intros H2 Ht. destruct H2 as [|sub b Hb|v v' Hv]; [congruence|congruence|].
        apply cleaned_prim_type in Hv as [_ Hv]. now apply Hv. }
      destruct (pytype_eq_dec (type_of e') TOther) as [Eo|Eo].
      * rewrite Eo. split; [discriminate|]. intros [H1 H2]. inversion H1 as [|? e2 ? l2 He2 Hl2]; subst.
        apply Huniq in He2. subst e2. exfalso.
        destruct first as [t|]; [destruct H2 as [Ht H2]|destruct H2 as (t & Ht & H2)];
          inversion H2 as [|? ? [Hn|Hty] _]; subst; try contradiction; rewrite Eo in Ht;
          unfold elem_type in Ht; intuition discriminate.
      * assert (Hty : elem_type (type_of e')) by (apply Het; auto).
        transitivity (match first with
              | None => option_map (cons e') (clean_seq (Some (type_of e')) l (zlim limit))
              | Some t0 => if pytype_eq_dec (type_of e') t0
                           then option_map (cons e') (clean_seq first l (zlim limit))
                           else None
              end = Some l'); [destruct (type_of e'); try reflexivity; congruence|].
        assert (Hcons : forall first' r, (forall t, first' = Some t -> elem_type t) ->
           (option_map (cons e') r = Some l' <-> exists l2, l' = e' :: l2 /\ r = Some l2)).
        { intros _ r _. destruct r as [l2|]; cbn; split.
          - intros [= <-]. eauto.
          - intros (l3 & -> & [= <-]). reflexivity.
          - discriminate.
          - intros (l3 & _ & [=]). }
        destruct first as [t0|].
        -- destruct (pytype_eq_dec (type_of e') t0) as [E0|E0].
           ++ rewrite (Hcons (Some t0)) by assumption. split.
              ** intros (l2 & -> & E). apply IH in E as [H1 H2]; [|assumption]. split; [constructor; auto|].
                 destruct H2 as [H2 H3]. split; [assumption|]. constructor; auto.
              ** intros [H1 H2]. inversion H1 as [|? e2 ? l2 He2 Hl2]; subst. apply Huniq in He2. subst e2.
                 exists l2. split; [reflexivity|]. apply IH; [assumption|]. split; [assumption|].
                 destruct H2 as [H2 H3]. split; [assumption|]. now inversion H3.
           ++ split; [discriminate|]. intros [H1 H2]. inversion H1 as [|? e2 ? l2 He2 Hl2]; subst.
              apply Huniq in He2. subst e2. destruct H2 as [_ H2]. inversion H2 as [|? ? [Hn|Hy] _]; subst; congruence.
        -- assert (Hs : forall t, Some (type_of e') = Some t -> elem_type t) by (intros t [= <-]; assumption).
           rewrite (Hcons (Some (type_of e'))) by assumption. split.
           ++ intros (l2 & -> & E). apply IH in E as [H1 H2]; [|assumption]. split; [constructor; auto|].
              destruct H2 as [H2 H3]. exists (type_of e'). split; [assumption|]. constructor; auto.
           ++ intros [H1 H2]. inversion H1 as [|? e2 ? l2 He2 Hl2]; subst. apply Huniq in He2. subst e2.
              exists l2. split; [reflexivity|]. apply IH; [assumption|]. split; [assumption|].
              destruct H2 as (t & H2 & H3). inversion H3 as [|? ? [Hn|Hy] H4]; subst; [congruence|]. split; assumption.
    + (* None *)
      assert (Hnone : cleaned_elem limit e PNone).
      { destruct e as [| | | | |? by0| |]; cbn in Ec; try discriminate; [constructor|].
        destruct (strict_decode by0) eqn:Eb; [discriminate|]. constructor. now apply strict_decode_none. }
      assert (Huniq : forall e2, cleaned_elem limit e e2 -> e2 = PNone).
      { intros e2 H2. destruct H2 as [|sub b Hb|v v' Hv]; [reflexivity|reflexivity|].
        pose proof (cleaned_prim_is_prim _ _ _ Hv) as Hip. apply clean_value_prim in Hv; [|assumption]. congruence. }
      split.
      * intros E. destruct (clean_seq first l (zlim limit)) as [l2|] eqn:E2; [|discriminate].
        cbn in E. injection E as <-. apply IH in E2 as [H1 H2]; [|assumption].
        split; [constructor; auto|]. now apply one_type_cons_none.
      * intros [H1 H2]. inversion H1 as [|? e2 ? l2 He2 Hl2]; subst. apply Huniq in He2. subst e2.
        apply (proj1 (one_type_cons_none _ _)) in H2. assert (E : clean_seq first l (zlim limit) = Some l2)
          by (apply IH; [assumption|split; assumption]).
        now rewrite E.
Qed.

Lemma clean_attribute_spec key v limit v' :
  clean_attribute key v (zlim limit) = Some v' <->
  (exists sub c s, key = PStr sub (c :: s)) /\ cleaned limit v v'.
Proof.
  unfold clean_attribute. destruct (valid_key key) as [k|] eqn:Ek.
  - assert (Hk : exists sub c s, key = PStr sub (c :: s)).
    { destruct key as [| | | |sub [|c s]| | |]; try discriminate. eauto. }
    assert (Hg : (match v with
        | PBool _ | PStr _ _ | PBytes _ _ | PInt _ _ | PFloat _ _ => clean_value v (zlim limit)
        | PSeq _ l => option_map (PSeq true) (clean_seq None l (zlim limit))
        | PNone | PObj _ => None
        end = Some v') <-> cleaned limit v v').
    { destruct v as [|b|sub z|sub f|sub s|sub b|tp l|id].
      1: split; [discriminate|intros Hc; inversion Hc as [? ? Hp|]; inversion Hp].
      1-5: rewrite clean_value_prim by exact I; split; [now constructor|intros Hc; inversion Hc; assumption].
      - split.
        + destruct (clean_seq None l (zlim limit)) as [l'|] eqn:E; [|discriminate]. cbn. intros [= <-].
          apply clean_seq_spec in E as [H1 H2]; [|discriminate]. now constructor.
        + intros Hc. inversion Hc as [? ? Hp|? ? l' H1 H2]; subst; [inversion Hp|].
          assert (E : clean_seq None l (zlim limit) = Some l') by (apply clean_seq_spec; [discriminate|auto]).
          now rewrite E.
      - split; [discriminate|]. intros Hc. inversion Hc as [? ? Hp|]; inversion Hp. }
    rewrite Hg. tauto.
  - split; [discriminate|]. intros [(sub & c & s & ->) _]. discriminate.
Qed.

Lemma cut_to_again limit s s' : cut_to limit s s' -> cut_to limit s' s'.
Proof.
  destruct limit as [n|]; cbn; [|reflexivity]. intros [_ H]. split; [exists []; now rewrite app_nil_r|lia].
Qed.
Lemma cleaned_prim_again limit v v' : cleaned_prim limit v v' -> cleaned_prim limit v' v'.
Proof.
  destruct 1; try constructor.
  - destruct limit as [n|].
    + apply (cl_str (Some n) false s' s'). now apply (cut_to_again (Some n) s).
    + apply (cl_str None). now apply (cut_to_again None s).
  - destruct limit as [n|].
    + apply (cl_str (Some n) false s' s'). now apply (cut_to_again (Some n) s).
    + apply (cl_str None false). now apply (cut_to_again None s).
Qed.
Lemma cleaned_again limit v v' : cleaned limit v v' -> cleaned limit v' v'.
Proof.
  destruct 1 as [v v' Hp|tp l l' Hl Hh].
  - constructor. eapply cleaned_prim_again; eauto.
  - constructor; [|assumption]. clear Hh. induction Hl as [|e e' l l' He _ IH]; [constructor|].
    constructor; [|assumption]. destruct He; try (now constructor).
    constructor. eapply cleaned_prim_again; eauto.
Qed.

Lemma clean_idempotent key v limit v' :
  clean_attribute key v (zlim limit) = Some v' -> clean_attribute key v' (zlim limit) = Some v'.
Proof.
  rewrite !clean_attribute_spec. intros [Hk Hc]. split; [assumption|]. eapply cleaned_again; eauto.
Qed.

Lemma cut_within limit s s' : cut_to limit s s' -> forall sub, str_within limit (PStr sub s').
Proof. destruct limit as [n|]; cbn; [|auto]. intros [_ H] _. lia. Qed.
Lemma cleaned_prim_within limit v v' : cleaned_prim limit v v' -> str_within limit v'.
Proof.
  destruct 1 as [| | |sub s s' Hc|sub b s s' _ Hc]; cbn; try exact I;
    exact (cut_within _ _ _ Hc true).
Qed.
Lemma cleaned_storable limit v v' : cleaned limit v v' -> storable limit v'.
Proof.
  destruct 1 as [v v' Hp|tp l l' Hl Hh].
  - pose proof (cleaned_prim_within _ _ _ Hp). destruct Hp; cbn; auto.
  - cbn. split; [reflexivity|]. split; [assumption|]. clear Hh.
    induction Hl as [|e e' l l' He _ IH]; [constructor|]. constructor; [|assumption].
    destruct He; try exact I. eapply cleaned_prim_within; eauto.
Qed.

(** ** BoundedAttributes *)
Definition ba_inv (a : battrs) : Prop :=
  NoDup (keys (ba_dict a)) /\ (forall m, ba_maxlen a = Some m -> length (ba_dict a) <= m)
  /\ forall limit, ba_max_value_len a = zlim limit ->
       forall k v, In (k, v) (ba_dict a) -> k <> [] /\ storable limit v.

Lemma In_tl {A} (x : A) l : In x (tl l) -> In x l.
Proof. destruct l; [tauto|]. now right. Qed.

Lemma bput_In {V} maxlen (k : str) (v : V) d n kv : In kv (fst (bput maxlen k v d n)) -> kv = (k, v) \/ In kv d.
Proof.
  destruct (bput_cases maxlen k v d n) as [[Hk ->]|[(Hk & _ & ->)|(Hk & _ & ->)]]; cbn [fst];
    rewrite in_app_iff; cbn.
  - intros [H|[<-|[]]]; [right; eapply In_ddel; eauto|now left].
  - intros [H|[<-|[]]]; [right; now apply In_tl|now left].
  - intros [H|[<-|[]]]; auto.
Qed.

Lemma ba_set_raw_inv key v a : ba_inv a -> ba_inv (ba_set_raw key v a)
  /\ ba_maxlen (ba_set_raw key v a) = ba_maxlen a
  /\ ba_max_value_len (ba_set_raw key v a) = ba_max_value_len a
  /\ ba_immutable (ba_set_raw key v a) = ba_immutable a.
Proof.
  intros (Hn & Hb & Hs). unfold ba_set_raw.
  destruct (ba_maxlen a) as [[|m]|] eqn:Em.
  - cbn. unfold ba_inv. cbn. rewrite ?Em. auto.
  - destruct (valid_key key) as [k|] eqn:Ek; [|unfold ba_inv; rewrite Em; auto].
    destruct (clean_attribute key v (ba_max_value_len a)) as [v'|] eqn:Ec; [|unfold ba_inv; rewrite Em; auto].
    destruct (bput_inv (Some (S m)) k v' (ba_dict a) (ba_dropped a)) as [H1 H2]; [discriminate|auto|auto|].
    pose proof (bput_In (Some (S m)) k v' (ba_dict a) (ba_dropped a)) as H3.
    destruct (bput (Some (S m)) k v' (ba_dict a) (ba_dropped a)) as [d n]. cbn [fst] in *. unfold ba_inv. cbn.
    split; [|auto]. split; [assumption|]. split; [exact H2|].
    intros limit El k0 v0 Hin. apply H3 in Hin as [[= -> ->]|Hin]; [|now apply Hs].
    split; [destruct key as [| | | |sub [|c s]| | |]; try discriminate; injection Ek as <-; discriminate|].
    rewrite El in Ec. apply clean_attribute_spec in Ec as [_ Ec]. eapply cleaned_storable; eauto.
  - destruct (valid_key key) as [k|] eqn:Ek; [|unfold ba_inv; rewrite Em; auto].
    destruct (clean_attribute key v (ba_max_value_len a)) as [v'|] eqn:Ec; [|unfold ba_inv; rewrite Em; auto].
    destruct (bput_inv None k v' (ba_dict a) (ba_dropped a)) as [H1 H2]; [discriminate|auto|auto|].
    pose proof (bput_In None k v' (ba_dict a) (ba_dropped a)) as H3.
    destruct (bput None k v' (ba_dict a) (ba_dropped a)) as [d n]. cbn [fst] in *. unfold ba_inv. cbn.
    split; [|auto]. split; [assumption|]. split; [exact H2|].
    intros limit El k0 v0 Hin. apply H3 in Hin as [[= -> ->]|Hin]; [|now apply Hs].
    split; [destruct key as [| | | |sub [|c s]| | |]; try discriminate; injection Ek as <-; discriminate|].
    rewrite El in Ec. apply clean_attribute_spec in Ec as [_ Ec]. eapply cleaned_storable; eauto.
Qed.

Lemma ba_step_inv a o : ba_inv a -> ba_inv (ba_step a o)
  /\ ba_maxlen (ba_step a o) = ba_maxlen a /\ ba_max_value_len (ba_step a o) = ba_max_value_len a
  /\ ba_immutable (ba_step a o) = ba_immutable a.
Proof.
  intros Ha. unfold ba_step, ba_set, ba_del. destruct (ba_immutable a) eqn:Ei; [destruct o; auto|].
  destruct o as [k v|k].
  - rewrite <- Ei. now apply ba_set_raw_inv.
  - destruct k as [| | | |sub k| | |]; auto. destruct (dmem k (ba_dict a)); [|auto].
    destruct Ha as (Hn & Hb & Hs). unfold ba_inv. cbn. split; [|auto]. split; [now apply NoDup_ddel|].
    split.
    + intros m E. pose proof (length_ddel_le (ba_dict a) k). specialize (Hb m E). lia.
    + intros limit El k0 v0 Hin. apply In_ddel in Hin. now apply (Hs limit El).
Qed.

Lemma ba_fold_inv (l : list (pyval * pyval)) a : ba_inv a ->
  let a' := fold_left (fun a kv => ba_set_raw (fst kv) (snd kv) a) l a in
  ba_inv a' /\ ba_maxlen a' = ba_maxlen a /\ ba_max_value_len a' = ba_max_value_len a.
Proof.
  revert a. induction l as [|kv l IH]; intros a Ha; [cbn; auto|]. cbn [fold_left].
  destruct (ba_set_raw_inv (fst kv) (snd kv) a Ha) as (H1 & H2 & H3 & _).
  destruct (IH _ H1) as (H4 & H5 & H6). cbn zeta in *. rewrite H5, H6. auto.
Qed.
Lemma ba_empty_inv m l : ba_inv (BA m l false [] 0).
Proof. unfold ba_inv. cbn. split; [constructor|]. split; [lia|tauto]. Qed.

Lemma ba_new_inv maxlen attrs imm limit a : ba_new maxlen attrs imm limit = Ok a ->
  ba_inv a /\ ba_maxlen a = option_map Z.to_nat maxlen /\ ba_max_value_len a = limit
  /\ ba_immutable a = imm /\ (forall z, maxlen = Some z -> (0 <= z)%Z).
Proof.
  unfold ba_new. intros E.
  assert (Hg : forall m, Ok a = Ok (BA m limit imm
        (ba_dict (fold_left (fun a kv => ba_set_raw (fst kv) (snd kv) a) attrs (BA m limit false [] 0)))
        (ba_dropped (fold_left (fun a kv => ba_set_raw (fst kv) (snd kv) a) attrs (BA m limit false [] 0)))) ->
      ba_inv a /\ ba_maxlen a = m /\ ba_max_value_len a = limit /\ ba_immutable a = imm).
  { intros m [= ->]. destruct (ba_fold_inv attrs _ (ba_empty_inv m limit)) as ((H1 & H2 & H3) & H4 & H5).
    cbn zeta in *. unfold ba_inv. cbn in *. rewrite H4 in H2. rewrite H5 in H3. auto. }
  destruct maxlen as [z|]; [destruct (Z.ltb_spec z 0); [discriminate|]|]; symmetry in E; apply Hg in E;
    cbn; intuition; try congruence; try lia.
Qed.

Lemma ba_history_inv maxlen attrs imm limit a ops : ba_new maxlen attrs imm limit = Ok a ->
  let a' := fold_left ba_step ops a in
  ba_inv a' /\ ba_maxlen a' = option_map Z.to_nat maxlen /\ ba_max_value_len a' = limit /\ ba_immutable a' = imm.
Proof.
  intros E. apply ba_new_inv in E as (H1 & H2 & H3 & H4 & _). cbn zeta.
  revert a H1 H2 H3 H4. induction ops as [|o ops IH]; intros a H1 H2 H3 H4; [auto|].
  cbn [fold_left]. destruct (ba_step_inv a o H1) as (K1 & K2 & K3 & K4). apply IH; congruence.
Qed.

(** What one assignment does. *)
Lemma ba_set_cases a key v : ba_immutable a = false -> ba_maxlen a <> Some 0 ->
  (clean_attribute key v (ba_max_value_len a) = None /\ ba_step a (BSet key v) = a)
  \/ exists sub k v', key = PStr sub k /\ clean_attribute key v (ba_max_value_len a) = Some v'
     /\ ((In k (keys (ba_dict a)) /\ ba_dict (ba_step a (BSet key v)) = ddel k (ba_dict a) ++ [(k, v')]
          /\ ba_dropped (ba_step a (BSet key v)) = ba_dropped a)
         \/ (~ In k (keys (ba_dict a)) /\ ba_maxlen a = Some (length (ba_dict a))
             /\ ba_dict (ba_step a (BSet key v)) = tl (ba_dict a) ++ [(k, v')]
             /\ ba_dropped (ba_step a (BSet key v)) = S (ba_dropped a))
         \/ (~ In k (keys (ba_dict a)) /\ ba_maxlen a <> Some (length (ba_dict a))
             /\ ba_dict (ba_step a (BSet key v)) = ba_dict a ++ [(k, v')]
             /\ ba_dropped (ba_step a (BSet key v)) = ba_dropped a)).
Proof.
  intros Hi Hm. unfold ba_step, ba_set. rewrite Hi.
  assert (Hraw : ba_set_raw key v a = match valid_key key, clean_attribute key v (ba_max_value_len a) with
      | Some k, Some v => let (d, n) := bput (ba_maxlen a) k v (ba_dict a) (ba_dropped a) in
           BA (ba_maxlen a) (ba_max_value_len a) (ba_immutable a) d n
      | _, _ => a end).
  { unfold ba_set_raw. destruct (ba_maxlen a) as [[|m]|]; congruence. }
  rewrite Hraw. clear Hraw. destruct (valid_key key) as [k|] eqn:Ek.
  - destruct (clean_attribute key v (ba_max_value_len a)) as [v'|] eqn:Ec; [|auto]. right.
    assert (Hk : exists sub, key = PStr sub k).
    { destruct key as [| | | |sub [|c s]| | |]; try discriminate. injection Ek as <-. eauto. }
    destruct Hk as (sub & ->). exists sub, k, v'. split; [reflexivity|]. split; [reflexivity|].
    destruct (bput_cases (ba_maxlen a) k v' (ba_dict a) (ba_dropped a))
      as [[Hk ->]|[(Hk & (m & Em & El) & ->)|(Hk & Hl & ->)]]; cbn.
    + auto.
    + right. left. repeat split; auto. congruence.
    + right. right. repeat split; auto. intros E. now apply (Hl _ E).
  - left. split; [|destruct (clean_attribute key v (ba_max_value_len a)); reflexivity].
    unfold clean_attribute. now rewrite Ek.
Qed.

Lemma ba_set_zero a key v : ba_immutable a = false -> ba_maxlen a = Some 0 ->
  ba_dict (ba_step a (BSet key v)) = ba_dict a /\ ba_dropped (ba_step a (BSet key v)) = S (ba_dropped a).
Proof. intros Hi Hm. unfold ba_step, ba_set, ba_set_raw. rewrite Hi, Hm. cbn. auto. Qed.

Lemma ba_immutable_step a o : ba_immutable a = true -> ba_step a o = a.
Proof. intros Hi. unfold ba_step, ba_set, ba_del. rewrite Hi. destruct o; reflexivity. Qed.

Lemma ba_del_cases a key : ba_immutable a = false ->
  (exists sub k, key = PStr sub k /\ In k (keys (ba_dict a))
     /\ ba_dict (ba_step a (BDel key)) = ddel k (ba_dict a) /\ ba_dropped (ba_step a (BDel key)) = ba_dropped a)
  \/ (ba_step a (BDel key) = a /\ forall sub k, key = PStr sub k -> ~ In k (keys (ba_dict a))).
Proof.
  intros Hi. unfold ba_step, ba_del. rewrite Hi.
  destruct key as [| | | |sub k| | |]; try (right; split; [reflexivity|intros ? ? [=]]).
  destruct (dmem k (ba_dict a)) eqn:E.
  - left. exists sub, k. apply dmem_keys in E. cbn. auto.
  - right. split; [reflexivity|]. intros ? ? [= <- <-]. now apply dmem_false.
Qed.

Lemma new_keys_incl {V} (a a' : dict str V) : (forall k, In k (keys a') -> In k (keys a)) -> new_keys a a' = 0.
Proof.
  intros Hi. unfold new_keys. induction (keys a') as [|k l IH]; [reflexivity|]. cbn.
  destruct (in_dec eq_dec k (keys a)) as [_|Hn]; [apply IH; intros; apply Hi; now right|].
  destruct Hn. apply Hi. now left.
Qed.
Lemma new_keys_snoc {V} (a b : dict str V) k v : (forall k, In k (keys b) -> In k (keys a)) ->
  ~ In k (keys a) -> new_keys a (b ++ [(k, v)]) = 1.
Proof.
  intros Hi Hk. unfold new_keys. rewrite keys_app, filter_app, app_length.
  change (length (filter (fun k0 => if in_dec eq_dec k0 (keys a) then false else true) (keys b)))
    with (new_keys a b). rewrite new_keys_incl by assumption. cbn.
  destruct (in_dec eq_dec k (keys a)); [contradiction|reflexivity].
Qed.

Lemma ba_step_count a o : ba_inv a -> ba_maxlen a <> Some 0 ->
  length (ba_dict (ba_step a o)) + ba_dropped (ba_step a o)
    + (match o with BDel _ => length (ba_dict a) - length (ba_dict (ba_step a o)) | _ => 0 end)
  = length (ba_dict a) + ba_dropped a + new_keys (ba_dict a) (ba_dict (ba_step a o)).
Proof.
  intros Ha Hm. destruct (ba_immutable a) eqn:Hi.
  { rewrite ba_immutable_step by assumption. rewrite new_keys_incl by auto. destruct o; lia. }
  destruct o as [key v|key].
  - destruct (ba_set_cases a key v Hi Hm) as [[_ ->]|(sub & k & v' & -> & _ & [(Hk & -> & ->)|[(Hk & Hl & -> & ->)|(Hk & Hl & -> & ->)]])].
    + rewrite new_keys_incl by auto. lia.
    + rewrite app_length. pose proof (length_ddel _ _ Hk). rewrite new_keys_incl; [cbn; lia|].
      intros k' Hk'. rewrite keys_app, in_app_iff in Hk'. cbn in Hk'.
      destruct Hk' as [Hk'|[<-|[]]]; [|assumption]. now apply keys_ddel_incl in Hk'.
    + rewrite app_length. rewrite new_keys_snoc; [|intros k' Hk'; rewrite keys_tl in Hk'; now apply in_tl in Hk'|assumption].
      destruct (ba_dict a) as [|x d] eqn:Ed; cbn in *; [congruence|lia].
    + rewrite app_length. rewrite new_keys_snoc by auto. cbn. lia.
  - destruct (ba_del_cases a key Hi) as [(sub & k & -> & Hk & -> & ->)|[-> _]].
    + pose proof (length_ddel _ _ Hk). rewrite new_keys_incl; [lia|]. intros k'. apply keys_ddel_incl.
    + rewrite new_keys_incl by auto. lia.
Qed.

Lemma ba_accounting a ops : ba_inv a -> ba_maxlen a <> Some 0 ->
  let a' := fold_left ba_step ops a in
  length (ba_dict a') + ba_dropped a' + ba_deleted a ops
  = length (ba_dict a) + ba_dropped a + ba_entered a ops.
Proof.
  revert a. induction ops as [|o ops IH]; intros a Ha Hm; [cbn; lia|].
  cbn [fold_left ba_deleted ba_entered]. destruct (ba_step_inv a o Ha) as (K1 & K2 & _).
  pose proof (IH (ba_step a o) K1 ltac:(congruence)) as E. cbn zeta in E.
  pose proof (ba_step_count a o Ha Hm). lia.
Qed.

(** The accepted assignments of a list. *)
Definition accepted (limit : option Z) (l : list (pyval * pyval)) : list (str * pyval) :=
  flat_map (fun kv => match valid_key (fst kv), clean_attribute (fst kv) (snd kv) limit with
                      | Some k, Some v => [(k, v)]
                      | _, _ => []
                      end) l.

Lemma ba_new_window maxlen attrs imm limit a : ba_new maxlen attrs imm limit = Ok a ->
  ba_dict a = match maxlen with
              | Some z => lastn (Z.to_nat z) (latest (accepted limit attrs))
              | None => latest (accepted limit attrs)
              end.
Proof.
  assert (Hg : forall m, ba_dict (fold_left (fun a kv => ba_set_raw (fst kv) (snd kv) a) attrs (BA m limit false [] 0))
      = match m with Some m => lastn m (latest (accepted limit attrs)) | None => latest (accepted limit attrs) end).
  { intros m. rewrite <- (rev_involutive attrs). induction (rev attrs) as [|kv l IH].
    - destruct m as [[|m]|]; reflexivity.
    - cbn [rev]. rewrite fold_left_app. cbn [fold_left].
      unfold accepted. rewrite flat_map_app. fold (accepted limit (rev l)). cbn [flat_map]. rewrite app_nil_r.
      destruct (ba_fold_inv (rev l) _ (ba_empty_inv m limit)) as (Hinv & Em & El). cbn zeta in *. cbn in Em, El.
      set (a0 := fold_left (fun a kv => ba_set_raw (fst kv) (snd kv) a) (rev l) (BA m limit false [] 0)) in *.
      unfold ba_set_raw. rewrite Em, El. destruct m as [[|m]|].
      + cbn [ba_dict]. rewrite IH, !lastn_0. reflexivity.
      + destruct (valid_key (fst kv)) as [k|]; [|now rewrite app_nil_r].
        destruct (clean_attribute (fst kv) (snd kv) limit) as [v|]; [|now rewrite app_nil_r].
        rewrite latest_snoc.
        pose proof (bput_window (S m) (latest (accepted limit (rev l))) k v (ba_dropped a0) (latest_nodup _) (Nat.lt_0_succ m)) as Hw.
        rewrite IH. destruct (bput _ _ _ _ _). exact Hw.
      + destruct (valid_key (fst kv)) as [k|]; [|now rewrite app_nil_r].
        destruct (clean_attribute (fst kv) (snd kv) limit) as [v|]; [|now rewrite app_nil_r].
        rewrite latest_snoc. pose proof (bput_none (latest (accepted limit (rev l))) k v (ba_dropped a0)) as Hw.
        rewrite IH. destruct (bput _ _ _ _ _). exact Hw. }
  unfold ba_new. destruct maxlen as [z|].
  - destruct (Z.ltb z 0); [discriminate|]. intros [= <-]. cbn. apply Hg.
  - intros [= <-]. cbn. apply Hg.
Qed.

Lemma accepted_taken limit l : takes limit l (accepted (zlim limit) l).
Proof.
  induction l as [|[key v] l IH]; [constructor|]. unfold accepted. cbn [flat_map fst snd].
  fold (accepted (zlim limit) l).
  destruct (clean_attribute key v (zlim limit)) as [v'|] eqn:E.
  - pose proof E as E'. apply clean_attribute_spec in E' as [(sub & c & s & ->) Hc]. cbn [valid_key app].
    constructor; [discriminate|assumption|assumption].
  - replace (match valid_key key with Some _ => [] | None => [] end) with ([] : list (str * pyval))
      by (destruct (valid_key key); reflexivity). cbn [app].
    constructor; [|assumption]. intros sub k v' -> Hk Hc. destruct k as [|c k]; [congruence|].
    assert (E2 : clean_attribute (PStr sub (c :: k)) v (zlim limit) = Some v').
    { apply clean_attribute_spec. eauto. }
    congruence.
Qed.
Lemma cleaned_det limit v v1 v2 : cleaned limit v v1 -> cleaned limit v v2 -> v1 = v2.
Proof.
  intros H1 H2.
  assert (Hg : forall v', cleaned limit v v' -> clean_attribute (PStr false [0%N]) v (zlim limit) = Some v').
  { intros v' Hc. apply clean_attribute_spec. eauto. }
  apply Hg in H1, H2. congruence.
Qed.
Lemma taken_det limit l t1 : takes limit l t1 -> forall t2, takes limit l t2 -> t1 = t2.
Proof.
  induction 1 as [|sub k v v' rest t Hk Hc Ht IH|key v rest t Hn Ht IH]; intros t2 H2.
  - now inversion H2.
  - inversion H2 as [|? ? ? v2 ? t' ? Hc2 Ht2|? ? ? ? Hn2 Ht2]; subst.
    + f_equal; [f_equal; eapply cleaned_det; eauto|auto].
    + exfalso. eapply Hn2; eauto.
  - inversion H2 as [|? ? ? v2 ? t' ? Hc2 Ht2|? ? ? ? Hn2 Ht2]; subst.
    + exfalso. eapply Hn; eauto.
    + auto.
Qed.

Lemma ba_new_taken maxlen attrs imm limit a t :
  ba_new maxlen attrs imm (zlim limit) = Ok a -> takes limit attrs t ->
  ba_dict a = match maxlen with Some z => lastn (Z.to_nat z) (latest t) | None => latest t end.
Proof.
  intros E Ht. rewrite (ba_new_window _ _ _ _ _ E).
  now rewrite (taken_det _ _ _ Ht _ (accepted_taken limit attrs)).
Qed.

(** Final forms of the property theorems. *)
Lemma c20_capacity maxlen attrs imm limit a ops : ba_new maxlen attrs imm limit = Ok a ->
  let a' := fold_left ba_step ops a in
  NoDup (keys (ba_dict a')) /\ forall m, maxlen = Some m -> (Z.of_nat (length (ba_dict a')) <= m)%Z.
Proof.
  intros E. destruct (ba_history_inv _ _ _ _ _ ops E) as ((H1 & H2 & _) & H3 & _). cbn zeta.
  split; [assumption|]. intros m ->. cbn in H3. specialize (H2 _ H3).
  apply ba_new_inv in E as (_ & _ & _ & _ & Hp). specialize (Hp m eq_refl). lia.
Qed.

Lemma c20_accounting maxlen limit a ops : ba_new maxlen [] false limit = Ok a -> maxlen <> Some 0%Z ->
  let a' := fold_left ba_step ops a in
  length (ba_dict a') + ba_dropped a' + ba_deleted a ops = ba_entered a ops.
Proof.
  intros E Hm. pose proof (ba_new_inv _ _ _ _ _ E) as (H1 & H2 & _ & _ & Hp).
  assert (H3 : ba_maxlen a <> Some 0).
  { rewrite H2. destruct maxlen as [z|]; cbn; [|discriminate]. specialize (Hp z eq_refl).
    intros [= E0]. apply Hm. f_equal. lia. }
  cbn zeta. rewrite ba_accounting by assumption.
  unfold ba_new in E. destruct maxlen as [z|]; [destruct (Z.ltb z 0); [discriminate|]|]; injection E as <-; cbn; lia.
Qed.

Lemma c20_zero attrs imm limit a ops : ba_new (Some 0%Z) attrs imm limit = Ok a -> imm = false ->
  let a' := fold_left ba_step ops a in
  ba_dict a' = []
  /\ ba_dropped a' = length attrs + length (filter (fun o => match o with BSet _ _ => true | BDel _ => false end) ops).
Proof.
  intros E ->. pose proof (ba_new_inv _ _ _ _ _ E) as (_ & Hm & _ & Hi & _). cbn in Hm.
  assert (H0 : ba_dict a = [] /\ ba_dropped a = length attrs).
  { unfold ba_new in E. cbn in E. injection E as <-. cbn.
    assert (Hg : forall d n, d = [] -> ba_dict (fold_left (fun a kv => ba_set_raw (fst kv) (snd kv) a) attrs (BA (Some 0) limit false d n)) = []
       /\ ba_dropped (fold_left (fun a kv => ba_set_raw (fst kv) (snd kv) a) attrs (BA (Some 0) limit false d n)) = n + length attrs).
    { clear. induction attrs as [|kv l IH]; intros d n ->; cbn; [split; [reflexivity|lia]|].
      destruct (IH [] (S n) eq_refl) as [H1 H2]. unfold ba_set_raw in *. cbn in *. rewrite H1, H2. split; [reflexivity|lia]. }
    now apply Hg. }
  cbn zeta. destruct H0 as [H1 H2]. clear E. rewrite <- H2. clear H2.
  revert a H1 Hm Hi. induction ops as [|o ops IH]; intros a H1 Hm Hi; [cbn; split; [assumption|lia]|].
  cbn [fold_left]. destruct o as [k v|k]; cbn [filter length].
  - pose proof (ba_set_zero a k v Hi Hm) as [E1 E2].
    assert (E3 : ba_maxlen (ba_step a (BSet k v)) = Some 0 /\ ba_immutable (ba_step a (BSet k v)) = false).
    { unfold ba_step, ba_set, ba_set_raw. rewrite Hi, Hm. auto. }
    destruct (IH _ (eq_trans E1 H1) (proj1 E3) (proj2 E3)) as [H3 H4]. rewrite H3, H4, E2. split; [reflexivity|lia].
  - destruct (ba_del_cases a k Hi) as [(sub & k' & _ & Hin & _)|[-> _]]; [rewrite H1 in Hin; destruct Hin|].
    now apply IH.
Qed.

Lemma c20_set a key v limit : ba_immutable a = false -> ba_maxlen a <> Some 0 ->
  ba_max_value_len a = zlim limit ->
  let a' := ba_step a (BSet key v) in
  ((forall sub k v', key = PStr sub k -> k <> [] -> ~ cleaned limit v v') -> a' = a)
  /\ (forall sub k v', key = PStr sub k -> k <> [] -> cleaned limit v v' ->
       (In k (keys (ba_dict a)) ->
          ba_dict a' = ddel k (ba_dict a) ++ [(k, v')] /\ ba_dropped a' = ba_dropped a)
       /\ (~ In k (keys (ba_dict a)) -> ba_maxlen a = Some (length (ba_dict a)) ->
          ba_dict a' = tl (ba_dict a) ++ [(k, v')] /\ ba_dropped a' = S (ba_dropped a))
       /\ (~ In k (keys (ba_dict a)) -> ba_maxlen a <> Some (length (ba_dict a)) ->
          ba_dict a' = ba_dict a ++ [(k, v')] /\ ba_dropped a' = ba_dropped a)).
Proof.
  intros Hi Hm El. cbn zeta. pose proof (ba_set_cases a key v Hi Hm) as Hc. rewrite El in Hc. split.
  - intros Hn. destruct Hc as [[_ E]|(sub & k & v' & -> & E & _)]; [assumption|]. exfalso.
    apply clean_attribute_spec in E as [(sub' & c & s & [= -> ->]) E]. eapply Hn; eauto. discriminate.
  - intros sub k v' -> Hk Hcl.
    assert (E : clean_attribute (PStr sub k) v (zlim limit) = Some v').
    { apply clean_attribute_spec. split; [|assumption]. destruct k as [|c k]; [congruence|eauto]. }
    destruct Hc as [[E2 _]|(sub2 & k2 & v2 & [= <- <-] & E2 & Hc)]; [congruence|].
    assert (v2 = v') by congruence. subst v2.
    destruct Hc as [(H1 & H2 & H3)|[(H1 & H2 & H3 & H4)|(H1 & H2 & H3 & H4)]]; intuition congruence.
Qed.

Lemma c20_immutable a o : ba_immutable a = true ->
  (match o with BSet k v => ba_set k v a | BDel k => ba_del k a end) = Raises "TypeError" /\ ba_step a o = a.
Proof. intros Hi. split; [|now apply ba_immutable_step]. destruct o; unfold ba_set, ba_del; now rewrite Hi. Qed.

Lemma c21_stored maxlen attrs imm limit a ops k v : ba_new maxlen attrs imm (zlim limit) = Ok a ->
  In (k, v) (ba_dict (fold_left ba_step ops a)) -> k <> [] /\ storable limit v.
Proof.
  intros E. destruct (ba_history_inv _ _ _ _ _ ops E) as ((_ & _ & H) & _ & H2 & _). cbn zeta in *.
  intros Hin. now apply (H limit H2).
Qed.

Lemma c21_cut maxlen attrs n a0 ops sub k sub' s :
  ba_new maxlen attrs false (Some (Z.of_nat n)) = Ok a0 -> maxlen <> Some 0%Z -> k <> [] ->
  let a := fold_left ba_step ops a0 in
  dget k (ba_dict (ba_step a (BSet (PStr sub k) (PStr sub' s)))) = Some (PStr false (firstn n s)).
Proof.
  intros E Hm0 Hk. pose proof (ba_new_inv _ _ _ _ _ E) as (_ & _ & _ & _ & Hp).
  destruct (ba_history_inv _ _ _ _ _ ops E) as ((Hn & _ & _) & Hm & El & Hi). cbn zeta in *.
  set (a := fold_left ba_step ops a0) in *.
  assert (Hm' : ba_maxlen a <> Some 0).
  { rewrite Hm. destruct maxlen as [z|]; cbn; [|discriminate]. specialize (Hp z eq_refl).
    intros [= E0]. apply Hm0. f_equal. lia. }
  clear Hm. rename Hm' into Hm. clearbody a. clear E Hp Hm0.
  pose proof (c20_set a (PStr sub k) (PStr sub' s) (Some n) Hi Hm El) as [_ Hc]. cbn zeta in Hc.
  assert (Hcl : cleaned (Some n) (PStr sub' s) (PStr false (firstn n s))).
  { constructor. apply (cl_str (Some n)). split; [exists (skipn n s); now rewrite firstn_skipn|apply firstn_length]. }
  destruct (Hc sub k _ eq_refl Hk Hcl) as (C1 & C2 & C3).
  assert (Hlast : forall d v, ~ In k (keys d) -> dget k (d ++ [(k, v)]) = Some (v : pyval)).
  { intros d v0 Hd. rewrite <- keys_dset_new by assumption. apply dget_dset_eq. }
  destruct (in_dec eq_dec k (keys (ba_dict a))) as [Hin|Hin].
  - destruct (C1 Hin) as [-> _]. apply Hlast. now apply ddel_not_key.
  - destruct (ba_maxlen a) as [m|] eqn:Em.
    + destruct (Nat.eq_dec m (length (ba_dict a))) as [E|E].
      * destruct (C2 Hin ltac:(f_equal; exact E)) as [-> _]. apply Hlast. rewrite keys_tl. intros H. now apply in_tl in H.
      * destruct (C3 Hin ltac:(congruence)) as [-> _]. now apply Hlast.
    + destruct (C3 Hin ltac:(congruence)) as [-> _]. now apply Hlast.
Qed.

Lemma c22_list {A} maxlen (ops : list (blop A)) :
  let all := concat (map offered ops) in
  let b := fold_left bl_step ops (bl_new maxlen) in
  match maxlen with
  | Some m => bl_items b = lastn m all /\ bl_dropped b = length all - m
  | None => bl_items b = all /\ bl_dropped b = 0
  end.
Proof. exact (proj2 (bl_history maxlen ops)). Qed.
