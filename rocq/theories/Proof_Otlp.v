(** Proofs for C52, C53, C67-C69. *)
From Verif Require Import Spec_Otlp Proof_Url Proof_Attr Proof_Dict Proof_View.
From Coq Require Import Lia Permutation.
Local Open Scope Z_scope.

Ltac chain H :=
  repeat match type of H with
         | bind ?e _ = Some _ =>
             let E := fresh "E" in let x := fresh "x" in
             revert H; case_eq e; [intros x E H; cbn [bind] in H | intros E H; discriminate H]
         end.

(** ** Values *)
Lemma pb_str_ok s t : pb_str s = Some t <-> t = s /\ unicode_text s.
Proof.
  unfold pb_str. destruct (utf8_encode s) eqn:E.
  - apply utf8_encode_some in E. split; [intros H; injection H as <-; auto|intros [-> _]; reflexivity].
  - split; [discriminate|]. intros [_ U]. destruct (utf8_round_trip _ U) as (bs & Q & _). congruence.
Qed.
Lemma pb_str_none s : pb_str s = None <-> ~ unicode_text s.
Proof.
  destruct (pb_str s) eqn:E.
  - apply pb_str_ok in E. split; [discriminate|]. intros N. exfalso. tauto.
  - split; [|reflexivity]. intros _ U. assert (pb_str s = Some s) by (apply pb_str_ok; auto). congruence.
Qed.
Lemma pb_range_ok lo hi z t : pb_range lo hi z = Some t <-> t = z /\ lo <= z <= hi.
Proof.
  unfold pb_range. destruct ((lo <=? z) && (z <=? hi)) eqn:E.
  - apply andb_true_iff in E. destruct E as [A B]. apply Z.leb_le in A, B. split; [intros H; injection H as <-; auto|intros [-> _]; reflexivity].
  - split; [discriminate|]. intros [_ [A B]]. apply Z.leb_le in A, B. now rewrite A, B in E.
Qed.
Lemma pb_int64_ok z t : pb_int64 z = Some t <-> t = z /\ int64 z.
Proof. unfold pb_int64, int64. rewrite pb_range_ok. lia. Qed.
Lemma pb_uint64_ok z t : pb_uint64 z = Some t <-> t = z /\ fits 64 z.
Proof. unfold pb_uint64, fits. rewrite pb_range_ok. lia. Qed.
Lemma pb_uint32_ok z t : pb_uint32 z = Some t <-> t = z /\ fits 32 z.
Proof. unfold pb_uint32, fits. rewrite pb_range_ok. lia. Qed.
Lemma pb_sint32_ok z t : pb_sint32 z = Some t <-> t = z /\ - 2 ^ 31 <= z < 2 ^ 31.
Proof. unfold pb_sint32. rewrite pb_range_ok. lia. Qed.

Definition or_av (o : option any_value) : any_value := match o with Some y => y | None => AVEmpty end.
Definition enc_seq null := fix go (l : list anyv) : option (list any_value) :=
                    match l with
                    | [] => Some []
                    | x :: l' => let? y := encode_value null x in let? ys := go l' in Some (or_av y :: ys)
                    end.
Definition enc_map null := fix go (l : list (str * anyv)) : option (list (str * any_value)) :=
                    match l with
                    | [] => Some []
                    | (k, x) :: l' =>
                        let? y := encode_value null x in
                        let? k := pb_str k in
                        let? ys := go l' in
                        Some ((k, or_av y) :: ys)
                    end.
Lemma enc_ASeq null l : encode_value null (ASeq l) = let? vs := enc_seq null l in Some (Some (AVArray vs)).
Proof. reflexivity. Qed.
Lemma enc_AMap null l : encode_value null (AMap l) = let? vs := enc_map null l in Some (Some (AVKvlist vs)).
Proof. reflexivity. Qed.

Section AnyInd.
Variable P : anyv -> Prop.
Hypothesis Hn : P ANone.
Hypothesis Hb : forall b, P (ABool b).
Hypothesis Hs : forall s, P (AStr s).
Hypothesis Hi : forall z, P (AInt z).
Hypothesis Hf : forall f, P (AFloat f).
Hypothesis Hy : forall b, P (ABytes b).
Hypothesis Hq : forall l, Forall P l -> P (ASeq l).
Hypothesis Hm : forall l, Forall (fun kv => P (snd kv)) l -> P (AMap l).
Hypothesis Ho : P AOther.
Fixpoint anyv_ind' (v : anyv) : P v :=
  match v with
  | ANone => Hn | ABool b => Hb b | AStr s => Hs s | AInt z => Hi z | AFloat f => Hf f | ABytes b => Hy b
  | ASeq l => Hq l ((fix go l : Forall P l := match l with [] => Forall_nil _ | x :: l' => Forall_cons x (anyv_ind' x) (go l') end) l)
  | AMap l => Hm l ((fix go l : Forall (fun kv => P (snd kv)) l :=
                       match l with [] => Forall_nil _ | x :: l' => Forall_cons x (anyv_ind' (snd x)) (go l') end) l)
  | AOther => Ho
  end.
End AnyInd.

(** What is encoded reads as it was; exactly the carried values are encoded. *)
Lemma encode_value_ok null v : (forall o, encode_value null v = Some o -> carried null v /\ read_value (or_av o) = v)
  /\ (carried null v -> exists o, encode_value null v = Some o).
Proof.
  induction v using anyv_ind'.
  - cbn. destruct null; split.
    + intros o H. injection H as <-. split; [now constructor|reflexivity].
    + eauto.
    + discriminate.
    + intros C. inversion C. discriminate.
  - split; [intros o H; injection H as <-; split; [constructor|reflexivity]|cbn; eauto].
  - split.
    + cbn. intros o H. chain H. injection H as <-. apply pb_str_ok in E. destruct E as [-> U]. split; [now constructor|reflexivity].
    + intros C. inversion C. subst. cbn. assert (Q : pb_str s = Some s) by (apply pb_str_ok; auto). rewrite Q. cbn. eauto.
  - split.
    + cbn. intros o H. chain H. injection H as <-. apply pb_int64_ok in E. destruct E as [-> U]. split; [now constructor|reflexivity].
    + intros C. inversion C. subst. cbn. assert (Q : pb_int64 z = Some z) by (apply pb_int64_ok; auto). rewrite Q. cbn. eauto.
  - split; [intros o H; injection H as <-; split; [constructor|reflexivity]|cbn; eauto].
  - split; [intros o H; injection H as <-; split; [constructor|reflexivity]|cbn; eauto].
  - rewrite enc_ASeq.
    assert (A : forall vs, enc_seq null l = Some vs -> Forall (carried null) l /\ map read_value vs = l).
    { induction H as [|x l Hx Hl IH]; intros vs Q; cbn in Q.
      - injection Q as <-. split; [constructor|reflexivity].
      - chain Q. injection Q as <-. destruct (proj1 Hx _ E) as [Cx Rx]. destruct (IH _ E0) as [Cl Rl].
        split; [now constructor|]. cbn. now rewrite Rx, Rl. }
    assert (B : Forall (carried null) l -> exists vs, enc_seq null l = Some vs).
    { clear A. induction H as [|x l Hx Hl IH]; intros C; [cbn; eauto|]. inversion C; subst.
      destruct (proj2 Hx H1) as [o Eo]. destruct (IH H2) as [vs Ev]. cbn. rewrite Eo. cbn. rewrite Ev. cbn. eauto. }
    split.
    + intros o Q. chain Q. injection Q as <-. destruct (A _ E) as [C R]. split; [now constructor|]. cbn. now rewrite R.
    + intros C. inversion C; subst. destruct (B H1) as [vs Ev]. rewrite Ev. cbn. eauto.
  - rewrite enc_AMap.
    assert (A : forall vs, enc_map null l = Some vs ->
      Forall (fun kv => unicode_text (fst kv) /\ carried null (snd kv)) l /\ map (fun kv => (fst kv, read_value (snd kv))) vs = l).
    { induction H as [|[k x] l Hx Hl IH]; intros vs Q; cbn in Q.
      - injection Q as <-. split; [constructor|reflexivity].
      - chain Q. injection Q as <-. cbn in Hx. destruct (proj1 Hx _ E) as [Cx Rx]. destruct (IH _ E1) as [Cl Rl].
        apply pb_str_ok in E0. destruct E0 as [-> U].
        split; [now constructor|]. cbn. now rewrite Rx, Rl. }
    assert (B : Forall (fun kv => unicode_text (fst kv) /\ carried null (snd kv)) l -> exists vs, enc_map null l = Some vs).
    { clear A. induction H as [|[k x] l Hx Hl IH]; intros C; [cbn; eauto|]. inversion C; subst. cbn in *. destruct H1 as [U C1].
      destruct (proj2 Hx C1) as [o Eo]. destruct (IH H2) as [vs Ev]. rewrite Eo. cbn.
      assert (Q : pb_str k = Some k) by (apply pb_str_ok; auto). rewrite Q. cbn. rewrite Ev. cbn. eauto. }
    split.
    + intros o Q. chain Q. injection Q as <-. destruct (A _ E) as [C R]. split; [now constructor|]. cbn. now rewrite R.
    + intros C. inversion C; subst. destruct (B H1) as [vs Ev]. rewrite Ev. cbn. eauto.
  - split; [discriminate|]. intros C. inversion C.
Qed.

Lemma encode_kv_some k v p : encode_key_value k (of_pyval v) = Some p -> attribute_ok (k, v) /\ fst p = k /\ read_value (snd p) = of_pyval v.
Proof.
  unfold encode_key_value. intros H. chain H. injection H as <-. apply pb_str_ok in E0. destruct E0 as [-> U].
  destruct (proj1 (encode_value_ok false (of_pyval v)) _ E) as [C R]. repeat split; auto.
Qed.
Lemma encode_kv_none k v : encode_key_value k (of_pyval v) = None -> ~ attribute_ok (k, v).
Proof.
  unfold encode_key_value. intros H [U C]. cbn in U, C. destruct (proj2 (encode_value_ok false (of_pyval v)) C) as [o E].
  rewrite E in H. cbn in H. assert (Q : pb_str k = Some k) by (apply pb_str_ok; auto). now rewrite Q in H.
Qed.
Lemma encode_attributes_read attrs : attributes_read attrs (encode_attributes attrs).
Proof.
  induction attrs as [|[k v] l IH]; cbn; [constructor|]. destruct (encode_key_value k (of_pyval v)) as [[k' e]|] eqn:E; cbn.
  - apply encode_kv_some in E. destruct E as (O & K & R). cbn in K. subst k'. now constructor.
  - apply encode_kv_none in E. now constructor.
Qed.
(** [attributes_read] determines its message, up to how values are written. *)
Lemma attributes_read_det attrs out : attributes_read attrs out -> forall out', attributes_read attrs out' ->
  map (fun kv => (fst kv, read_value (snd kv))) out = map (fun kv => (fst kv, read_value (snd kv))) out'.
Proof.
  induction 1; intros out' R; inversion R; subst; try contradiction; [reflexivity| |]; cbn; [f_equal; [f_equal; congruence|]|]; auto.
Qed.

(** ** Ids *)
Lemma be_bytes_ok n : forall z, 0 <= z < 256 ^ Z.of_nat n -> is_bytes n (be_bytes n z) /\ number_of_bytes (be_bytes n z) = z.
Proof.
  induction n as [|n IH]; intros z H.
  - cbn in *. split; [split; [reflexivity|constructor]|]. unfold number_of_bytes. cbn. lia.
  - rewrite Nat2Z.inj_succ, Z.pow_succ_r in H by lia. cbn [be_bytes].
    destruct (IH (z / 256)) as [[L F] V].
    { split; [apply Z.div_pos; lia|]. apply Z.div_lt_upper_bound; lia. }
    pose proof (Z.mod_pos_bound z 256 ltac:(lia)). split; [split|].
    + rewrite app_length, L. cbn. lia.
    + apply Forall_app. split; [exact F|]. constructor; [lia|constructor].
    + unfold number_of_bytes in *. rewrite fold_left_app, V. cbn [fold_left]. rewrite Z2N.id by lia.
      pose proof (Z.div_mod z 256 ltac:(lia)). lia.
Qed.
Lemma to_bytes_some n z bs : to_bytes n z = Some bs -> 0 <= z < 256 ^ Z.of_nat n /\ is_bytes n bs /\ number_of_bytes bs = z.
Proof.
  unfold to_bytes. destruct ((0 <=? z) && (z <? 256 ^ Z.of_nat n)) eqn:E; [|discriminate]. intros H. injection H as <-.
  apply andb_true_iff in E. destruct E as [A B]. apply Z.leb_le in A. apply Z.ltb_lt in B.
  split; [lia|]. apply be_bytes_ok. lia.
Qed.
Lemma to_bytes_ex n z : 0 <= z < 256 ^ Z.of_nat n -> exists bs, to_bytes n z = Some bs.
Proof.
  intros [A B]. unfold to_bytes. apply Z.leb_le in A. apply Z.ltb_lt in B. rewrite A, B. cbn. eauto.
Qed.
Lemma trace_id_some z bs : encode_trace_id z = Some bs -> fits 128 z /\ id_read 16 (Some z) bs.
Proof. intros H. apply to_bytes_some in H. change (256 ^ Z.of_nat 16) with (2 ^ 128) in H. exact H. Qed.
Lemma span_id_some z bs : encode_span_id z = Some bs -> fits 64 z /\ id_read 8 (Some z) bs.
Proof. intros H. apply to_bytes_some in H. change (256 ^ Z.of_nat 8) with (2 ^ 64) in H. exact H. Qed.
Lemma trace_id_ex z : fits 128 z -> exists bs, encode_trace_id z = Some bs.
Proof. intros H. apply to_bytes_ex. exact H. Qed.
Lemma span_id_ex z : fits 64 z -> exists bs, encode_span_id z = Some bs.
Proof. intros H. apply to_bytes_ex. exact H. Qed.

(** ** Keys *)
Lemma anyv_eqb_eq : forall a b, anyv_eqb a b = true <-> a = b.
Proof.
  intros a. induction a using anyv_ind'; intros y; destruct y; cbn; try (split; congruence).
  - rewrite Bool.eqb_true_iff. split; congruence.
  - rewrite str_eqb_eq. split; congruence.
  - rewrite Z.eqb_eq. split; congruence.
  - rewrite Z.eqb_eq. split; congruence.
  - rewrite str_eqb_eq. split; congruence.
  - enough (Q : forall m, (fix go (l m : list anyv) : bool :=
         match l, m with [], [] => true | x :: l', y :: m' => anyv_eqb x y && go l' m' | _, _ => false end) l m = true <-> l = m).
    { rewrite Q. split; congruence. }
    induction H as [|x l Hx Hl IH]; intros [|y m]; try (split; congruence).
    rewrite andb_true_iff, Hx, IH. split; [intros [-> ->]; reflexivity|intros E; injection E as -> ->; auto].
  - enough (Q : forall m, (fix go (l m : list (str * anyv)) : bool :=
         match l, m with
         | [], [] => true
         | (k, x) :: l', (k', y) :: m' => str_eqb k k' && anyv_eqb x y && go l' m'
         | _, _ => false
         end) l m = true <-> l = m).
    { rewrite Q. split; congruence. }
    induction H as [|[k x] l Hx Hl IH]; intros [|[k' y] m]; try (split; congruence).
    cbn in Hx. rewrite !andb_true_iff, str_eqb_eq, Hx, IH. split; [intros [[-> ->] ->]; reflexivity|intros E; injection E as -> -> ->; auto].
Qed.

Section DictEq.
Context {C : Type}.
Variable cv : pyval -> option C.
Variable veq : pyval -> pyval -> bool.
Hypothesis veq_ok : forall v w, veq v w = true <-> exists c, cv v = Some c /\ cv w = Some c.
Definition conv (d : dict str pyval) (k : str) : option (option C) := option_map cv (dget k d).
Lemma dict_eqb_spec a b : NoDup (keys a) -> NoDup (keys b) -> Forall (fun kv => cv (snd kv) <> None) a ->
  (dict_eqb veq a b = true <-> forall k, conv a k = conv b k).
Proof.
  intros Na Nb Fa. unfold dict_eqb. rewrite andb_true_iff, Nat.eqb_eq, forallb_forall. rewrite Forall_forall in Fa. split.
  - intros [L F].
    assert (Sub : incl (keys a) (keys b)).
    { intros k I. apply in_map_iff in I. destruct I as [[k' v] [<- I]]. specialize (F _ I). cbn in *.
      destruct (dget k' b) as [w|] eqn:G; [|discriminate]. apply dget_In in G. apply in_map_iff. exists (k', w). auto. }
    assert (Sup : incl (keys b) (keys a)).
    { apply NoDup_length_incl; [exact Na| |exact Sub]. unfold keys. rewrite !map_length. lia. }
    intros k. unfold conv. destruct (dget k a) as [v|] eqn:G.
    + apply dget_In in G. specialize (F _ G). cbn in F. destruct (dget k b) as [w|]; [|discriminate].
      apply veq_ok in F. destruct F as (c & Q1 & Q). cbn. now rewrite Q1, Q.
    + destruct (dget k b) as [w|] eqn:Gb; [|reflexivity]. exfalso. apply dget_In in Gb.
      assert (I : In k (keys a)) by (apply Sup, in_map_iff; exists (k, w); auto).
      apply in_map_iff in I. destruct I as [[k' v] [<- I]]. cbn in G. rewrite (In_dget _ _ _ Na I) in G. discriminate.
  - intros E. split.
    + assert (Sub : incl (keys a) (keys b)).
      { intros k I. apply in_map_iff in I. destruct I as [[k' v] [<- I]]. specialize (E k'). unfold conv in E.
        cbn. rewrite (In_dget _ _ _ Na I) in E. destruct (dget k' b) as [w|] eqn:G; [|discriminate]. apply dget_In in G.
        apply in_map_iff. exists (k', w). auto. }
      assert (Sup : incl (keys b) (keys a)).
      { intros k I. apply in_map_iff in I. destruct I as [[k' v] [<- I]]. specialize (E k'). unfold conv in E.
        cbn. rewrite (In_dget _ _ _ Nb I) in E. destruct (dget k' a) as [w|] eqn:G; [|discriminate]. apply dget_In in G.
        apply in_map_iff. exists (k', w). auto. }
      pose proof (NoDup_incl_length Na Sub). pose proof (NoDup_incl_length Nb Sup). unfold keys in *. rewrite !map_length in *. lia.
    + intros [k v] I. cbn. specialize (E k). unfold conv in E. rewrite (In_dget _ _ _ Na I) in E. cbn in E.
      destruct (dget k b) as [w|]; [|discriminate]. apply veq_ok. injection E as E. specialize (Fa _ I). cbn in Fa.
      destruct (cv v) as [c|]; [|congruence]. exists c. auto.
Qed.
End DictEq.

Definition oc_of (v : pyval) : option anyv := Some (of_pyval v).
Lemma resource_key_spec a b : resource_ok a -> resource_ok b ->
  (same_resource_key a b = true <-> equal_resources a b).
Proof.
  intros [Na _] [Nb _]. unfold same_resource_key, equal_resources. rewrite andb_true_iff, str_eqb_eq.
  rewrite (dict_eqb_spec oc_of); auto.
  - unfold conv, same_attributes, oc_of. split; intros [H E]; (split; [|exact E]); intros k; specialize (H k);
      destruct (dget k (r_attrs a)), (dget k (r_attrs b)); cbn in *; congruence.
  - intros v w. rewrite anyv_eqb_eq. unfold oc_of. split; [intros ->; eauto|intros (c & P & Q); congruence].
  - apply Forall_forall. discriminate.
Qed.

Section Scopes.
Variable float_int : Z -> option Z.
Notation cn := (canon float_int (fun _ => true)).
Lemma stored_canon v : stored v -> cn v <> None.
Proof.
  revert v. fix IH 2. intros v [w Hw|l Hl].
  - destruct w; cbn; try discriminate. destruct Hw.
  - cbn. enough (Q : exists cs, (fix go (l : list pyval) : option (list ckey) :=
            match l with
            | [] => Some []
            | x :: l' => match cn x, go l' with Some c, Some cs => Some (c :: cs) | _, _ => None end
            end) l = Some cs) by (destruct Q as [cs ->]; discriminate).
    induction Hl as [|x l Hx Hl IHl]; [eauto|]. destruct IHl as [cs ->]. pose proof (IH x Hx) as N. destruct (cn x); [eauto|congruence].
Qed.
Lemma scope_key_spec a b : scope_ok a -> scope_ok b -> (same_scope_key float_int a b = true <-> python_equal_scopes float_int a b).
Proof.
  destruct a as [a|], b as [b|]; cbn; try (intros; split; [discriminate|contradiction]); [|tauto].
  intros [Na Sa] [Nb Sb]. rewrite !andb_true_iff, !str_eqb_eq.
  assert (V : match sco_version a, sco_version b with Some v, Some w => str_eqb v w | None, None => true | _, _ => false end = true
              <-> sco_version a = sco_version b).
  { destruct (sco_version a), (sco_version b); rewrite ?str_eqb_eq; split; try discriminate; congruence. }
  rewrite V. rewrite (dict_eqb_spec cn); [unfold conv, python_equal; tauto| |auto|auto|].
  - intros v w. destruct (cn v) as [c|], (cn w) as [d|]; try (split; [discriminate|intros (c' & P & Q); congruence]).
    rewrite ckey_eqb_spec. split; [intros ->; eauto|intros (c' & P & Q); congruence].
  - eapply Forall_impl; [|exact Sa]. intros [k v] H. now apply stored_canon.
Qed.
End Scopes.

(** An equivalence on the elements of [P] *)
Record equiv_on {A} (P : A -> Prop) (same : A -> A -> bool) : Prop := {
  eo_refl : forall a, P a -> same a a = true;
  eo_sym : forall a b, P a -> P b -> same a b = true -> same b a = true;
  eo_trans : forall a b c, P a -> P b -> P c -> same a b = true -> same b c = true -> same a c = true }.
Lemma resource_equiv : equiv_on resource_ok same_resource_key.
Proof.
  split.
  - intros a H. apply resource_key_spec; auto. split; [intros k|]; reflexivity.
  - intros a b Ha Hb H. apply resource_key_spec in H; auto. apply resource_key_spec; auto.
    destruct H as [H E]. split; [intros k; symmetry; apply H|congruence].
  - intros a b c Ha Hb Hc H K. apply resource_key_spec in H; auto. apply resource_key_spec in K; auto. apply resource_key_spec; auto.
    destruct H as [H E], K as [K F]. split; [intros k; now rewrite H|congruence].
Qed.
Lemma scope_equiv fi : equiv_on scope_ok (same_scope_key fi).
Proof.
  split.
  - intros a H. apply scope_key_spec; auto. destruct a; cbn; auto. split; [|split; [|split]]; auto. intros k; reflexivity.
  - intros a b Ha Hb H. apply scope_key_spec in H; auto. apply scope_key_spec; auto.
    destruct a, b; cbn in *; auto. destruct H as (A & B & D & H). split; [|split; [|split]]; auto. intros k; symmetry; apply H.
  - intros a b c Ha Hb Hc H K. apply scope_key_spec in H; auto. apply scope_key_spec in K; auto. apply scope_key_spec; auto.
    destruct a, b, c; cbn in *; auto; try contradiction. destruct H as (A & B & D & H), K as (A' & B' & D' & K).
    split; [|split; [|split]]; try congruence.
Qed.

(** ** Groups *)
Section OneLevel.
Context {A : Type}.
Variable P : A -> Prop.
Variable same : A -> A -> bool.
Hypothesis EQ : equiv_on P same.
Notation firsts := (firsts same).
Lemma firsts_P l : Forall P l -> Forall P (firsts l).
Proof.
  induction 1 as [|x l Hx Hl IH]; cbn; [constructor|]. constructor; [exact Hx|]. rewrite Forall_forall in *. intros y I.
  apply filter_In in I. apply IH. tauto.
Qed.
Lemma firsts_incl l : incl (firsts l) l.
Proof.
  induction l as [|x l IH]; cbn; [easy|]. intros y [->|I]; [now left|]. apply filter_In in I. right. apply IH. tauto.
Qed.
Lemma firsts_rep l : Forall P l -> forall x, In x l -> exists y, In y (firsts l) /\ same y x = true.
Proof.
  induction 1 as [|x l Hx Hl IH]; intros z I; [destruct I|]. cbn. destruct (same x z) eqn:E.
  - exists x. auto.
  - destruct I as [->|I]; [rewrite (eo_refl _ _ EQ) in E by exact Hx; discriminate|].
    destruct (IH _ I) as (y & Iy & Ey). exists y. split; [|exact Ey]. right. apply filter_In. split; [exact Iy|].
    destruct (same x y) eqn:F; [|reflexivity]. exfalso. rewrite Forall_forall in Hl.
    assert (same x z = true); [|congruence]. apply (eo_trans _ _ EQ x y z); auto. apply Hl. now apply firsts_incl.
Qed.
Lemma all_different_filter f l : all_different same l -> all_different same (filter f l).
Proof.
  induction 1 as [|x l Hx Hl IH]; cbn; [constructor|]. destruct (f x); [|exact IH]. constructor; [|exact IH].
  rewrite Forall_forall in *. intros y I. apply filter_In in I. apply Hx. tauto.
Qed.
Lemma firsts_different l : all_different same (firsts l).
Proof.
  induction l as [|x l IH]; cbn; [constructor|]. constructor.
  - apply Forall_forall. intros y I. apply filter_In in I. destruct I as [_ I]. now apply negb_true_iff in I.
  - now apply all_different_filter.
Qed.
Lemma firsts_snoc l x : Forall P l -> P x ->
  firsts (l ++ [x]) = firsts l ++ (if existsb (fun y => same y x) (firsts l) then [] else [x]).
Proof.
  induction 1 as [|z l Hz Hl IH]; intros Px; cbn; [reflexivity|]. rewrite IH by exact Px. f_equal. rewrite filter_app. f_equal.
  destruct (same z x) eqn:E; cbn.
  - destruct (existsb _ (firsts l)); cbn; [reflexivity|]. now rewrite E.
  - assert (Q : existsb (fun y => same y x) (filter (fun y => negb (same z y)) (firsts l)) = existsb (fun y => same y x) (firsts l)).
    { apply eq_true_iff_eq. rewrite !existsb_exists. split.
      - intros (y & I & S). apply filter_In in I. exists y. tauto.
      - intros (y & I & S). exists y. split; [|exact S]. apply filter_In. split; [exact I|].
        destruct (same z y) eqn:F; [|reflexivity]. exfalso. rewrite Forall_forall in Hl.
        assert (same z x = true); [|congruence]. apply (eo_trans _ _ EQ z y x); auto. apply Hl. now apply firsts_incl. }
    rewrite Q. destruct (existsb _ (firsts l)); cbn; [reflexivity|]. now rewrite E.
Qed.

Lemma filter_none {X} (f : X -> bool) l : (forall t, In t l -> f t = false) -> filter f l = [].
Proof. induction l as [|y l IH]; intros H; cbn; [reflexivity|]. rewrite (H y) by now left. apply IH. intros; apply H; now right. Qed.
Section AtKey.
Context {X V : Type}.
Variable key : X -> A.
Variable new : V.
Definition sel (k : A) (l : list X) : list X := filter (fun t => same k (key t)) l.
Definition grouped (F : list X -> V) (l : list X) : list (A * V) := map (fun k => (k, F (sel k l))) (firsts (map key l)).
Lemma at_key_absent k f (ks : list A) (G : A -> V) : (forall y, In y ks -> same y k = false) ->
  at_key same k new f (map (fun k => (k, G k)) ks) = map (fun k => (k, G k)) ks ++ [(k, f new)].
Proof.
  induction ks as [|y ks IH]; intros H; cbn; [reflexivity|]. rewrite (H y) by now left. f_equal. apply IH. intros; apply H; now right.
Qed.
Lemma at_key_present k f (ks : list A) (G G' : A -> V) : all_different same ks -> Forall P ks -> P k ->
  existsb (fun y => same y k) ks = true ->
  (forall y, In y ks -> G' y = if same y k then f (G y) else G y) ->
  at_key same k new f (map (fun k => (k, G k)) ks) = map (fun k => (k, G' k)) ks.
Proof.
  induction 1 as [|y ks Hy Hks IH]; intros Pks Pk E H; [discriminate|]. cbn in *. inversion Pks; subst.
  rewrite (H y) by now left. destruct (same y k) eqn:S; cbn in E.
  - f_equal. apply map_ext_in. intros z I. rewrite (H z) by now right. destruct (same z k) eqn:Sz; [|reflexivity]. exfalso.
    rewrite Forall_forall in Hy, H3. specialize (Hy z I). assert (same y z = true); [|congruence].
    apply (eo_trans _ _ EQ y k z); auto. apply (eo_sym _ _ EQ); auto.
  - f_equal. apply IH; auto.
Qed.
Lemma sel_snoc k l x : sel k (l ++ [x]) = sel k l ++ (if same k (key x) then [x] else []).
Proof. unfold sel. rewrite filter_app. cbn. destruct (same k (key x)); reflexivity. Qed.
Lemma sel_P k l : Forall (fun x => P (key x)) l -> Forall (fun x => P (key x)) (sel k l).
Proof. intros H. rewrite Forall_forall in *. intros y I. apply filter_In in I. apply H. tauto. Qed.
Section Snoc.
Variable F : list X -> V.
Variable step : X -> V -> V.
Hypothesis F_nil : F [] = new.
Hypothesis F_snoc : forall l x, Forall (fun x => P (key x)) l -> P (key x) -> F (l ++ [x]) = step x (F l).
Lemma grouped_snoc l x : Forall (fun x => P (key x)) l -> P (key x) ->
  at_key same (key x) new (step x) (grouped F l) = grouped F (l ++ [x]).
Proof.
  intros Pl Px. assert (Pm : Forall P (map key l)) by (apply Forall_map; exact Pl).
  unfold grouped. rewrite map_app. cbn [map]. rewrite firsts_snoc by assumption.
  destruct (existsb (fun y => same y (key x)) (firsts (map key l))) eqn:E.
  - rewrite app_nil_r. apply at_key_present; auto using firsts_different, firsts_P.
    intros y I. rewrite sel_snoc. destruct (same y (key x)); [|now rewrite app_nil_r]. apply F_snoc; [now apply sel_P|exact Px].
  - assert (N : forall y, In y (firsts (map key l)) -> same y (key x) = false).
    { intros y I. destruct (same y (key x)) eqn:S; [|reflexivity]. exfalso. enough (existsb (fun y => same y (key x)) (firsts (map key l)) = true) by congruence.
      apply existsb_exists. eauto. }
    rewrite at_key_absent by exact N. rewrite map_app. cbn [map]. f_equal.
    + apply map_ext_in. intros y I. rewrite sel_snoc, (N y I). now rewrite app_nil_r.
    + assert (Q : sel (key x) l = []).
      { apply filter_none. intros t I. destruct (same (key x) (key t)) eqn:S; [|reflexivity]. exfalso.
        rewrite Forall_forall in Pl. destruct (firsts_rep _ Pm (key t)) as (y & Iy & Sy); [now apply in_map|].
        assert (P y) by (eapply Forall_forall in Iy; [exact Iy|now apply firsts_P]).
        assert (same y (key x) = true); [|rewrite (N y Iy) in *; discriminate].
        apply (eo_trans _ _ EQ y (key t) (key x)); auto. apply (eo_sym _ _ EQ); auto. }
      rewrite sel_snoc, Q, (eo_refl _ _ EQ) by exact Px. cbn [app].
      pose proof (F_snoc [] x (Forall_nil _) Px) as Q2. cbn [app] in Q2. now rewrite Q2, F_nil.
Qed.
End Snoc.

(** Every element is in exactly one group. *)
Lemma groups_permutation ks l : all_different same ks -> Forall P ks -> Forall (fun x => P (key x)) l ->
  (forall x, In x l -> exists k, In k ks /\ same k (key x) = true) -> Permutation l (flat_map (fun k => sel k l) ks).
Proof.
  intros D Pk. induction 1 as [|x l Px Pl IH]; intros R.
  - cbn. clear. induction ks; cbn; auto.
  - destruct (R x (or_introl eq_refl)) as (k & Ik & Sk).
    assert (IH' := IH (fun y I => R y (or_intror I))). clear IH R.
    apply in_split in Ik. destruct Ik as (k1 & k2 & ->).
    assert (O : forall y, In y (k1 ++ k2) -> same y (key x) = false).
    { intros y I. destruct (same y (key x)) eqn:S; [|reflexivity]. exfalso.
      rewrite Forall_forall in Pk. assert (Py : P y) by (apply Pk, in_or_app; apply in_app_or in I; cbn; tauto).
      assert (Pkk : P k) by (apply Pk, in_or_app; cbn; tauto).
      assert (S1 : same y k = true) by (apply (eo_trans _ _ EQ y (key x) k); auto; apply (eo_sym _ _ EQ); auto).
      assert (S2 : same k y = true) by (apply (eo_sym _ _ EQ); auto).
      apply in_app_or in I. clear - D I S1 S2. induction k1 as [|z k1 IH]; cbn in D; inversion D; subst.
      - destruct I as [[]|I]. rewrite Forall_forall in H1. rewrite (H1 _ I) in S2. discriminate.
      - destruct I as [[->|I]|I]; [|apply IH; auto|apply IH; auto].
        rewrite Forall_forall in H1. rewrite (H1 k) in S1 by (apply in_or_app; cbn; auto). discriminate. }
    assert (U : forall ks', (forall y, In y ks' -> same y (key x) = false) -> flat_map (fun k => sel k (x :: l)) ks' = flat_map (fun k => sel k l) ks').
    { induction ks' as [|y ks' IH2]; intros H; cbn; [reflexivity|]. rewrite (H y) by now left. f_equal. apply IH2. intros; apply H; now right. }
    rewrite flat_map_app. cbn [flat_map]. rewrite !U by (intros y I; apply O, in_or_app; auto).
    unfold sel at 2. cbn [filter]. rewrite Sk. cbn [app]. fold (sel k l).
    rewrite flat_map_app in IH'. cbn [flat_map] in IH'. rewrite IH' at 1. apply Permutation_middle.
Qed.
End AtKey.
End OneLevel.

Lemma map_opt_some {A B} (f : A -> option B) l ys : map_opt f l = Some ys <-> Forall2 (fun x y => f x = Some y) l ys.
Proof.
  revert ys. induction l as [|x l IH]; intros ys; cbn.
  - split; [intros H; injection H as <-; constructor|intros H; inversion H; reflexivity].
  - split.
    + intros H. chain H. injection H as <-. constructor; [exact E|]. now apply IH.
    + intros H. inversion H; subst. rewrite H2. cbn. rewrite (proj2 (IH _) H4). reflexivity.
Qed.
Lemma map_opt_ex {A B} (f : A -> option B) l : Forall (fun x => exists y, f x = Some y) l <-> exists ys, map_opt f l = Some ys.
Proof.
  split.
  - induction 1 as [|x l [y Hy] Hl [ys IH]]; cbn; [eauto|]. rewrite Hy. cbn. rewrite IH. cbn. eauto.
  - intros [ys H]. apply map_opt_some in H. induction H; constructor; eauto.
Qed.
Lemma Forall2_map_l {A B C} (f : A -> B) (R : B -> C -> Prop) l m : Forall2 R (map f l) m <-> Forall2 (fun a c => R (f a) c) l m.
Proof.
  revert m. induction l as [|x l IH]; intros m; cbn; split; intros H; inversion H; subst; constructor; auto; now apply IH.
Qed.
Lemma Forall2_impl {A B} (R S : A -> B -> Prop) l m : (forall a b, In a l -> R a b -> S a b) -> Forall2 R l m -> Forall2 S l m.
Proof. intros H F. induction F; constructor; [apply H; [now left|assumption]|apply IHF; intros; apply H; [now right|assumption]]. Qed.

Section Request.
Variable same_sco : option scope -> option scope -> bool.
Hypothesis ESCO : equiv_on scope_ok same_sco.
Context {T M : Type}.
Variable res_of : T -> resource.
Variable sco_of : T -> option scope.
Variable encode : T -> option M.
Notation batch_ok := (items_ok res_of sco_of).
(** Items with their encodings *)
Definition ok1 (x : T * M) : Prop := resource_ok (res_of (fst x)) /\ scope_ok (sco_of (fst x)).
Definition inner (l : list (T * M)) := grouped same_sco (fun x => sco_of (fst x)) (map snd) l.
Definition outer (l : list (T * M)) := grouped same_resource_key (fun x => res_of (fst x)) inner l.
Lemma inner_snoc l x : Forall ok1 l -> ok1 x ->
  inner (l ++ [x]) = at_key same_sco (sco_of (fst x)) [] (fun ms => ms ++ [snd x]) (inner l).
Proof.
  intros Hl Hx. unfold inner. symmetry.
  apply (grouped_snoc scope_ok same_sco ESCO (fun x : T * M => sco_of (fst x)) [] (map snd) (fun x ms => ms ++ [snd x])).
  - reflexivity.
  - intros l' y _ _. now rewrite map_app.
  - eapply Forall_impl; [|exact Hl]. intros a Ha. apply Ha.
  - apply Hx.
Qed.
(** [grouped_snoc] with a stronger invariant on the items *)
Lemma outer_snoc l x : Forall ok1 l -> ok1 x -> put_item same_resource_key same_sco res_of sco_of (outer l) (fst x) (snd x) = outer (l ++ [x]).
Proof.
  intros Hl Hx. unfold put_item, outer, grouped. rewrite map_app. cbn [map].
  assert (Pm : Forall resource_ok (map (fun x => res_of (fst x)) l)).
  { apply Forall_map. eapply Forall_impl; [|exact Hl]. intros a Ha. apply Ha. }
  assert (Px : resource_ok (res_of (fst x))) by apply Hx.
  rewrite (firsts_snoc _ _ resource_equiv) by assumption.
  assert (SelP : forall k, Forall ok1 (sel same_resource_key (fun x => res_of (fst x)) k l)).
  { intros k. rewrite Forall_forall in *. intros y I. apply filter_In in I. apply Hl. tauto. }
  destruct (existsb (fun y => same_resource_key y (res_of (fst x))) (firsts same_resource_key (map (fun x => res_of (fst x)) l))) eqn:E.
  - rewrite app_nil_r. apply (at_key_present _ _ resource_equiv); auto using firsts_different.
    + now apply firsts_P.
    + intros y I. rewrite sel_snoc. destruct (same_resource_key y (res_of (fst x))); [|now rewrite app_nil_r].
      now apply inner_snoc.
  - assert (N : forall y, In y (firsts same_resource_key (map (fun x => res_of (fst x)) l)) -> same_resource_key y (res_of (fst x)) = false).
    { intros y I. destruct (same_resource_key y (res_of (fst x))) eqn:S; [|reflexivity]. exfalso.
      enough (existsb (fun y => same_resource_key y (res_of (fst x))) (firsts same_resource_key (map (fun x => res_of (fst x)) l)) = true) by congruence.
      apply existsb_exists. eauto. }
    rewrite at_key_absent by exact N. rewrite map_app. cbn [map]. f_equal.
    + apply map_ext_in. intros y I. rewrite sel_snoc, (N y I). now rewrite app_nil_r.
    + assert (Q : sel same_resource_key (fun x => res_of (fst x)) (res_of (fst x)) l = []).
      { apply filter_none. intros t I. destruct (same_resource_key (res_of (fst x)) (res_of (fst t))) eqn:S; [|reflexivity]. exfalso.
        destruct (firsts_rep _ _ resource_equiv _ Pm (res_of (fst t))) as (y & Iy & Sy); [apply in_map_iff; exists t; auto|].
        assert (Py : resource_ok y) by (eapply Forall_forall in Iy; [exact Iy|now apply firsts_P]).
        assert (Pt : resource_ok (res_of (fst t))) by (rewrite Forall_forall in Hl; apply Hl; exact I).
        assert (same_resource_key y (res_of (fst x)) = true); [|rewrite (N y Iy) in *; discriminate].
        apply (eo_trans _ _ resource_equiv y (res_of (fst t)) _); auto. apply (eo_sym _ _ resource_equiv); auto. }
      rewrite sel_snoc, Q, (eo_refl _ _ resource_equiv) by exact Px. cbn [app].
      pose proof (inner_snoc [] x (Forall_nil _) Hx) as Q2. cbn [app] in Q2. now rewrite Q2.
Qed.
Lemma group_items_outer ts : forall l g, Forall ok1 l -> batch_ok ts ->
  group_items same_resource_key same_sco res_of sco_of encode ts (outer l) = Some g ->
  exists ms, Forall2 (fun t m => encode t = Some m) ts ms /\ g = outer (l ++ combine ts ms).
Proof.
  induction ts as [|t ts IH]; intros l g Hl Hts H; cbn in H.
  - injection H as <-. exists []. split; [constructor|]. cbn. now rewrite app_nil_r.
  - chain H. inversion Hts; subst. pose proof (outer_snoc l (t, x) Hl H2) as Q. cbn [fst snd] in Q. rewrite Q in H. clear Q.
    destruct (IH (l ++ [(t, x)]) g) as (ms & F & ->); auto.
    { apply Forall_app. split; [exact Hl|]. constructor; [exact H2|constructor]. }
    exists (x :: ms). split; [now constructor|]. cbn. now rewrite <- app_assoc.
Qed.
Lemma group_items_ex ts : Forall (fun t => exists m, encode t = Some m) ts ->
  forall g, exists g', group_items same_resource_key same_sco res_of sco_of encode ts g = Some g'.
Proof. induction 1 as [|t ts [m Hm] Hts IH]; intros g; cbn; [eauto|]. rewrite Hm. cbn. apply IH. Qed.

Lemma encode_scope_read s p u ms : encode_scope s = Some p -> pb_opt pb_str [] (option_map sco_schema s) = Some u ->
  scope_read s (PbScopeGroup p u ms : pb_group_scope M).
Proof.
  destruct s as [s|]; cbn; intros E F.
  - chain E. injection E as <-. apply pb_str_ok in E0, F. destruct E0 as [-> _], F as [-> _]. cbn.
    split; [reflexivity|]. split; [|split; [apply encode_attributes_read|reflexivity]].
    destruct (sco_version s); cbn in E1; [apply pb_str_ok in E1; tauto|now injection E1 as <-].
  - injection E as <-. injection F as <-. auto.
Qed.
Lemma encode_scope_ex s : (scope_encodable s <-> (exists p, encode_scope s = Some p) /\ exists u, pb_opt pb_str [] (option_map sco_schema s) = Some u).
Proof.
  destruct s as [s|]; cbn; [|split; eauto]. split.
  - intros (A & B & D). assert (Q1 : pb_str (sco_name s) = Some (sco_name s)) by (apply pb_str_ok; auto).
    assert (Q2 : pb_str (sco_schema s) = Some (sco_schema s)) by (apply pb_str_ok; auto). rewrite Q1. cbn.
    assert (Q3 : exists v, pb_opt pb_str [] (sco_version s) = Some v).
    { destruct (sco_version s); cbn in *; [|eauto]. exists s0. apply pb_str_ok. auto. }
    destruct Q3 as [v ->]. cbn. eauto.
  - intros [[p E] [u F]]. chain E. apply pb_str_ok in E0, F. split; [tauto|]. split; [|tauto].
    destruct (sco_version s); cbn in *; [apply pb_str_ok in E1; tauto|exact I].
Qed.

Lemma map_fst_filter (f : T -> bool) (l : list (T * M)) : map fst (filter (fun x => f (fst x)) l) = filter f (map fst l).
Proof. induction l as [|[t m] l IH]; cbn; [reflexivity|]. destruct (f t); cbn; now rewrite IH. Qed.
Lemma combine_fst (ts : list T) (ms : list M) (R : T -> M -> Prop) : Forall2 R ts ms ->
  map fst (combine ts ms) = ts /\ Forall (fun x => R (fst x) (snd x)) (combine ts ms).
Proof. induction 1; cbn; [auto|]. destruct IHForall2 as [-> F]. split; [reflexivity|now constructor]. Qed.

Theorem encode_all_request ts req : batch_ok ts -> encode_all same_resource_key same_sco res_of sco_of encode ts = Some req ->
  request_of same_sco res_of sco_of (fun t m => encode t = Some m) ts req.
Proof.
  intros Hts H. unfold encode_all in H. chain H.
  destruct (group_items_outer ts [] x (Forall_nil _) Hts E) as (ms & F & ->). clear E. cbn [app] in H.
  destruct (combine_fst _ _ _ F) as [Fst Snd]. set (l := combine ts ms) in *. clearbody l. subst ts. clear F ms.
  unfold encode_groups in H. apply map_opt_some in H. unfold outer, grouped in H. apply Forall2_map_l in H.
  unfold request_of. rewrite map_map. eapply Forall2_impl; [|exact H]. cbn [fst snd]. clear H. intros r g _ Hg.
  chain Hg. injection Hg as <-. apply pb_str_ok in E0. destruct E0 as [-> _].
  split; [split; [apply encode_attributes_read|reflexivity]|]. cbn [pr_scopes].
  apply map_opt_some in E. unfold inner, grouped in E. apply Forall2_map_l in E.
  unfold of_resource, of_scope. rewrite <- (map_fst_filter (fun t => same_resource_key r (res_of t))).
  set (lr := filter (fun x => same_resource_key r (res_of (fst x))) l) in *. change (sel same_resource_key (fun x => res_of (fst x)) r l) with lr in E.
  assert (Slr : Forall (fun x => encode (fst x) = Some (snd x)) lr).
  { rewrite Forall_forall in *. intros y I. apply filter_In in I. apply Snd. tauto. }
  clearbody lr. rewrite map_map. eapply Forall2_impl; [|exact E]. cbn [fst snd]. intros s h _ Hh.
  chain Hh. injection Hh as <-. cbn [pg_items]. split; [now apply encode_scope_read|].
  rewrite <- (map_fst_filter (fun t => same_sco s (sco_of t))). unfold sel.
  assert (Sls : Forall (fun x => encode (fst x) = Some (snd x)) (filter (fun x => same_sco s (sco_of (fst x))) lr)).
  { rewrite Forall_forall in *. intros y I. apply filter_In in I. apply Slr. tauto. }
  clear - Sls. induction Sls; cbn; constructor; auto.
Qed.
Theorem encode_all_ex ts : batch_ok ts -> Forall (fun t => exists m, encode t = Some m) ts ->
  Forall (fun t => resource_encodable (res_of t) /\ scope_encodable (sco_of t)) ts ->
  exists req, encode_all same_resource_key same_sco res_of sco_of encode ts = Some req.
Proof.
  intros Hts He Hr. unfold encode_all. destruct (group_items_ex ts He []) as [g Hg]. rewrite Hg. cbn [bind].
  destruct (group_items_outer ts [] g (Forall_nil _) Hts Hg) as (ms & F & ->). cbn [app].
  destruct (combine_fst _ _ _ F) as [Fst Snd]. set (l := combine ts ms) in *. clearbody l.
  apply map_opt_ex. unfold outer, grouped. apply Forall_map. apply Forall_forall. intros r Ir. cbn [fst snd].
  apply firsts_incl in Ir. apply in_map_iff in Ir. destruct Ir as [t [<- It]].
  assert (In (fst t) ts) by (rewrite <- Fst; now apply in_map). rewrite Forall_forall in Hr. destruct (Hr _ H) as [Rt _].
  assert (Q : pb_str (r_schema (res_of (fst t))) = Some (r_schema (res_of (fst t)))) by (apply pb_str_ok; auto).
  assert (Q2 : exists scopes, map_opt (fun sg : option scope * list M =>
      let? s := encode_scope (fst sg) in
      let? u := pb_opt pb_str [] (option_map sco_schema (fst sg)) in
      Some (PbScopeGroup s u (snd sg))) (inner (sel same_resource_key (fun x => res_of (fst x)) (res_of (fst t)) l)) = Some scopes).
  { apply map_opt_ex. unfold inner, grouped. apply Forall_map. apply Forall_forall. intros s Is. cbn [fst snd].
    apply firsts_incl in Is. apply in_map_iff in Is. destruct Is as [t2 [<- It2]]. apply filter_In in It2. destruct It2 as [It2 _].
    assert (I2 : In (fst t2) ts) by (rewrite <- Fst; now apply in_map). destruct (Hr _ I2) as [_ St].
    apply encode_scope_ex in St. destruct St as [[p ->] [u Hu]]. cbn [bind]. rewrite Hu. cbn. eauto. }
  destruct Q2 as [scopes ->]. cbn [bind]. rewrite Q. cbn. eauto.
Qed.
(** One item that cannot be encoded makes the call raise. *)
Theorem encode_all_none ts t : In t ts -> encode t = None -> encode_all same_resource_key same_sco res_of sco_of encode ts = None.
Proof.
  intros I E. unfold encode_all.
  assert (Q : forall g, group_items same_resource_key same_sco res_of sco_of encode ts g = None).
  { induction ts as [|t' ts IH]; [destruct I|]. intros g. cbn. destruct I as [->|I]; [now rewrite E|]. destruct (encode t'); [|reflexivity]. cbn. now apply IH. }
  now rewrite Q.
Qed.
End Request.

(** Every item is somewhere, under its resource and scope. *)
Section Each.
Variable same_sco : option scope -> option scope -> bool.
Hypothesis ESCO : equiv_on scope_ok same_sco.
Context {T M : Type}.
Variable res_of : T -> resource.
Variable sco_of : T -> option scope.
Variable encodes : T -> M -> Prop.
Lemma Forall2_app_flat {A B C D} (R : A -> B -> Prop) (f : A -> list C) (g : B -> list D) (S : C -> D -> Prop) l m :
  Forall2 R l m -> (forall a b, In a l -> R a b -> Forall2 S (f a) (g b)) -> Forall2 S (flat_map f l) (flat_map g m).
Proof.
  induction 1; intros H2; cbn; [constructor|]. apply Forall2_app; [apply H2; [now left|assumption]|apply IHForall2; intros; apply H2; [now right|assumption]].
Qed.
Lemma Forall2_in_l {A B} (R : A -> B -> Prop) l m : Forall2 R l m -> Forall2 (fun a b => In a l /\ R a b) l m.
Proof. intros H. eapply Forall2_impl; [|exact H]. auto. Qed.
Theorem request_each ts req : items_ok res_of sco_of ts -> request_of same_sco res_of sco_of encodes ts req ->
  exists arranged, Permutation ts arranged /\
    Forall2 (fun t x => let '(g, h, m) := x in
      encodes t m
      /\ (exists r, In r (map res_of ts) /\ equal_resources r (res_of t) /\ resource_read r g)
      /\ (exists s, In s (map sco_of ts) /\ same_sco s (sco_of t) = true /\ scope_read s h)) arranged (flatten req).
Proof.
  intros Hts H.
  assert (Pr : Forall resource_ok (map res_of ts)) by (apply Forall_map; eapply Forall_impl; [|exact Hts]; intros a Ha; apply Ha).
  exists (flat_map (fun r => flat_map (fun s => of_scope same_sco sco_of s (of_resource res_of r ts))
              (firsts same_sco (map sco_of (of_resource res_of r ts)))) (firsts same_resource_key (map res_of ts))). split.
  - transitivity (flat_map (fun r => of_resource res_of r ts) (firsts same_resource_key (map res_of ts))).
    + apply (groups_permutation _ _ resource_equiv res_of).
      * apply firsts_different.
      * now apply firsts_P.
      * eapply Forall_impl; [|exact Hts]. intros a Ha. apply Ha.
      * intros x I. apply (firsts_rep _ _ resource_equiv); auto. now apply in_map.
    + assert (Q : forall ks, Permutation (flat_map (fun r => of_resource res_of r ts) ks)
        (flat_map (fun r => flat_map (fun s => of_scope same_sco sco_of s (of_resource res_of r ts)) (firsts same_sco (map sco_of (of_resource res_of r ts)))) ks)).
      { induction ks as [|r ks IH]; cbn; [constructor|]. apply Permutation_app; [|exact IH]. clear IH.
        assert (B : items_ok res_of sco_of (of_resource res_of r ts)).
        { unfold items_ok in *. rewrite Forall_forall in *. intros y I. apply filter_In in I. apply Hts. tauto. }
        set (l := of_resource res_of r ts) in *. clearbody l.
        assert (Ps : Forall scope_ok (map sco_of l)) by (apply Forall_map; eapply Forall_impl; [|exact B]; intros a Ha; apply Ha).
        apply (groups_permutation _ _ ESCO sco_of).
        - apply firsts_different.
        - now apply firsts_P.
        - eapply Forall_impl; [|exact B]. intros a Ha. apply Ha.
        - intros x I. apply (firsts_rep _ _ ESCO); auto. now apply in_map. }
      apply Q.
  - unfold flatten. unfold request_of in H. eapply Forall2_app_flat; [exact H|]. intros r g Ir [Rr Hg].
    eapply Forall2_app_flat; [exact Hg|]. intros s h Is [Rs Hi].
    assert (Ir' := Ir). apply firsts_incl in Ir'. assert (Is' := Is). apply firsts_incl in Is'.
    assert (Rok : resource_ok r) by (rewrite Forall_forall in Pr; now apply Pr).
    assert (Q : Forall (fun t => equal_resources r (res_of t) /\ same_sco s (sco_of t) = true) (of_scope same_sco sco_of s (of_resource res_of r ts))).
    { apply Forall_forall. intros t I. apply filter_In in I. destruct I as [I E]. apply filter_In in I. destruct I as [I E2].
      split; [|exact E]. apply resource_key_spec; auto. unfold items_ok in Hts. rewrite Forall_forall in Hts. now apply Hts. }
    assert (Is2 : In s (map sco_of ts)).
    { apply in_map_iff in Is'. destruct Is' as [t [<- I]]. apply filter_In in I. apply in_map. tauto. }
    clear - Hi Q Rr Rs Ir' Is2. induction Hi; cbn; [constructor|]. inversion Q; subst. constructor; [|auto].
    split; [assumption|]. split; [exists r|exists s]; tauto.
Qed.
End Each.

Lemma request_mono {T M} same_sco (res_of : T -> resource) sco_of (R S : T -> M -> Prop) ts req : (forall t m, R t m -> S t m) ->
  request_of same_sco res_of sco_of R ts req -> request_of same_sco res_of sco_of S ts req.
Proof.
  intros H Q. eapply Forall2_impl; [|exact Q]. intros r g _ [A B]. split; [exact A|]. eapply Forall2_impl; [|exact B]. intros s h _ [C D].
  split; [exact C|]. eapply Forall2_impl; [|exact D]. auto.
Qed.
