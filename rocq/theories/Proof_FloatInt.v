(** Ints only: the numbers of Model_FloatMetrics.v behave as the integers of Model_Metrics.v. *)
From Coq Require Import ZArith Lia List Bool.
From Verif Require Import Model_FloatMetrics Spec_Float.
Import ListNotations.
Local Open Scope Z_scope.

Lemma offered_int k z : foffered k (NInt z) = option_map NInt (offered k z).
Proof. destruct k; simpl; try reflexivity; unfold num_ltb, num_cmp, Z.ltb; destruct (z ?= 0); reflexivity. Qed.
Lemma ext_ltb_num a b : num_ltb (of_ext a) (of_ext b) = ext_ltb a b.
Proof. destruct a, b; try reflexivity; unfold of_ext, num_ltb, num_cmp; simpl; try reflexivity. Qed.
Lemma int_ltb a b : num_ltb (NInt a) (NInt b) = Z.ltb a b.
Proof. apply (ext_ltb_num (Fin a) (Fin b)). Qed.
Lemma ext_min_num a b : num_min (of_ext a) (of_ext b) = of_ext (ext_min a b).
Proof. unfold num_min, ext_min. rewrite ext_ltb_num. destruct (ext_ltb b a); reflexivity. Qed.
Lemma ext_max_num a b : num_max (of_ext a) (of_ext b) = of_ext (ext_max a b).
Proof. unfold num_max, ext_max. rewrite ext_ltb_num. destruct (ext_ltb a b); reflexivity. Qed.
Lemma bisect_int a x : fbisect_left (map NInt a) (NInt x) = bisect_left a x.
Proof.
  unfold fbisect_left, bisect_left. rewrite map_length. generalize (length a) at 2 4 as hi, 0%nat as lo. generalize (length a) as fuel.
  induction fuel as [|f IH]; intros hi lo; simpl; [reflexivity|]. destruct (Nat.ltb lo hi); [|reflexivity].
  rewrite map_nth, int_ltb. destruct (Z.ltb _ _); apply IH.
Qed.

Section Generic.
Context {A B P Q : Type} (agg1 : A -> num -> A * bool) (col1 : A -> Z -> A * option (option P)) (k : ikind)
  (agg2 : B -> Z -> B) (col2 : B -> Z -> B * option Q) (st : B -> A) (pt : Q -> P).
Hypothesis Agg : forall b z, agg1 (st b) (NInt z) = (st (agg2 b z), false).
Hypothesis Col : forall b now, col1 (st b) now = (st (fst (col2 b now)), Some (option_map pt (snd (col2 b now)))).
Lemma run_alone_acc b h ps : fold_left (fun s o => match o with
                        | Measure v => (agg2 (fst s) v, snd s)
                        | Collect now => let (a', p) := col2 (fst s) now in (a', snd s ++ [p])
                        end) h (b, ps) = (fst (run_alone agg2 col2 b h), ps ++ snd (run_alone agg2 col2 b h)).
Proof.
  unfold run_alone. revert b ps. induction h as [|o h IH]; intros b ps; simpl; [rewrite app_nil_r; reflexivity|].
  destruct o as [v|now]; [apply IH|]. simpl. destruct (col2 b now) as [b' p]. rewrite IH. rewrite (IH b' [p]). simpl. rewrite <- app_assoc. reflexivity.
Qed.
Lemma run_int b h :
  snd (frun agg1 col1 k (st b) (map of_icall h)) = answers h (map (option_map pt) (snd (run_alone agg2 col2 b (calls_ops k h)))).
Proof.
  revert b. induction h as [|c h IH]; intros b; [reflexivity|]. destruct c as [z|now]; cbn [map of_icall frun fstep answers].
  - rewrite offered_int. unfold calls_ops. cbn [flat_map]. fold (calls_ops k h). destruct (offered k z) as [v|]; cbn [option_map app].
    + rewrite Agg. specialize (IH (agg2 b v)). destruct (frun agg1 col1 k (st (agg2 b v)) (map of_icall h)). cbn [snd] in *. f_equal. rewrite IH. reflexivity.
    + specialize (IH b). destruct (frun agg1 col1 k (st b) (map of_icall h)). cbn [snd] in *. f_equal. exact IH.
  - rewrite Col. unfold calls_ops. cbn [flat_map app]. fold (calls_ops k h). unfold run_alone. cbn [fold_left fst snd]. destruct (col2 b now) as [b' p]. cbn [fst snd].
    rewrite run_alone_acc. cbn [snd app map]. specialize (IH b'). destruct (frun agg1 col1 k (st b') (map of_icall h)). cbn [snd] in *. f_equal. exact IH.
Qed.
End Generic.

Definition of_sum (a : sum_agg) : fsum :=
  FSum (sa_attrs a) (sa_instr a) (sa_start a) (option_map NInt (sa_value a)) (sa_prev_start a) (NInt (sa_prev a)).
Lemma sum_ints k t attrs mono start h :
  run_sum k t attrs start (map of_icall h) =
  answers h (map (option_map of_npoint)
    (snd (run_alone sum_aggregate (fun a now => sum_collect a t now) (sum_new attrs mono (instr_temporality k) start) (calls_ops k h)))).
Proof.
  unfold run_sum. change (fsum_new attrs (instr_temporality k) start) with (of_sum (sum_new attrs mono (instr_temporality k) start)).
  apply run_int.
  - intros b z. unfold fsum_aggregate, sum_aggregate, of_sum. destruct (sa_value b); reflexivity.
  - intros b now. unfold fsum_collect, sum_collect, of_sum. cbn. destruct (is_delta (sa_instr b)), (is_delta t), (sa_value b); reflexivity.
Qed.
Definition of_last (a : last_agg) : flast := FLast (la_attrs a) (option_map NInt (la_value a)).
Lemma last_ints k t attrs h :
  run_last k attrs (map of_icall h) =
  answers h (map (option_map of_npoint)
    (snd (run_alone last_aggregate (fun a now => last_collect a t now) (last_new attrs) (calls_ops k h)))).
Proof.
  unfold run_last. change (FLast attrs None) with (of_last (last_new attrs)). apply run_int.
  - intros b z. reflexivity.
  - intros b now. unfold flast_collect, last_collect. destruct b as [at0 [v|]]; reflexivity.
Qed.
Definition of_hist (a : hist_agg) : fhist :=
  FHist (ha_attrs a) (ha_instr a) (ha_start a) (map NInt (ha_bounds a)) (ha_record a) (ha_value a) (of_ext (ha_min a)) (of_ext (ha_max a))
    (NInt (ha_sum a)) (ha_prev a) (of_ext (ha_prev_min a)) (of_ext (ha_prev_max a)) (NInt (ha_prev_sum a)) (ha_prev_start a).
Lemma hist_ints k t attrs start bounds record h :
  run_hist k t attrs start (map NInt bounds) record (map of_icall h) =
  answers h (map (option_map of_hpoint)
    (snd (run_alone hist_aggregate (fun a now => hist_collect a t now) (hist_new attrs (instr_temporality k) start bounds record) (calls_ops k h)))).
Proof.
  unfold run_hist. change (fhist_new attrs (instr_temporality k) start (map NInt bounds) record) with (of_hist (hist_new attrs (instr_temporality k) start bounds record)).
  apply run_int.
  - intros b z. unfold fhist_aggregate, hist_aggregate, of_hist. cbn [fh_sum num_add fh_record fh_min fh_max fh_bounds fh_value fh_attrs fh_instr fh_start fh_prev fh_prev_min fh_prev_max fh_prev_sum fh_prev_start
      ha_sum ha_record ha_min ha_max ha_bounds ha_value ha_attrs ha_instr ha_start ha_prev ha_prev_min ha_prev_max ha_prev_sum ha_prev_start].
    rewrite bisect_int. unfold fempty_counts, empty_counts. rewrite map_length.
    change (NInt z) with (of_ext (Fin z)). rewrite ext_min_num, ext_max_num. destruct (ha_record b); reflexivity.
  - intros b now. unfold fhist_collect, hist_collect, of_hist. cbn [fh_sum num_add fh_record fh_min fh_max fh_bounds fh_value fh_attrs fh_instr fh_start fh_prev fh_prev_min fh_prev_max fh_prev_sum fh_prev_start
      ha_sum ha_record ha_min ha_max ha_bounds ha_value ha_attrs ha_instr ha_start ha_prev ha_prev_min ha_prev_max ha_prev_sum ha_prev_start fst snd].
    rewrite ext_min_num, ext_max_num. unfold fempty_counts, empty_counts. rewrite map_length.
    destruct (is_delta (ha_instr b)), (is_delta t); [destruct (ha_value b)| | |]; reflexivity.
Qed.
