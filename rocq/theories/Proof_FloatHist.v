From Coq Require Import ZArith Reals Lra Lia List Bool.
From Flocq Require Import Core BinarySingleNaN Relative Plus_error.
From Verif Require Import Model_FloatMetrics Spec_Float Proof_Float Proof_Metrics Proof_FloatMetrics.
Import ListNotations.
Local Open Scope R_scope.

(** ** OverflowError *)
Lemma conv_some z : (Z.abs z <= 2 ^ 1023)%Z -> exists f, float_of_int z = Some f.
Proof.
  intros B. unfold float_of_int. pose proof (binary_normalize_correct 53 1024 _ _ mode_NE z 0 false) as C. cbv zeta in C.
  rewrite Rlt_bool_true in C.
  - destruct C as (_ & C & _). unfold prec64, emax64 in *. rewrite C. eauto.
  - apply Rle_lt_trans with (bpow radix2 1023); [|apply bpow_lt; lia].
    apply abs_round_le_generic; [typeclasses eauto|typeclasses eauto|apply generic_format_bpow; vm_compute; discriminate|].
    unfold F2R. simpl Fnum. simpl Fexp. change (bpow radix2 0) with 1. rewrite Rmult_1_r, <- abs_IZR.
    change (bpow radix2 1023) with (IZR (Zpower radix2 1023)). apply IZR_le. exact B.
Qed.
Definition mag (x : num) : Z := Z.abs (ti x).
Lemma to_float_some x : (mag x <= 2 ^ 1023)%Z -> exists f, to_float x = Some f.
Proof. destruct x as [z|f]; simpl; [apply conv_some|eauto]. Qed.
Lemma add_some x y : (mag x + mag y <= 2 ^ 1023)%Z -> exists s, num_add x y = Some s /\ (mag s <= mag x + mag y)%Z.
Proof.
  intros B. assert (0 <= mag x /\ 0 <= mag y)%Z as [Mx My] by (unfold mag; lia).
  destruct (to_float_some x) as [f Hf]; [lia|]. destruct (to_float_some y) as [g Hg]; [lia|].
  unfold num_add. rewrite Hf, Hg. destruct x, y; eexists; (split; [reflexivity|]); unfold mag in *; simpl in *; lia.
Qed.
Lemma sub_some x y : (mag x + mag y <= 2 ^ 1023)%Z -> exists s, num_sub x y = Some s.
Proof.
  intros B. assert (0 <= mag x /\ 0 <= mag y)%Z as [Mx My] by (unfold mag; lia).
  destruct (to_float_some x) as [f Hf]; [lia|]. destruct (to_float_some y) as [g Hg]; [lia|].
  unfold num_sub. rewrite Hf, Hg. destruct x, y; eauto.
Qed.
Lemma sum_no_raise k t attrs start h : (int_total h <= 2 ^ 1023)%Z ->
  ~ In FOverflow (run_sum k t attrs start h).
Proof.
  unfold run_sum. set (run := frun fsum_aggregate (fun a now => fsum_collect a t now) k (fsum_new attrs (instr_temporality k) start)).
  intros B. enough (H : ~ In FOverflow (snd (run h)) /\ (mag (fval (fst (run h))) + mag (fs_prev (fst (run h))) <= int_total h)%Z) by apply H.
  induction h as [|c h IH] using rev_ind; [split; [intros []|simpl; unfold mag; simpl; lia]|].
  rewrite int_total_app in *. pose proof (int_total_0 [c]) as T0. destruct IH as [I1 I2]; [lia|].
  unfold run in *. rewrite run_snoc. fold run in I1, I2 |- *. cbn [fst snd].
  assert (M : forall x, (0 <= mag x)%Z) by (intros; unfold mag; lia).
  pose proof (M (fval (fst (run h)))) as M1. pose proof (M (fs_prev (fst (run h)))) as M2.
  set (a := fst (run h)) in *. clearbody a.
  assert (G : snd (fstep fsum_aggregate (fun a now => fsum_collect a t now) k a c) <> FOverflow /\
     (mag (fval (fst (fstep fsum_aggregate (fun a now => fsum_collect a t now) k a c))) + mag (fs_prev (fst (fstep fsum_aggregate (fun a now => fsum_collect a t now) k a c))) <= int_total h + int_total [c])%Z).
  2:{ destruct G as [G1 G2]. split; [|exact G2]. rewrite in_app_iff. intros [X|[X|[]]]; auto. }
  destruct c as [v|now]; cbn [fstep].
  - destruct (foffered k v) as [w|] eqn:O; [|split; [discriminate|cbn [fst]; lia]]. apply offered_some in O. subst w.
    rewrite aggregate_eq. assert (Hv : (mag v <= int_total [FCall v])%Z) by (destruct v; simpl; unfold mag; simpl; lia).
    destruct (add_some (fval a) v) as (s & Es & Ms); [lia|]. rewrite Es. split; [discriminate|]. cbn [fst fval fs_value fs_prev]. lia.
  - simpl (int_total [FRead now]) in *. unfold fsum_collect. fold (fval a).
    assert (V : forall v, fs_value a = Some v -> fval a = v) by (intros v E; unfold fval; rewrite E; reflexivity).
    assert (Z0 : mag (NInt 0) = 0%Z) by reflexivity.
    destruct (is_delta (fs_instr a)), (is_delta t).
    + destruct (fs_value a); split; try discriminate; cbn [fst fval fs_value fs_prev]; lia.
    + destruct (add_some (fval a) (fs_prev a)) as (s & Es & Ms); [lia|]. rewrite Es. split; [discriminate|]. cbn [fst fval fs_value fs_prev]. lia.
    + destruct (fs_value a) as [v|] eqn:Ev; [|split; [discriminate|cbn [fst fval fs_value fs_prev]; lia]]. specialize (V v eq_refl).
      rewrite V in *. destruct (sub_some v (fs_prev a)) as (s & Es); [lia|]. rewrite Es. split; [discriminate|]. cbn [fst fval fs_value fs_prev]. lia.
    + destruct (fs_value a) as [v|] eqn:Ev; (split; [discriminate|cbn [fst fval fs_value fs_prev]; lia]).
Qed.

(** ** Observable instruments, delta temporality *)
Lemma sub_err f g : is_finite (fsub f g) = true -> Rabs (B2R (fsub f g) - (B2R f - B2R g)) <= unit_roundoff * Rabs (B2R f - B2R g).
Proof.
  intros F. rewrite (fsub_R _ _ F).
  destruct (@FLT_plus_error_N_ex radix2 (-1074) 53 eq_refl (fun x => negb (Z.even x)) (B2R f) (- B2R g) (b2r_format f)) as (e & He & E).
  { apply generic_format_opp. apply (b2r_format g). }
  change (rnd (B2R f - B2R g) = (B2R f + - B2R g) * (1 + e)) in E. rewrite E.
  replace ((B2R f + - B2R g) * (1 + e) - (B2R f - B2R g)) with (e * (B2R f - B2R g)) by ring.
  rewrite Rabs_mult. apply Rmult_le_compat_r; [apply Rabs_pos|]. eapply Rle_trans; [exact He|].
  change (u_ro radix2 53) with (/ 2 * bpow radix2 (-53 + 1)). rewrite <- u_bpow. pose proof u_pos as H.
  set (w := unit_roundoff) in *. clearbody w.
  apply Rmult_le_reg_r with (1 + w); [lra|]. unfold Rdiv. rewrite Rmult_assoc, Rinv_l by lra.
  assert (0 <= w * w) by (apply Rmult_le_pos; lra). lra.
Qed.
Lemma fsub_le f g : is_finite f = true -> is_finite g = true -> 0 <= B2R g <= B2R f -> is_finite (fsub f g) = true /\ 0 <= B2R (fsub f g).
Proof.
  intros Ff Fg [L1 L2].
  assert (G1 : 0 <= rnd (B2R f - B2R g)). { apply round_ge_generic; [typeclasses eauto|typeclasses eauto|apply generic_format_0|lra]. }
  pose proof (Bminus_correct 53 1024 _ _ mode_NE f g Ff Fg) as C. cbv zeta in C. fold (fsub f g) in C.
  rewrite Rlt_bool_true in C.
  - destruct C as (C1 & C2 & _). split; [exact C2|]. rewrite C1. exact G1.
  - simpl round_mode. rewrite Rabs_pos_eq by exact G1.
    apply Rle_lt_trans with (B2R f).
    + apply round_le_generic; [typeclasses eauto|typeclasses eauto|apply b2r_format|lra].
    + pose proof (abs_B2R_lt_emax 53 1024 f) as H. rewrite Rabs_pos_eq in H by lra. exact H.
Qed.
Lemma fadd_zero x : is_finite x = true -> is_finite (fadd (B754_zero false) x) = true /\ B2R (fadd (B754_zero false) x) = B2R x.
Proof. destruct x as [s|s| |s m e H]; simpl; intros F; try discriminate; try destruct s; split; reflexivity. Qed.

Section Observed.
Variable k : ikind.
Hypothesis As : synchronous k = false.
Lemma async_offered v : foffered k v = Some v.
Proof. destruct k; try discriminate; reflexivity. Qed.
Notation run a h := (frun fsum_aggregate (fun a now => fsum_collect a DELTA now) k a h).
Lemma pair_step a x now : fs_value a = None -> fs_instr a = CUMULATIVE -> is_finite x = true ->
  exists y, is_finite y = true /\ B2R y = B2R x /\
  run a [FCall (NFloat x); FRead now] =
  match num_sub (NFloat y) (fs_prev a) with
  | Some d => (FSum (fs_attrs a) (fs_instr a) (fs_start a) None now (NFloat y), [FDone; FPoint (Some (FP (fs_attrs a) (Some (fs_prev_start a)) now d))])
  | None => (FSum (fs_attrs a) (fs_instr a) (fs_start a) None (fs_prev_start a) (fs_prev a), [FDone; FOverflow])
  end.
Proof.
  intros V Ti F. destruct (fadd_zero x F) as [F0 E0]. exists (fadd (B754_zero false) x). split; [exact F0|]. split; [exact E0|].
  cbn [frun fstep]. rewrite async_offered, aggregate_eq. unfold fval. rewrite V.
  change (num_add (NInt 0) (NFloat x)) with (Some (NFloat (fadd (B754_zero false) x))). cbv iota beta.
  unfold fsum_collect. cbn [fs_instr fs_value fs_prev fs_attrs fs_prev_start fs_start]. rewrite Ti. cbn [is_delta].
  destruct (num_sub _ _); reflexivity.
Qed.
Lemma observed_points xs : forall a x, fs_value a = None -> fs_instr a = CUMULATIVE -> fs_prev a = NFloat x -> is_finite x = true ->
  Forall (fun o => is_finite (fst o) = true) xs ->
  exists ps, points (snd (run a (observed xs))) = ps /\
  Forall2 (fun '(b, o) p => (forall r, is_real (fp_value p) r -> Rabs (r - (B2R (fst o) - b)) <= unit_roundoff * Rabs (B2R (fst o) - b)) /\
      (0 <= b <= B2R (fst o) -> exists r, is_real (fp_value p) r /\ 0 <= r))
    (combine (B2R x :: map (fun o => B2R (fst o)) xs) xs) ps.
Proof.
  induction xs as [|[y now] xs IH]; intros a x V Ti P Fx Fa.
  - exists []. split; [reflexivity|]. simpl. constructor.
  - inversion Fa as [|? ? Fy Fs]; subst. simpl in Fy. cbn [observed flat_map fst snd]. fold (observed xs).
    change (FCall (NFloat y) :: FRead now :: observed xs) with ([FCall (NFloat y); FRead now] ++ observed xs).
    rewrite frun_app. cbn [snd]. destruct (pair_step a y now V Ti Fy) as (y' & Fy' & Ey' & E).
    rewrite P in E. cbn [num_sub to_float] in E. rewrite E. cbn [fst snd].
    destruct (IH (FSum (fs_attrs a) (fs_instr a) (fs_start a) None now (NFloat y')) y') as (ps & Eps & Hps); auto.
    unfold points in *. rewrite flat_map_app. rewrite Eps. cbn [flat_map app]. eexists. split; [reflexivity|].
    cbn [map combine fst]. constructor.
    + cbn [fp_value fst]. rewrite <- Ey'. split.
      * intros r Hr. apply value_finite in Hr. destruct Hr as [F ->]. apply sub_err. exact F.
      * intros L. destruct (fsub_le y' x Fy' Fx L) as [F L']. exists (B2R (fsub y' x)). split; [apply finite_value; exact F|exact L'].
    + rewrite Ey' in Hps. exact Hps.
Qed.
Lemma observed_all attrs start x0 now0 xs : is_finite x0 = true -> Forall (fun o => is_finite (fst o) = true) xs ->
  exists p0 ps, points (run_sum k DELTA attrs start (observed ((x0, now0) :: xs))) = p0 :: ps /\ is_real (fp_value p0) (B2R x0) /\
  Forall2 (fun '(b, o) p => (forall r, is_real (fp_value p) r -> Rabs (r - (B2R (fst o) - b)) <= unit_roundoff * Rabs (B2R (fst o) - b)) /\
      (0 <= b <= B2R (fst o) -> exists r, is_real (fp_value p) r /\ 0 <= r))
    (combine (B2R x0 :: map (fun o => B2R (fst o)) xs) xs) ps.
Proof.
  intros F0 Fa. unfold run_sum. rewrite instr_async by exact As. cbn [observed flat_map fst snd]. fold (observed xs).
  change (FCall (NFloat x0) :: FRead now0 :: observed xs) with ([FCall (NFloat x0); FRead now0] ++ observed xs).
  rewrite frun_app. cbn [snd]. set (a0 := fsum_new attrs CUMULATIVE start).
  destruct (pair_step a0 x0 now0 eq_refl eq_refl F0) as (y' & Fy' & Ey' & E).
  change (fs_prev a0) with (NInt 0) in E. change (num_sub (NFloat y') (NInt 0)) with (Some (NFloat (fsub y' (B754_zero false)))) in E. cbv iota in E. rewrite E. cbn [fst snd].
  destruct (observed_points xs (FSum (fs_attrs a0) (fs_instr a0) (fs_start a0) None now0 (NFloat y')) y') as (ps & Eps & Hps); auto.
  unfold points in *. rewrite flat_map_app, Eps. cbn [flat_map app]. do 2 eexists. split; [reflexivity|]. split.
  - cbn [fp_value]. rewrite <- Ey'. destruct y' as [s|s| |s m e H]; try discriminate; [destruct s; reflexivity|]. reflexivity.
  - rewrite Ey' in Hps. exact Hps.
Qed.
End Observed.

(** ** Histograms *)
Lemma less_trans x y z : less x y -> less y z -> less x z.
Proof.
  intros (a & b & Ha & Hb & L) (b' & c & Hb' & Hc & L'). rewrite Hb in Hb'. injection Hb' as <-. exists a, c. repeat split; auto.
  destruct a, b, c; simpl in *; auto; try contradiction. lra.
Qed.
Lemma less_not_nan x y : less x y -> ~ is_nan_num x /\ ~ is_nan_num y.
Proof. intros (a & b & Ha & Hb & _). unfold is_nan_num. rewrite Ha, Hb. split; discriminate. Qed.
Lemma less_or x y z : ~ is_nan_num y -> ~ less y x -> less z x -> less z y.
Proof.
  unfold is_nan_num. intros Ny N (c & a & Hc & Ha & L). destruct (Spec_Float.value_of y) as [b|] eqn:Hb; [|contradiction].
  exists c, b. repeat split; auto. assert (N' : ~ xlt b a) by (intros X; apply N; exists b, a; auto).
  destruct a as [|ra|], b as [|rb|], c as [|rc|]; simpl in *; auto; try contradiction; try (exfalso; apply N'; exact I). lra.
Qed.
Lemma bisect_loop_range bounds v fuel : forall lo hi, (lo <= hi)%nat -> (lo <= fbisect_loop fuel bounds v lo hi <= hi)%nat.
Proof.
  induction fuel as [|f IH]; intros lo hi L; cbn [fbisect_loop]; [lia|]. destruct (Nat.ltb_spec lo hi); [|lia].
  pose proof (Nat.div_lt_upper_bound (lo + hi) 2 hi ltac:(lia) ltac:(lia)). pose proof (Nat.div_le_lower_bound (lo + hi) 2 lo ltac:(lia) ltac:(lia)).
  set (mid := Nat.div (lo + hi) 2) in *. destruct (num_ltb _ _); [pose proof (IH (S mid) hi)|pose proof (IH lo mid)]; lia.
Qed.
Lemma place_range bounds v : (fbisect_left bounds v <= length bounds)%nat.
Proof. unfold fbisect_left. pose proof (bisect_loop_range bounds v (length bounds) 0 (length bounds)). lia. Qed.
Lemma bisect_loop_falls bounds v : increasing bounds -> forall fuel lo hi, (lo <= hi <= length bounds)%nat -> (hi - lo <= fuel)%nat ->
  (forall j b, (j < lo)%nat -> nth_error bounds j = Some b -> less b v) ->
  (forall j b, (hi <= j)%nat -> nth_error bounds j = Some b -> ~ less b v) ->
  falls_in bounds (fbisect_loop fuel bounds v lo hi) v.
Proof.
  intros Inc. induction fuel as [|f IH]; intros lo hi L Fu Lo Hi; cbn [fbisect_loop].
  - assert (hi = lo) by lia. subst hi. split; [intros b; apply Hi; lia|exact Lo].
  - destruct (Nat.ltb_spec lo hi) as [Lt|Ge].
    2:{ assert (hi = lo) by lia. subst hi. split; [intros b; apply Hi; lia|exact Lo]. }
    pose proof (Nat.div_lt_upper_bound (lo + hi) 2 hi ltac:(lia) ltac:(lia)). pose proof (Nat.div_le_lower_bound (lo + hi) 2 lo ltac:(lia) ltac:(lia)).
    set (mid := Nat.div (lo + hi) 2) in *.
    destruct (nth_error bounds mid) as [bm|] eqn:Em; [|apply nth_error_None in Em; lia].
    rewrite (nth_error_nth _ _ (NInt 0) Em).
    destruct (num_ltb bm v) eqn:Lb.
    + apply ltb_less in Lb. apply IH; try lia; [|exact Hi].
      intros j b Hj Hb. destruct (Nat.eq_dec j mid) as [->|]; [congruence|].
      eapply less_trans; [|exact Lb]. apply (Inc j mid); auto. lia.
    + apply ltb_false in Lb. apply IH; try lia; [exact Lo|].
      intros j b Hj Hb X. destruct (Nat.eq_dec j mid) as [->|]; [congruence|]. apply Lb. eapply less_trans; [|exact X]. apply (Inc mid j); auto. lia.
Qed.
Lemma place_falls bounds v : increasing bounds -> falls_in bounds (fbisect_left bounds v) v.
Proof.
  intros Inc. apply bisect_loop_falls; auto; try lia. intros j b Hj Hb. exfalso.
  assert (j < length bounds)%nat by (apply nth_error_Some; congruence). lia.
Qed.
Lemma smallest_snoc l x v : smallest l x -> smallest (l ++ [v]) (num_min x v).
Proof.
  intros (A & B & C). unfold num_min. destruct (num_ltb v x) eqn:E.
  - apply ltb_less in E. split; [left; apply in_or_app; right; left; reflexivity|]. split; [apply (less_not_nan _ _ E)|].
    intros w Hw X. apply in_app_or in Hw. destruct Hw as [Hw|[<-|[]]].
    + apply (C w Hw). eapply less_trans; eauto.
    + destruct X as (a & b & Ha & Hb & L). rewrite Ha in Hb. injection Hb as <-. destruct a; simpl in L; auto. lra.
  - apply ltb_false in E. split; [destruct A; [left; apply in_or_app; auto|auto]|]. split; [exact B|].
    intros w Hw. apply in_app_or in Hw. destruct Hw as [Hw|[<-|[]]]; auto.
Qed.
Lemma largest_snoc l x v : largest l x -> largest (l ++ [v]) (num_max x v).
Proof.
  intros (A & B & C). unfold num_max. destruct (num_ltb x v) eqn:E.
  - apply ltb_less in E. split; [left; apply in_or_app; right; left; reflexivity|]. split; [apply (less_not_nan _ _ E)|].
    intros w Hw X. apply in_app_or in Hw. destruct Hw as [Hw|[<-|[]]].
    + apply (C w Hw). eapply less_trans; eauto.
    + destruct X as (a & b & Ha & Hb & L). rewrite Ha in Hb. injection Hb as <-. destruct a; simpl in L; auto. lra.
  - apply ltb_false in E. split; [destruct A; [left; apply in_or_app; auto|auto]|]. split; [exact B|].
    intros w Hw. apply in_app_or in Hw. destruct Hw as [Hw|[<-|[]]]; auto.
Qed.
Lemma smallest_app l m x y : smallest l x -> smallest m y -> smallest (m ++ l) (num_min x y).
Proof.
  intros (A & B & C) (A' & B' & C'). unfold num_min. destruct (num_ltb y x) eqn:E.
  - apply ltb_less in E. split; [destruct A'; [left; apply in_or_app; auto|auto]|]. split; [exact B'|].
    intros w Hw X. apply in_app_or in Hw. destruct Hw as [Hw|Hw]; [apply (C' w Hw); exact X|]. apply (C w Hw). eapply less_trans; eauto.
  - apply ltb_false in E. split; [destruct A; [left; apply in_or_app; auto|auto]|]. split; [exact B|].
    intros w Hw X. apply in_app_or in Hw. destruct Hw as [Hw|Hw]; [|apply (C w Hw); exact X]. apply (C' w Hw). eapply less_or; eauto.
Qed.
Lemma less_or' x y z : ~ is_nan_num y -> ~ less x y -> less x z -> less y z.
Proof.
  unfold is_nan_num. intros Ny N (a & c & Ha & Hc & L). destruct (Spec_Float.value_of y) as [b|] eqn:Hb; [|contradiction].
  exists b, c. repeat split; auto. assert (N' : ~ xlt a b) by (intros X; apply N; exists a, b; auto).
  destruct a as [|ra|], b as [|rb|], c as [|rc|]; simpl in *; auto; try contradiction; try (exfalso; apply N'; exact I). lra.
Qed.
Lemma largest_app l m x y : largest l x -> largest m y -> largest (m ++ l) (num_max x y).
Proof.
  intros (A & B & C) (A' & B' & C'). unfold num_max. destruct (num_ltb x y) eqn:E.
  - apply ltb_less in E. split; [destruct A'; [left; apply in_or_app; auto|auto]|]. split; [exact B'|].
    intros w Hw X. apply in_app_or in Hw. destruct Hw as [Hw|Hw]; [apply (C' w Hw); exact X|]. apply (C w Hw). eapply less_trans; eauto.
  - apply ltb_false in E. split; [destruct A; [left; apply in_or_app; auto|auto]|]. split; [exact B|].
    intros w Hw X. apply in_app_or in Hw. destruct Hw as [Hw|Hw]; [|apply (C w Hw); exact X]. apply (C' w Hw). eapply less_or'; eauto.
Qed.
Lemma smallest_nil : smallest [] pos_inf.
Proof. split; [right; reflexivity|]. split; [unfold is_nan_num; simpl; discriminate|intros v []]. Qed.
Lemma largest_nil : largest [] neg_inf.
Proof. split; [right; reflexivity|]. split; [unfold is_nan_num; simpl; discriminate|intros v []]. Qed.

Definition tally (bounds : list num) (l : list num) : list Z :=
  map (fun j => Z.of_nat (count_occ Nat.eq_dec (map (fbisect_left bounds) l) j)) (seq 0 (S (length bounds))).
Lemma tally_nil bounds : tally bounds [] = fempty_counts bounds.
Proof.
  unfold tally, fempty_counts. generalize 0%nat as s. generalize (S (length bounds)) as n. induction n as [|n IH]; intros s; simpl; [reflexivity|].
  f_equal. apply IH.
Qed.
Lemma tally_snoc bounds l v : incr_nth (tally bounds l) (fbisect_left bounds v) = tally bounds (l ++ [v]).
Proof.
  unfold tally. rewrite incr_nth_map. apply map_ext. intros j. rewrite map_app, count_occ_app. cbn [map count_occ].
  destruct (Nat.eq_dec (fbisect_left bounds v) j) as [->|N]; [rewrite Nat.eqb_refl|rewrite (proj2 (Nat.eqb_neq (0 + fbisect_left bounds v) j)) by exact N]; lia.
Qed.
Lemma tally_app bounds l m : zip_add (tally bounds l) (tally bounds m) = tally bounds (m ++ l).
Proof. unfold tally. rewrite zip_add_map. apply map_ext. intros j. rewrite map_app, count_occ_app. lia. Qed.
Lemma zsum_tally bounds l : zsum (tally bounds l) = Z.of_nat (length l).
Proof.
  assert (G : forall n (xs : list nat) s, (forall x, In x xs -> s <= x < s + n)%nat -> forall acc,
     fold_left Z.add (map (fun j => Z.of_nat (count_occ Nat.eq_dec xs j)) (seq s n)) acc = (acc + Z.of_nat (length xs))%Z).
  { induction n as [|n IH]; intros xs s H acc; simpl.
    - destruct xs as [|x xs]; [simpl; lia|]. specialize (H x (or_introl eq_refl)). lia.
    - set (ys := filter (fun x => negb (Nat.eqb x s)) xs).
      assert (Ly : (length xs = count_occ Nat.eq_dec xs s + length ys)%nat).
      { unfold ys. clear. induction xs as [|x xs IH]; simpl; [reflexivity|]. destruct (Nat.eq_dec x s) as [->|N].
        - rewrite Nat.eqb_refl. simpl. lia.
        - rewrite (proj2 (Nat.eqb_neq x s) N). simpl. lia. }
      rewrite Ly. rewrite (map_ext_in _ (fun j => Z.of_nat (count_occ Nat.eq_dec ys j))).
      + rewrite IH; [lia|]. intros x Hx. apply filter_In in Hx. destruct Hx as [Hx N]. apply negb_true_iff, Nat.eqb_neq in N. specialize (H x Hx). lia.
      + intros j Hj. apply in_seq in Hj. f_equal. unfold ys. clear - Hj. induction xs as [|x xs IH]; simpl; [reflexivity|].
        destruct (Nat.eq_dec x j) as [->|N].
        * rewrite (proj2 (Nat.eqb_neq j s)) by lia. simpl. destruct (Nat.eq_dec j j); [|contradiction]. f_equal. exact IH.
        * destruct (negb (Nat.eqb x s)); simpl; [destruct (Nat.eq_dec x j); [contradiction|]|]; exact IH. }
  unfold zsum, tally. rewrite G.
  - rewrite map_length. lia.
  - intros x Hx. apply in_map_iff in Hx. destruct Hx as (v & <- & _). pose proof (place_range bounds v). lia.
Qed.

Definition minmax (record : bool) (l : list num) (mn mx : num) : Prop :=
  if record then smallest l mn /\ largest l mx else mn = pos_inf /\ mx = neg_inf.
Lemma minmax_nil record : minmax record [] pos_inf neg_inf.
Proof. destruct record; split; auto using smallest_nil, largest_nil. Qed.
Lemma minmax_app record l m a b c d : minmax record l a b -> minmax record m c d -> minmax record (m ++ l) (num_min a c) (num_max b d).
Proof.
  destruct record; simpl; intros [H1 H2] [H3 H4].
  - split; [apply smallest_app|apply largest_app]; assumption.
  - subst. split; reflexivity.
Qed.

Definition hcounts (o : option (list Z)) bounds : list Z := match o with None => fempty_counts bounds | Some c => c end.
Section Hist.
Variable k : ikind.
Hypothesis Sy : synchronous k = true.
Variables (t : temporality) (attrs : mattrs) (start : Z) (bounds : list num) (record : bool).
Notation hcol := (fun a now => fhist_collect a t now).
Notation scol := (fun a now => fsum_collect a t now).
Notation hrun h := (frun fhist_aggregate hcol k (fhist_new attrs (instr_temporality k) start bounds record) h).
Notation srun h := (frun fsum_aggregate scol k (fsum_new attrs (instr_temporality k) start) h).
Definition sim (a : fhist) (b : fsum) : Prop :=
  fh_sum a = fval b /\ fh_prev_sum a = fs_prev b /\ (fh_value a = None <-> fs_value b = None) /\
  fh_instr a = DELTA /\ fs_instr b = DELTA /\ fh_bounds a = bounds /\ fh_record a = record.
(** The same answer but for everything except the sum. *)
Definition same_sum (x : fans fhpoint) (y : fans fpoint) : Prop :=
  match x, y with
  | FDone, FDone | FOverflow, FOverflow => True
  | FPoint (Some p), FPoint (Some q) => fhp_sum p = fp_value q
  | FPoint None, FPoint None => True
  | _, _ => False
  end.
Lemma sim_step a b c : sim a b ->
  sim (fst (fstep fhist_aggregate hcol k a c)) (fst (fstep fsum_aggregate scol k b c)) /\
  same_sum (snd (fstep fhist_aggregate hcol k a c)) (snd (fstep fsum_aggregate scol k b c)).
Proof.
  intros (S1 & S2 & S3 & S4 & S5 & S6 & S7). destruct c as [v|now]; cbn [fstep].
  - destruct (foffered k v) as [w|]; [|split; [repeat split; auto; apply S3|exact I]].
    rewrite aggregate_eq. unfold fhist_aggregate. rewrite S1. destruct (num_add (fval b) w) as [s|].
    + split; [|exact I]. repeat split; auto; discriminate.
    + split; [|exact I]. repeat split; auto; try discriminate.
  - rewrite collect_sync by exact S5. unfold fhist_collect. rewrite S4. cbn [is_delta]. destruct (is_delta t).
    + cbn [fst snd]. split; [repeat split; auto|]. destruct (fh_value a) as [c|] eqn:E, (fs_value b) as [v|] eqn:E'; cbn.
      * rewrite S1. unfold fval. rewrite E'. reflexivity.
      * destruct S3 as [_ S3]. specialize (S3 eq_refl). discriminate.
      * destruct S3 as [S3 _]. specialize (S3 eq_refl). discriminate.
      * exact I.
    + rewrite S1, S2. destruct (num_add (fval b) (fs_prev b)); cbn [fst snd]; (split; [repeat split; auto|]); cbn; auto.
Qed.
Lemma sim_run h : sim (fst (hrun h)) (fst (srun h)) /\ Forall2 same_sum (snd (hrun h)) (snd (srun h)).
Proof.
  induction h as [|c h [I1 I2]] using rev_ind.
  - split; [|constructor]. cbn [frun fst]. unfold sim. cbn. rewrite (instr_sync k Sy). repeat split; auto.
  - rewrite !frun_app. cbn [frun]. destruct (sim_step _ _ c I1) as [J1 J2].
    destruct (fstep fhist_aggregate hcol k (fst (hrun h)) c), (fstep fsum_aggregate scol k (fst (srun h)) c). cbn [fst snd] in *.
    split; [exact J1|]. apply Forall2_app; [exact I2|]. constructor; [exact J2|constructor].
Qed.
Lemma hist_inv h : ~ In FOverflow (snd (hrun h)) ->
  exists old, taken k h = old ++ taken k (since_read h) /\
    hcounts (fh_value (fst (hrun h))) bounds = tally bounds (taken k (since_read h)) /\
    minmax record (taken k (since_read h)) (fh_min (fst (hrun h))) (fh_max (fst (hrun h))) /\
    (is_delta t = false -> hcounts (fh_prev (fst (hrun h))) bounds = tally bounds old /\
       minmax record old (fh_prev_min (fst (hrun h))) (fh_prev_max (fst (hrun h)))).
Proof.
  induction h as [|c h IH] using rev_ind; intros N.
  - exists []. cbn [since_read taken app frun fst fhist_new fh_value fh_min fh_max fh_prev fh_prev_min fh_prev_max hcounts].
    rewrite tally_nil. split; [reflexivity|]. split; [reflexivity|]. split; [apply minmax_nil|]. intros _. split; [reflexivity|apply minmax_nil].
  - destruct (sim_run h) as [(S1 & S2 & S3 & S4 & S5 & S6 & S7) _].
    rewrite frun_app in N |- *. cbn [frun fst snd] in N |- *.
    destruct IH as (old & E & C1 & M1 & P1). { intros X. apply N. apply in_or_app. auto. }
    set (a := fst (hrun h)) in *. clearbody a.
    assert (N1 : snd (fstep fhist_aggregate hcol k a c) <> FOverflow).
    { intros X. apply N. apply in_or_app. right. destruct (fstep _ _ k a c). left. exact X. }
    replace (fst (let (a1, r) := fstep fhist_aggregate hcol k a c in (a1, [r]))) with (fst (fstep fhist_aggregate hcol k a c))
      by (destruct (fstep fhist_aggregate hcol k a c); reflexivity).
    clear N. rewrite taken_app. destruct c as [v|now]; cbn [fstep] in N1 |- *.
    + rewrite since_app_call, taken_app. cbn [taken].
      destruct (foffered k v) as [w|] eqn:O; [|exists old; rewrite !app_nil_r; auto].
      unfold fhist_aggregate in *. destruct (num_add (fh_sum a) w) as [s|]; [|cbn in N1; congruence].
      exists old. rewrite E, app_assoc. split; [reflexivity|].
      cbn [fst fh_value fh_min fh_max fh_prev fh_prev_min fh_prev_max hcounts]. split; [|split; [|exact P1]].
      * rewrite S6. rewrite <- tally_snoc, <- C1. reflexivity.
      * rewrite S7. destruct record; [|exact M1]. destruct M1. split; [apply smallest_snoc|apply largest_snoc]; assumption.
    + rewrite since_app_read. cbn [taken]. rewrite !app_nil_r. unfold fhist_collect in *. rewrite S4 in *. cbn [is_delta] in *.
      exists (taken k h). rewrite app_nil_r. split; [reflexivity|]. destruct (is_delta t).
      * cbn [fst fh_value fh_min fh_max fh_prev fh_prev_min fh_prev_max hcounts]. rewrite tally_nil.
        split; [reflexivity|]. split; [apply minmax_nil|discriminate].
      * destruct P1 as [P1 P2]; [reflexivity|].
        destruct (num_add (fh_sum a) (fh_prev_sum a)) as [s|]; [|cbn in N1; congruence]. cbn [fst fh_value fh_min fh_max fh_prev fh_prev_min fh_prev_max hcounts].
        rewrite tally_nil. split; [reflexivity|]. split; [apply minmax_nil|]. intros _. rewrite E, S6. split.
        -- rewrite <- tally_app, <- C1, <- P1. reflexivity.
        -- apply minmax_app; assumption.
Qed.
Theorem hist_reading h i p l : increasing bounds ->
  nth_error (snd (hrun h)) i = Some (FPoint (Some p)) -> ~ In FOverflow (firstn i (snd (hrun h))) ->
  counts_for k (if is_delta t then since_read (firstn i h) else firstn i h) l ->
  histogram_of_numbers bounds record l p /\
  forall r, is_real (fhp_sum p) r ->
    exists rs, Forall2 is_real l rs /\ Rabs (r - rsum rs) <= ((1 + unit_roundoff) ^ (2 * S i) - 1) * rsum (map Rabs rs).
Proof.
  intros Inc Hi N C. split.
  - destruct (frun_nth _ _ _ _ _ _ _ Hi) as (c & Hc & Hp & Hf). rewrite Hf in N.
    destruct (hist_inv _ N) as (old & E & C1 & M1 & P1). destruct (sim_run (firstn i h)) as [(S1 & S2 & S3 & S4 & S5 & S6 & S7) _].
    apply counts_taken in C. set (a := fst (hrun (firstn i h))) in *. clearbody a.
    assert (G : forall l counts mn mx, counts = tally bounds l -> minmax record l mn mx ->
      forall at0 st0 n0 s0, histogram_of_numbers bounds record l (FHP at0 st0 n0 (zsum counts) s0 counts bounds mn mx)).
    { intros l0 counts mn mx -> M at0 st0 n0 s0. split; [reflexivity|]. split.
      - exists (fbisect_left bounds). split; [|reflexivity]. intros v _. split; [apply place_range|apply place_falls; exact Inc].
      - split; [apply zsum_tally|]. cbn [fhp_min fhp_max]. unfold minmax in M. destruct record; [exact M|]. destruct M as [-> ->]. split; reflexivity. }
    destruct c as [v|now]; cbn [fstep] in Hp.
    { destruct (foffered k v); [|discriminate]. destruct (fhist_aggregate _ _) as [? []]; discriminate. }
    unfold fhist_collect in Hp. rewrite S4 in Hp. cbn [is_delta] in Hp. subst l. destruct (is_delta t).
    + destruct (fh_value a) as [c|]; [|discriminate]. injection Hp as ->. rewrite S6. apply G; [exact C1|exact M1].
    + destruct P1 as [P1 P2]; [reflexivity|]. destruct (num_add (fh_sum a) (fh_prev_sum a)); [|discriminate]. injection Hp as ->. rewrite S6.
      apply G; [|rewrite E; apply minmax_app; assumption]. rewrite E, <- tally_app, <- C1, <- P1. reflexivity.
  - intros r Hr. destruct (sim_run h) as [_ F].
    destruct (nth_error (snd (srun h)) i) as [q|] eqn:Hq.
    2:{ exfalso. apply nth_error_None in Hq. rewrite frun_length in Hq. assert (i < length (snd (hrun h)))%nat by (apply nth_error_Some; congruence).
        rewrite frun_length in *. lia. }
    assert (G : forall xs ys i x y, Forall2 same_sum xs ys -> nth_error xs i = Some x -> nth_error ys i = Some y ->
       same_sum x y /\ (~ In FOverflow (firstn i xs) -> ~ In FOverflow (firstn i ys))).
    { intros xs ys j x y F0. revert j. induction F0 as [|x0 y0 xs ys R F0 IH]; intros [|j] Hx Hy; try discriminate; cbn in *.
      - injection Hx as <-. injection Hy as <-. auto.
      - destruct (IH j Hx Hy) as [I1 I2]. split; [exact I1|]. intros X [->|Y].
        + apply X. left. destruct x0 as [|[]|]; cbn in R; try contradiction; reflexivity.
        + apply I2; [|exact Y]. intros Y'. apply X. right. exact Y'. }
    destruct (G _ _ _ _ _ F Hi Hq) as [R NO]. destruct q as [|[q|]|]; cbn in R; try contradiction.
    rewrite R in Hr. eapply (sum_accuracy k Sy t attrs start h i q r l); eauto.
Qed.
End Hist.
Lemma hist_no_raise k t attrs start bounds record h : synchronous k = true -> (int_total h <= 2 ^ 1023)%Z ->
  ~ In FOverflow (run_hist k t attrs start bounds record h).
Proof.
  intros Sy B X. apply (sum_no_raise k t attrs start h B). unfold run_hist, run_sum in *.
  destruct (sim_run k Sy t attrs start bounds record h) as [_ F]. revert X F. generalize (snd (frun fhist_aggregate (fun a now => fhist_collect a t now) k
    (fhist_new attrs (instr_temporality k) start bounds record) h)). generalize (snd (frun fsum_aggregate (fun a now => fsum_collect a t now) k
    (fsum_new attrs (instr_temporality k) start) h)). intros ys xs X F. induction F as [|x y xs ys R F IH]; [destruct X|].
  destruct X as [->|X]; [left|right; auto]. destruct y as [|[]|]; cbn in R; try contradiction; reflexivity.
Qed.

Lemma forall2_nth {X Y} (R : X -> Y -> Prop) xs ys : Forall2 R xs ys -> length xs = length ys /\
  forall i x y, nth_error xs i = Some x -> nth_error ys i = Some y -> R x y.
Proof.
  induction 1 as [|x y xs ys H F [IH1 IH2]]; [split; [reflexivity|intros [|]; discriminate]|]. split; [simpl; congruence|].
  intros [|i] a b Ha Hb; simpl in *; [injection Ha as <-; injection Hb as <-; exact H|eauto].
Qed.
Lemma combine_nth_error {X Y} (xs : list X) (ys : list Y) i x y : nth_error xs i = Some x -> nth_error ys i = Some y ->
  nth_error (combine xs ys) i = Some (x, y).
Proof. revert ys i. induction xs as [|a xs IH]; intros [|b ys] [|i] Hx Hy; simpl in *; try discriminate; [congruence|]. auto. Qed.
Lemma observed_nth k attrs start xs : synchronous k = false -> Forall (fun o => is_finite (fst o) = true) xs ->
  length (points (run_sum k DELTA attrs start (observed xs))) = length xs /\
  forall i x now p, nth_error xs i = Some (x, now) -> nth_error (points (run_sum k DELTA attrs start (observed xs))) i = Some p ->
    (forall r, is_real (fp_value p) r -> Rabs (r - (B2R x - before xs i)) <= unit_roundoff * Rabs (B2R x - before xs i)) /\
    (0 <= before xs i <= B2R x -> exists r, is_real (fp_value p) r /\ 0 <= r).
Proof.
  intros As Fa. destruct xs as [|[x0 now0] xs]; [split; [reflexivity|intros [|]; discriminate]|].
  inversion Fa as [|? ? F0 Fs]; subst. destruct (observed_all k As attrs start x0 now0 xs F0 Fs) as (p0 & ps & E & R0 & F2).
  rewrite E. destruct (forall2_nth _ _ _ F2) as [L N]. split.
  - rewrite combine_length in L. cbn [length] in *. rewrite map_length in L. lia.
  - intros [|i] x now p Hx Hp; cbn [nth_error] in Hx, Hp.
    + injection Hx as <- <-. injection Hp as <-. cbn [before]. rewrite Rminus_0_r. split.
      * intros r Hr. unfold is_real in *. rewrite R0 in Hr. injection Hr as <-. rewrite Rminus_diag_eq by reflexivity. rewrite Rabs_R0.
        apply Rmult_le_pos; [apply Rlt_le, u_pos|apply Rabs_pos].
      * intros [_ H]. eauto.
    + destruct (nth_error (B2R x0 :: map (fun o => B2R (fst o)) xs) i) as [b|] eqn:Hb.
      2:{ exfalso. apply nth_error_None in Hb. simpl in Hb. rewrite map_length in Hb.
          assert (i < length xs)%nat by (apply nth_error_Some; congruence). lia. }
      pose proof (N i _ _ (combine_nth_error _ _ _ _ _ Hb Hx) Hp) as H. cbn [fst] in H.
      assert (Eb : before ((x0, now0) :: xs) (S i) = b).
      { change (before ((x0, now0) :: xs) (S i)) with (match nth_error ((x0, now0) :: xs) i with Some (y, _) => B2R y | None => 0 end).
        destruct i as [|i]; cbn [nth_error] in *; [congruence|]. rewrite nth_error_map in Hb. destruct (nth_error xs i) as [[y ?]|]; simpl in Hb; congruence. }
      rewrite Eb. exact H.
Qed.

(** ** The bound, more simply *)
Lemma growth_linear n : INR n * unit_roundoff <= / 2 -> (1 + unit_roundoff) ^ n - 1 <= 2 * INR n * unit_roundoff.
Proof.
  intros H. pose proof u_pos as U. set (u := unit_roundoff) in *. clearbody u.
  assert (G : forall m, (m <= n)%nat -> (1 + u) ^ m * (1 - INR m * u) <= 1).
  { induction m as [|m IH]; intros L; [simpl; lra|]. rewrite S_INR. simpl pow. specialize (IH ltac:(lia)).
    assert (0 <= INR m) by apply pos_INR. assert (0 < (1 + u) ^ m) by (apply pow_lt; lra).
    apply Rle_trans with ((1 + u) ^ m * (1 - INR m * u)); [|exact IH].
    replace ((1 + u) * (1 + u) ^ m * (1 - (INR m + 1) * u)) with ((1 + u) ^ m * ((1 + u) * (1 - (INR m + 1) * u))) by ring.
    apply Rmult_le_compat_l; [lra|]. assert (0 <= (INR m + 1) * (u * u)) by (apply Rmult_le_pos; [lra|apply Rmult_le_pos; lra]). nra. }
  specialize (G n (le_n _)). set (p := (1 + u) ^ n) in *. assert (Pp : 0 < p) by (apply pow_lt; lra). clearbody p.
  assert (N0 : 0 <= INR n) by apply pos_INR. set (x := INR n * u) in *. assert (0 <= x) by (apply Rmult_le_pos; lra).
  replace (2 * INR n * u) with (2 * x) by (unfold x; ring). clearbody x.
  assert (p <= 2) by nra. nra.
Qed.

(** ** NaN sticks *)
Lemma fadd_nan_l y : fadd B754_nan y = B754_nan.
Proof. destruct y; reflexivity. Qed.
Lemma fadd_nan_r x : fadd x B754_nan = B754_nan.
Proof. destruct x as [[]|[]| |]; reflexivity. Qed.
Definition nan : num := NFloat B754_nan.
Lemma add_nan_l x s : num_add nan x = Some s -> s = nan.
Proof.
  unfold num_add, nan. destruct x as [z|f]; cbn [to_float]; [destruct (float_of_int z)|]; intros E; try discriminate;
    rewrite fadd_nan_l in E; inversion E; reflexivity.
Qed.
Lemma add_nan_r x s : num_add x nan = Some s -> s = nan.
Proof.
  unfold num_add, nan. destruct x as [z|f]; cbn [to_float]; [destruct (float_of_int z)|]; intros E; try discriminate;
    rewrite fadd_nan_r in E; inversion E; reflexivity.
Qed.
Lemma nan_sticks k attrs start h p : synchronous k = true ->
  In (FPoint (Some p)) (run_sum k CUMULATIVE attrs start (FCall nan :: h)) -> fp_value p = nan.
Proof.
  intros Sy. unfold run_sum. rewrite instr_sync by exact Sy. cbn [frun fstep].
  assert (O : foffered k nan = Some nan) by (destruct k; reflexivity). rewrite O. rewrite aggregate_eq.
  set (a := FSum _ _ _ _ _ _). assert (I : fs_instr a = DELTA /\ (fval a = nan /\ fs_prev a = NInt 0 \/ fs_prev a = nan)).
  { split; [reflexivity|left; split; reflexivity]. }
  change (num_add (fval (fsum_new attrs DELTA start)) nan) with (Some nan). cbv iota. clearbody a.
  assert (G : In (FPoint (Some p)) (snd (frun fsum_aggregate (fun a now => fsum_collect a CUMULATIVE now) k a h)) -> fp_value p = nan).
  { clear O. revert a I. induction h as [|c h IH]; intros a (I1 & I2) X; [destruct X|]. destruct c as [v|now]; cbn [frun fstep] in X.
    - destruct (foffered k v) as [w|].
      + rewrite aggregate_eq in X. set (a' := FSum _ _ _ _ _ _) in X.
        destruct (frun _ _ k a' h) as [a2 rs] eqn:Er. cbn [snd] in X. destruct X as [X|X]; [destruct (num_add (fval a) w); discriminate|].
        apply (IH a'); [|rewrite Er; exact X]. split; [exact I1|]. destruct I2 as [[V P]|P]; [left; split; [|exact P]|right; exact P].
        unfold a'. unfold fval at 1. cbn [fs_value]. rewrite V. destruct (num_add nan w) eqn:E; [apply (add_nan_l _ _ E)|reflexivity].
      + destruct (frun _ _ k a h) as [a2 rs] eqn:Er. cbn [snd] in X. destruct X as [X|X]; [discriminate|]. apply (IH a); [split; assumption|rewrite Er; exact X].
    - rewrite collect_sync in X by exact I1. cbn [is_delta] in X. 
      destruct (num_add (fval a) (fs_prev a)) as [s|] eqn:E.
      + assert (Es : s = nan). { destruct I2 as [[V P]|P]; [rewrite V in E; apply (add_nan_l _ _ E)|rewrite P in E; apply (add_nan_r _ _ E)]. } subst s.
        set (a' := FSum _ _ _ _ _ _) in X. destruct (frun _ _ k a' h) as [a2 rs] eqn:Er. cbn [snd] in X. destruct X as [X|X].
        * injection X as <-. reflexivity.
        * apply (IH a'); [|rewrite Er; exact X]. split; [exact I1|right; reflexivity].
      + set (a' := FSum _ _ _ _ _ _) in X. destruct (frun _ _ k a' h) as [a2 rs] eqn:Er. cbn [snd] in X. destruct X as [X|X]; [discriminate|].
        apply (IH a'); [|rewrite Er; exact X]. split; [exact I1|]. destruct I2 as [[V P]|P]; [|right; exact P].
        rewrite V, P in E. discriminate. }
  destruct (frun _ _ k a h). cbn [snd] in *. intros [X|X]; [discriminate|auto].
Qed.

(** ** Last value *)
Lemma last_reading k attrs h i o l : nth_error (run_last k attrs h) i = Some (FPoint o) -> counts_for k (since_read (firstn i h)) l ->
  match o with None => l = [] | Some p => exists l' v, l = l' ++ [v] /\ fp_value p = v end.
Proof.
  intros H C. unfold run_last in H. apply counts_taken in C. subst l.
  set (col := fun a now => let (a', p) := flast_collect a now in (a', Some p)) in *.
  set (run := frun (fun a v => (flast_aggregate a v, false)) col k (FLast attrs None)) in *.
  assert (I : forall h, match fl_value (fst (run h)) with None => taken k (since_read h) = [] | Some v => exists l', taken k (since_read h) = l' ++ [v] end).
  { clear. intros h. induction h as [|c h IH] using rev_ind; [reflexivity|]. unfold run in *. rewrite frun_app. cbn [frun fst].
    destruct c as [v|now]; cbn [fstep].
    - rewrite since_app_call, taken_app. cbn [taken]. destruct (foffered k v) as [w|] eqn:O.
      + cbn. eauto.
      + rewrite app_nil_r. exact IH.
    - rewrite since_app_read. match goal with |- context [col ?a now] => generalize a end. intros a.
      unfold col, flast_collect. destruct (fl_value a) eqn:E; cbn [fst fl_value]; [reflexivity|]. rewrite E. reflexivity. }
  destruct (frun_nth _ _ _ _ _ _ _ H) as (c & _ & Hp & _). fold run in Hp. specialize (I (firstn i h)). destruct c as [v|now]; cbn [fstep] in Hp.
  { destruct (foffered k v); discriminate. }
  unfold col, flast_collect in Hp. destruct (fl_value (fst (run (firstn i h)))) as [v|]; cbn in Hp; injection Hp as ->; [|exact I].
  destruct I as (l' & E). exists l', v. auto.
Qed.
