(** Rigorous bounds on logarithms, the nearest double to a logarithm, and two histograms that go wrong with it. *)
From Coq Require Import ZArith Reals Lra Lia List Bool Psatz.
From Flocq Require Import Core BinarySingleNaN.
From Verif Require Import Spec_FloatExp Proof_ExpMapping Proof_ExpExt Proof_Float Proof_FloatExp Proof_FloatExp2.
Import ListNotations.
Local Open Scope R_scope.

(** ** ln 2: repeated squaring of 1 + z <= exp z, rounding down *)
Definition P2 : Z := 200.
Fixpoint squares (m : nat) (c : Z) : Z := match m with O => c | S m => squares m (Z.shiftr (c * c) P2) end.
Lemma squares_exp m : forall c z, (0 <= c)%Z -> IZR c * bpow radix2 (- P2) <= exp z ->
  IZR (squares m c) * bpow radix2 (- P2) <= exp (z * 2 ^ m).
Proof.
  induction m as [|m IH]; intros c z Hc H; cbn [squares pow].
  - now rewrite Rmult_1_r.
  - replace (z * (2 * 2 ^ m)) with ((z + z) * 2 ^ m) by ring. apply IH.
    + apply Z.shiftr_nonneg. nia.
    + rewrite exp_plus. eapply Rle_trans; [|apply Rmult_le_compat; [| |exact H|exact H]].
      * replace (IZR c * bpow radix2 (- P2) * (IZR c * bpow radix2 (- P2))) with (IZR (c * c) * bpow radix2 (- P2) * bpow radix2 (- P2))
          by (rewrite mult_IZR; ring).
        apply Rmult_le_compat_r; [apply bpow_ge_0|].
        rewrite Z.shiftr_div_pow2 by (unfold P2; lia). rewrite bpow_opp. apply Rmult_le_reg_r with (bpow radix2 P2); [apply bpow_gt_0|].
        rewrite Rmult_assoc, Rinv_l by (apply Rgt_not_eq, bpow_gt_0). rewrite Rmult_1_r, <- pow2_bpow by (unfold P2; lia).
        rewrite <- mult_IZR. apply IZR_le. rewrite Z.mul_comm. apply Z.mul_div_le. apply Z.pow_pos_nonneg; unfold P2; lia.
      * apply Rmult_le_pos; [apply IZR_le; exact Hc|apply bpow_ge_0].
      * apply Rmult_le_pos; [apply IZR_le; exact Hc|apply bpow_ge_0].
Qed.
(** z = a / 2^(80+100); the exponent of the final number is 2^100 times that. *)
Lemma exp_bound a c k : (0 <= c)%Z -> (c <= 2 ^ P2 + a * 2 ^ (P2 - 180))%Z -> squares 100 c = k ->
  IZR k * bpow radix2 (- P2) <= exp (IZR a * bpow radix2 (-80)).
Proof.
  intros H0 H1 <-. replace (IZR a * bpow radix2 (-80)) with (IZR a * bpow radix2 (-180) * 2 ^ 100).
  - apply squares_exp; [exact H0|]. eapply Rle_trans; [|apply exp_ineq1_le].
    apply IZR_le in H1. rewrite plus_IZR, mult_IZR, !pow2_bpow in H1 by (unfold P2; lia).
    assert (E : bpow radix2 (P2 - 180) = bpow radix2 P2 * bpow radix2 (-180)) by (rewrite <- bpow_plus; reflexivity).
    rewrite E in H1. rewrite bpow_opp. apply Rmult_le_reg_r with (bpow radix2 P2); [apply bpow_gt_0|].
    rewrite Rmult_assoc, Rinv_l by (apply Rgt_not_eq, bpow_gt_0). lra.
  - rewrite Rmult_assoc. f_equal. change 2 with (IZR 2). rewrite pow_IZR. rewrite pow2_bpow by lia. rewrite <- bpow_plus. reflexivity.
Qed.
Definition ln2_lo : Z := 837963523372001241319906.
Definition ln2_hi : Z := 837963523372001241319909.
Lemma ln2_tight : IZR ln2_lo * bpow radix2 (-80) <= ln 2 <= IZR ln2_hi * bpow radix2 (-80).
Proof.
  split.
  - destruct (Rle_or_lt (IZR ln2_lo * bpow radix2 (-80)) (ln 2)) as [H|H]; [exact H|exfalso].
    pose proof (exp_bound (- ln2_lo) (2 ^ P2 - ln2_lo * 2 ^ 20) _ ltac:(vm_compute; discriminate) ltac:(vm_compute; discriminate) eq_refl) as B.
    set (k := squares 100 (2 ^ P2 - ln2_lo * 2 ^ 20)) in *.
    assert (K : (2 ^ 199 <= k)%Z) by (apply Z.leb_le; vm_compute; reflexivity).
    apply IZR_le in K. rewrite pow2_bpow in K by lia.
    assert (E : bpow radix2 199 * bpow radix2 (- P2) = / 2) by (rewrite <- bpow_plus; reflexivity).
    assert (K2 : / 2 <= IZR k * bpow radix2 (- P2)) by (rewrite <- E; apply Rmult_le_compat_r; [apply bpow_ge_0|exact K]).
    rewrite opp_IZR in B. rewrite <- (Ropp_mult_distr_l (IZR ln2_lo)) in B.
    assert (H2 : exp (- (IZR ln2_lo * bpow radix2 (-80))) < exp (- ln 2)) by (apply exp_increasing; lra).
    rewrite (exp_Ropp (ln 2)), exp_ln in H2 by lra. lra.
  - pose proof (exp_bound ln2_hi (2 ^ P2 + ln2_hi * 2 ^ 20) _ ltac:(vm_compute; discriminate) ltac:(vm_compute; discriminate) eq_refl) as B.
    set (k := squares 100 (2 ^ P2 + ln2_hi * 2 ^ 20)) in *.
    assert (K : (2 ^ 201 <= k)%Z) by (apply Z.leb_le; vm_compute; reflexivity).
    apply IZR_le in K. rewrite pow2_bpow in K by lia.
    assert (E : bpow radix2 201 * bpow radix2 (- P2) = 2) by (rewrite <- bpow_plus; reflexivity).
    assert (K2 : 2 <= IZR k * bpow radix2 (- P2)) by (rewrite <- E; apply Rmult_le_compat_r; [apply bpow_ge_0|exact K]).
    destruct (Rle_or_lt (ln 2) (IZR ln2_hi * bpow radix2 (-80))) as [H|H]; [exact H|exfalso].
    apply exp_increasing in H. rewrite exp_ln in H by lra. lra.
Qed.

(** ** The nearest double *)
Definition norm (m e : Z) : pyfloat := binary_normalize 53 1024 prec64 emax64 mode_NE m e false.
Lemma nearest_imp x y M e : B2R x = y -> (-1000 <= e <= 1000)%Z -> bpow radix2 (e - 1) <= ln y < bpow radix2 e ->
  IZR M - / 2 < ln y * bpow radix2 (53 - e) < IZR M + / 2 -> nearest_log x = norm M (e - 53).
Proof.
  intros <- He H1 H2. unfold nearest_log, norm.
  assert (Mg : mag radix2 (ln (B2R x)) = e :> Z).
  { apply mag_unique. rewrite Rabs_pos_eq; [exact H1|]. pose proof (bpow_gt_0 radix2 (e - 1)). lra. }
  assert (Ce : cexp radix2 fe (ln (B2R x)) = (e - 53)%Z).
  { unfold cexp. rewrite Mg. change (fe e) with (Z.max (e - 53) (-1074)). lia. }
  unfold scaled_mantissa. rewrite Ce. replace (- (e - 53))%Z with (53 - e)%Z by lia. f_equal.
  apply Znearest_imp. apply Rabs_def1; lra.
Qed.
Lemma nearest_value x : is_finite x = true -> 0 < B2R x ->
  is_finite (nearest_log x) = true /\ B2R (nearest_log x) = rnd (ln (B2R x)).
Proof.
  intros F P. assert (B : Rabs (ln (B2R x)) <= bpow radix2 11).
  { change (bpow radix2 11) with 2048. pose proof ln2_bounds as L2.
    assert (U : B2R x < bpow radix2 1024) by (pose proof (abs_B2R_lt_emax _ _ x) as U; rewrite Rabs_pos_eq in U by lra; exact U).
    assert (L : bpow radix2 (-1074) <= B2R x).
    { destruct x as [s|s| |s m e Hb]; cbn [B2R] in P |- *; try lra.
      assert (He : (-1074 <= e)%Z).
      { pose proof Hb as Hb'. unfold SpecFloat.bounded in Hb'. apply andb_true_iff in Hb'. destruct Hb' as [Hc _].
        unfold SpecFloat.canonical_mantissa in Hc. apply Zeq_bool_eq in Hc. rewrite <- Hc. apply Z.le_max_r. }
      assert (s = false) as ->. { destruct s; [|reflexivity]. exfalso. simpl in P. apply (Rlt_not_le _ _ P), F2R_le_0. simpl. lia. }
      unfold F2R. cbn [Fnum Fexp SpecFloat.cond_Zopp]. rewrite <- (Rmult_1_l (bpow radix2 (-1074))).
      apply Rmult_le_compat; [lra|apply bpow_ge_0|apply IZR_le; lia|apply bpow_le; exact He]. }
    assert (L1 : ln (bpow radix2 (-1074)) <= ln (B2R x)) by (destruct L as [L|L]; [apply Rlt_le, ln_increasing; [apply bpow_gt_0|exact L]|rewrite L; lra]).
    assert (L3 : ln (B2R x) < ln (bpow radix2 1024)) by (apply ln_increasing; assumption).
    rewrite ln_bpow in L1, L3. apply Rabs_le. lra. }
  destruct (round_small (ln (B2R x)) 11 B ltac:(lia)) as [_ S]. unfold nearest_log.
  set (y := ln (B2R x)) in *.
  apply (normalize_R (ZnearestE (scaled_mantissa radix2 fe y)) (cexp radix2 fe y)).
  - apply generic_format_round; typeclasses eauto.
  - exact S.
Qed.
Lemma ln_not_tiny (x : pyfloat) : is_finite x = true -> 0 < B2R x -> B2R x <> 1 -> bpow radix2 (-1022) <= Rabs (ln (B2R x)).
Proof.
  intros F P N.
  assert (D : bpow radix2 (-53) <= Rabs (B2R x - 1)).
  { destruct (Rtotal_order (B2R x) 1) as [H|[H|H]]; [|contradiction|].
    - assert (B2R x <= pred radix2 fe 1).
      { apply pred_ge_gt; [typeclasses eauto|apply b2r_format| |exact H]. change 1 with (bpow radix2 0).
        change fe with (FLT_exp (-1074) 53). apply generic_format_FLT_bpow; [reflexivity|lia]. }
      change 1 with (bpow radix2 0) in H0. rewrite pred_bpow in H0. change (fe 0) with (-53)%Z in H0. change (bpow radix2 0) with 1 in H0.
      rewrite Rabs_left; lra.
    - assert (succ radix2 fe 1 <= B2R x).
      { apply succ_le_lt; [typeclasses eauto| |apply b2r_format|exact H]. change 1 with (bpow radix2 0).
        change fe with (FLT_exp (-1074) 53). apply generic_format_FLT_bpow; [reflexivity|lia]. }
      rewrite succ_eq_pos in H0 by lra. replace (ulp radix2 fe 1) with (bpow radix2 (-52)) in H0.
      + assert (bpow radix2 (-53) <= bpow radix2 (-52)) by (apply bpow_le; lia). rewrite Rabs_pos_eq; lra.
      + change 1 with (bpow radix2 0). rewrite ulp_bpow. reflexivity. }
  assert (Q : bpow radix2 (-53) = 2 * bpow radix2 (-54)) by (change (-53)%Z with (1 + -54)%Z; rewrite bpow_plus; reflexivity).
  assert (Q0 : 0 < bpow radix2 (-54) < / 2) by (split; [apply bpow_gt_0|change (/ 2) with (bpow radix2 (-1)); apply bpow_lt; lia]).
  apply Rle_trans with (bpow radix2 (-54)); [apply bpow_le; lia|]. rewrite Q in D.
  set (v := B2R x) in *. set (q := bpow radix2 (-54)) in *. clearbody q v.
  destruct (Rle_or_lt 1 v) as [H1|H1].
  - rewrite Rabs_pos_eq in D by lra. pose proof (ln_ge_1_minus v P) as L.
    assert (/ v <= 1 - q).
    { apply Rmult_le_reg_r with v; [exact P|]. rewrite Rinv_l by lra.
      assert (0 <= (1 - 2 * q) * q) by (apply Rmult_le_pos; lra).
      assert ((1 - q) * (1 + 2 * q) <= (1 - q) * v) by (apply Rmult_le_compat_l; lra). lra. }
    rewrite Rabs_pos_eq; lra.
  - rewrite Rabs_left in D by lra. pose proof (ln_le_minus_1 v P) as L. rewrite Rabs_left by lra. lra.
Qed.
(** The nearest double is accurate enough: the hypothesis of the theorems is met. *)
Lemma nearest_accurate : accurate_log nearest_log.
Proof.
  intros x F P. destruct (nearest_value x F P) as [F' E]. split; [exact F'|]. rewrite E.
  destruct (Req_dec (B2R x) 1) as [H|H].
  - rewrite H, ln_1, round_0 by typeclasses eauto. rewrite Rminus_0_r, !Rabs_R0. lra.
  - destruct (rnd_rel _ (ln_not_tiny x F P H)) as (e & He & ->). fold t52. pose proof t52_small as T.
    replace (ln (B2R x) * (1 + e) - ln (B2R x)) with (e * ln (B2R x)) by ring. rewrite Rabs_mult.
    apply Rmult_le_compat_r; [apply Rabs_pos|lra].
Qed.

(** ** Two values next to a power of two *)
Definition below_4 : Z := (2 ^ 53 - 1) * 2 ^ 1023.
Definition above_8192 : Z := (2 ^ 52 + 1) * 2 ^ 1035.
Lemma nearest_2 : nearest_log ftwo = norm 6243314768165359 (-53).
Proof.
  apply (nearest_imp ftwo 2 6243314768165359 0); [apply ftwo_R|lia| |].
  - change (bpow radix2 0) with 1. change (bpow radix2 (0 - 1)) with (/ 2). pose proof ln2_bounds. lra.
  - pose proof ln2_tight as [L U]. change (53 - 0)%Z with 53%Z.
    assert (B : bpow radix2 (-80) * bpow radix2 53 = / 134217728) by (rewrite <- bpow_plus; change (bpow radix2 (-80 + 53)) with (/ 134217728); lra).
    apply Rmult_le_compat_r with (r := bpow radix2 53) in L; [|apply bpow_ge_0].
    apply Rmult_le_compat_r with (r := bpow radix2 53) in U; [|apply bpow_ge_0].
    rewrite Rmult_assoc, B in L, U. unfold ln2_lo, ln2_hi in L, U. lra.
Qed.
Lemma below_double : is_double below_4.
Proof. exists (2 ^ 53 - 1)%Z, 1023%Z. repeat split; lia. Qed.
Lemma above_double : is_double above_8192.
Proof. exists (2 ^ 52 + 1)%Z, 1035%Z. repeat split; lia. Qed.
Lemma value_split m e : (0 <= e)%Z -> real_value (m * 2 ^ e) = IZR m * bpow radix2 (e - 1074).
Proof.
  intros He. unfold real_value. rewrite unit_bpow, mult_IZR, pow2_bpow by exact He.
  replace (e - 1074)%Z with (e + -1074)%Z by lia. rewrite bpow_plus. ring.
Qed.
Lemma ln_below : 2 * ln 2 - / 2 ^ 53 * (1 + / 2 ^ 52) <= ln (real_value below_4) <= 2 * ln 2 - / 2 ^ 53.
Proof.
  assert (E : real_value below_4 = bpow radix2 2 * (1 - / 2 ^ 53)).
  { unfold below_4. rewrite value_split by lia. change (1023 - 1074)%Z with (-51)%Z.
    change (-51)%Z with (2 + -53)%Z. rewrite bpow_plus. rewrite minus_IZR.
    replace (IZR (2 ^ 53)) with (bpow radix2 53) by (symmetry; apply pow2_bpow; lia).
    change (bpow radix2 (-53)) with (/ 9007199254740992). change (bpow radix2 53) with 9007199254740992.
    replace (2 ^ 53)%R with 9007199254740992 by (simpl; lra). lra. }
  assert (Q : 0 < / 2 ^ 53 < / 1000) by (split; [apply Rinv_0_lt_compat, pow_lt; lra|apply Rinv_lt_contravar; simpl; lra]).
  assert (Q2 : / 2 ^ 52 = 2 * / 2 ^ 53) by (simpl; lra). rewrite Q2. set (q := / 2 ^ 53) in *.
  rewrite E, ln_mult, ln_bpow by (try apply bpow_gt_0; lra). clearbody q.
  pose proof (ln_le_minus_1 (1 - q) ltac:(lra)) as U. pose proof (ln_ge_1_minus (1 - q) ltac:(lra)) as L.
  assert (I : / (1 - q) <= 1 + q + 2 * q * q).
  { apply Rmult_le_reg_r with (1 - q); [lra|]. rewrite Rinv_l by lra. nra. }
  change (IZR 2) with 2. nra.
Qed.
Lemma ln_above : 13 * ln 2 + / 2 ^ 52 * (1 - / 2 ^ 52) <= ln (real_value above_8192) <= 13 * ln 2 + / 2 ^ 52.
Proof.
  assert (E : real_value above_8192 = bpow radix2 13 * (1 + / 2 ^ 52)).
  { unfold above_8192. rewrite value_split by lia. change (1035 - 1074)%Z with (13 + -52)%Z. rewrite bpow_plus. rewrite plus_IZR.
    replace (IZR (2 ^ 52)) with (bpow radix2 52) by (symmetry; apply pow2_bpow; lia).
    change (bpow radix2 (-52)) with (/ 4503599627370496). change (bpow radix2 52) with 4503599627370496.
    replace (2 ^ 52)%R with 4503599627370496 by (simpl; lra). lra. }
  assert (Q : 0 < / 2 ^ 52 < / 1000) by (split; [apply Rinv_0_lt_compat, pow_lt; lra|apply Rinv_lt_contravar; simpl; lra]).
  set (q := / 2 ^ 52) in *.
  rewrite E, ln_mult, ln_bpow by (try apply bpow_gt_0; lra). clearbody q.
  pose proof (ln_le_minus_1 (1 + q) ltac:(lra)) as U. pose proof (ln_ge_1_minus (1 + q) ltac:(lra)) as L.
  assert (I : / (1 + q) <= 1 - q + q * q).
  { apply Rmult_le_reg_r with (1 + q); [lra|]. rewrite Rinv_l by lra. assert (0 <= q * q * q) by (apply Rmult_le_pos; [apply Rmult_le_pos|]; lra). lra. }
  change (IZR 13) with 13. lra.
Qed.
Lemma nearest_below : nearest_log (double_of below_4) = norm 6243314768165359 (-52).
Proof.
  pose proof ln_below as LB. pose proof ln2_tight as [L U].
  assert (Q53 : / 2 ^ 53 = / 9007199254740992) by (f_equal; simpl; lra). assert (Q52 : / 2 ^ 52 = / 4503599627370496) by (f_equal; simpl; lra).
  rewrite Q53, Q52 in LB. change (bpow radix2 (-80)) with (/ 1208925819614629174706176) in L, U. unfold ln2_lo, ln2_hi in L, U.
  apply (nearest_imp _ (real_value below_4) 6243314768165359 1); [apply double_of_R, below_double|lia| |].
  - change (bpow radix2 1) with 2. change (bpow radix2 (1 - 1)) with 1. lra.
  - change (bpow radix2 (53 - 1)) with 4503599627370496. lra.
Qed.
Lemma nearest_above : nearest_log (double_of above_8192) = norm 5072693249134354 (-49).
Proof.
  pose proof ln_above as LB. pose proof ln2_tight as [L U].
  assert (Q52 : / 2 ^ 52 = / 4503599627370496) by (f_equal; simpl; lra).
  rewrite Q52 in LB. change (bpow radix2 (-80)) with (/ 1208925819614629174706176) in L, U. unfold ln2_lo, ln2_hi in L, U.
  apply (nearest_imp _ (real_value above_8192) 5072693249134354 4); [apply double_of_R, above_double|lia| |].
  - change (bpow radix2 4) with 16. change (bpow radix2 (4 - 1)) with 8. lra.
  - change (bpow radix2 (53 - 4)) with 562949953421312. lra.
Qed.
Definition scales : list Z := map Z.of_nat (seq 1 20).
Lemma in_scales s : (1 <= s <= 20)%Z -> In s scales.
Proof. intros H. unfold scales. apply in_map_iff. exists (Z.to_nat s). split; [lia|apply in_seq; lia]. Qed.
Lemma table_below s : (1 <= s <= 20)%Z -> float_log_floor nearest_log s below_4 = (2 * 2 ^ s)%Z.
Proof.
  intros H. unfold float_log_floor, log_product, scale_factor. rewrite nearest_below, nearest_2.
  assert (T : forallb (fun s => (ffloor (fmul (norm 6243314768165359 (-52)) (ldexp (fdiv fone (norm 6243314768165359 (-53))) s)) =? 2 * 2 ^ s)%Z) scales = true)
    by (vm_compute; reflexivity).
  rewrite forallb_forall in T. apply Z.eqb_eq. apply (T s (in_scales s H)).
Qed.
Lemma table_above s : (1 <= s <= 20)%Z -> float_log_floor nearest_log s above_8192 = (13 * 2 ^ s - 1)%Z.
Proof.
  intros H. unfold float_log_floor, log_product, scale_factor. rewrite nearest_above, nearest_2.
  assert (T : forallb (fun s => (ffloor (fmul (norm 5072693249134354 (-49)) (ldexp (fdiv fone (norm 6243314768165359 (-53))) s)) =? 13 * 2 ^ s - 1)%Z) scales = true)
    by (vm_compute; reflexivity).
  rewrite forallb_forall in T. apply Z.eqb_eq. apply (T s (in_scales s H)).
Qed.
(** The same histories with the table. *)
Definition table (s n : Z) : Z := if (n =? below_4)%Z then (2 * 2 ^ s)%Z else (13 * 2 ^ s - 1)%Z.
Lemma table_run big n t h0 now mx :
  eh_new [] DELTA 0 mx 20 = Some h0 -> (n = below_4 \/ n = above_8192) ->
  (exists k, (52 < k <= 2097)%Z /\ big = (2 ^ k)%Z) ->
  eh_run (float_log_floor nearest_log) t h0 [Measure big; Measure n; Collect now] = eh_run table t h0 [Measure big; Measure n; Collect now].
Proof.
  intros N Hn (k & Hk & ->). unfold eh_run. apply (run_ext _ _ 20); [exact (new_scales _ _ _ _ _ _ N)|].
  intros s v Hs Hv Nz. unfold map_to_index. destruct (Z.leb_spec s 0); [reflexivity|].
  assert (Pk : (0 < 2 ^ k)%Z) by (apply Z.pow_pos_nonneg; lia).
  cbn in Hv. destruct Hv as [<-|[<-|[]]].
  - rewrite Z.abs_eq by lia. unfold log_index. destruct (Z.leb_spec (2 ^ k) MIN_NORMAL_VALUE); [reflexivity|].
    assert (D : is_double (2 ^ k)).
    { exists (2 ^ 52)%Z, (k - 52)%Z. split; [lia|]. split; [lia|]. rewrite <- Z.pow_add_r by lia. f_equal. lia. }
    assert (E : get_ieee_754_mantissa (2 ^ k) = 0%Z).
    { rewrite mantissa_eq by (auto; unfold MIN_NORMAL_VALUE in *; lia). apply power_iff; [exact D|unfold MIN_NORMAL_VALUE in *; lia|].
      rewrite Z.log2_pow2 by lia. reflexivity. }
    rewrite E. reflexivity.
  - unfold log_index. destruct Hn as [->| ->].
    + rewrite (Z.abs_eq below_4) by (vm_compute; discriminate). rewrite table_below by lia. unfold table. rewrite Z.eqb_refl. reflexivity.
    + rewrite (Z.abs_eq above_8192) by (vm_compute; discriminate). rewrite table_above by lia. reflexivity.
Qed.

(** ** A check for [clear_of_powers], and its use *)
Definition clear_check (n : Z) : bool :=
  let k := Z.log2 n in
  ((n =? 0) || (n =? 2 ^ k) || ((2 ^ k <=? 2 ^ 38 * (n - 2 ^ k)) && (2 ^ (k + 1) <=? 2 ^ 38 * (2 ^ (k + 1) - n))))%Z.
Lemma clear_check_sound n : clear_check n = true -> clear_of_powers n.
Proof.
  intros H k Hk. assert (Pk : (0 < 2 ^ k)%Z) by (apply Z.pow_pos_nonneg; lia).
  destruct (Z.eq_dec n (2 ^ k)) as [E|Ne]; [now left|right]. unfold clear_check in H. apply orb_true_iff in H.
  assert (P38 : (1 <= 2 ^ 38)%Z) by (vm_compute; discriminate). set (c := (2 ^ 38)%Z) in *.
  assert (C2 : (2 <= c)%Z) by (vm_compute; discriminate). clearbody c.
  destruct (Z.eq_dec n 0) as [->|N0]. { replace (Z.abs (0 - 2 ^ k)) with (2 ^ k)%Z by lia. nia. }
  destruct (Z_lt_le_dec n 0) as [Ng|Nn].
  { replace (Z.abs (n - 2 ^ k)) with (2 ^ k - n)%Z by lia. nia. }
  pose proof (Z.log2_spec n ltac:(lia)) as [S1 S2]. pose proof (Z.log2_nonneg n) as L0. set (j := Z.log2 n) in *.
  assert (Hn : n = (2 ^ j)%Z \/ (2 ^ j <= c * (n - 2 ^ j) /\ 2 ^ (j + 1) <= c * (2 ^ (j + 1) - n))%Z).
  { destruct H as [H|H]; [apply orb_true_iff in H; destruct H as [H|H]; apply Z.eqb_eq in H; [lia|now left]|].
    apply andb_true_iff in H. destruct H as [Ha Hb]. apply Z.leb_le in Ha, Hb. now right. }
  replace (Z.succ j) with (j + 1)%Z in S2 by lia.
  destruct (Z_lt_le_dec k j) as [K1|K1].
  - assert (2 ^ (k + 1) <= 2 ^ j)%Z by (apply Z.pow_le_mono_r; lia). rewrite Z.pow_add_r in H0 by lia. change (2 ^ 1)%Z with 2%Z in H0.
    rewrite Z.abs_eq by lia. nia.
  - destruct (Z.eq_dec k j) as [->|Nk].
    + rewrite Z.abs_eq by lia. destruct Hn as [Hn|Hn]; [contradiction|lia].
    + destruct (Z.eq_dec k (j + 1)) as [->|Nk1].
      * rewrite Z.abs_neq by lia. destruct Hn as [Hn|Hn]; [|lia]. rewrite Z.pow_add_r in * by lia. change (2 ^ 1)%Z with 2%Z in *. nia.
      * assert (2 ^ (j + 1 + 1) <= 2 ^ k)%Z by (apply Z.pow_le_mono_r; lia).
        rewrite (Z.pow_add_r 2 (j + 1)) in H0 by lia. change (2 ^ 1)%Z with 2%Z in H0. rewrite Z.abs_neq by lia. nia.
Qed.
Lemma clear_good flog : accurate_log flog -> forall M l, Forall measurable l ->
  (M <= 0)%Z \/ Forall (fun v => clear_of_powers (Z.abs v)) l -> good (float_log_floor flog) M l.
Proof.
  intros A M l Me [H|H]; [now left|right]. intros v Hv Nz. rewrite Forall_forall in Me, H.
  apply clear_consistent; [exact A| |now apply H]. destruct (Me v Hv) as [?|D]; [contradiction|exact D].
Qed.
