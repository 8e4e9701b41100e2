(** The logarithm mapping in floating point: accuracy and consistency. *)
From Coq Require Import ZArith Reals Lra Lia List Bool Psatz.
From Flocq Require Import Core BinarySingleNaN Relative Mult_error.
From Verif Require Import Spec_Float Spec_FloatExp Proof_ExpMapping Proof_Float.
Local Open Scope R_scope.

Lemma ffloor_R x : is_finite x = true -> ffloor x = Zfloor (B2R x).
Proof.
  destruct x as [s|s| |s m e H]; simpl; try discriminate; intros _.
  - change 0 with (IZR 0). now rewrite Zfloor_IZR.
  - unfold F2R. simpl. replace (if s then Z.neg m else Z.pos m) with (SpecFloat.cond_Zopp s (Z.pos m)) by (destruct s; reflexivity).
    set (M := SpecFloat.cond_Zopp s (Z.pos m)). destruct (Z.leb_spec 0 e).
    + rewrite <- IZR_Zpower by assumption. rewrite <- mult_IZR, Zfloor_IZR. reflexivity.
    + rewrite Z.shiftr_div_pow2 by lia. rewrite <- Zfloor_div.
      * f_equal. unfold Rdiv. f_equal. replace e with (- (- e))%Z at 2 by lia. rewrite bpow_opp. f_equal.
        change 2%Z with (radix_val radix2). rewrite IZR_Zpower by lia. reflexivity.
      * pose proof (Z.pow_pos_nonneg 2 (- e)). lia.
Qed.
Lemma normalize_R m e : generic_format radix2 fe (F2R (Float radix2 m e)) -> Rabs (F2R (Float radix2 m e)) < bpow radix2 1024 ->
  is_finite (binary_normalize 53 1024 prec64 emax64 mode_NE m e false) = true
  /\ B2R (binary_normalize 53 1024 prec64 emax64 mode_NE m e false) = F2R (Float radix2 m e).
Proof.
  intros G B. pose proof (binary_normalize_correct 53 1024 prec64 emax64 mode_NE m e false) as C. cbv zeta in C.
  rewrite round_generic in C by (try apply valid_rnd_round_mode; exact G). rewrite Rlt_bool_true in C by exact B.
  destruct C as (C1 & C2 & _). now split.
Qed.
Lemma format_small m e : (Z.abs m < 2 ^ 53)%Z -> (-1074 <= e)%Z -> generic_format radix2 fe (F2R (Float radix2 m e)).
Proof.
  intros Hm He. change fe with (FLT_exp (-1074) 53). apply generic_format_FLT. exists (Float radix2 m e); [reflexivity|exact Hm|exact He].
Qed.
Lemma fone_R : is_finite fone = true /\ B2R fone = 1.
Proof.
  destruct (normalize_R 1 0) as [F E].
  - apply format_small; simpl; lia.
  - unfold F2R. cbn [Fnum Fexp]. change (bpow radix2 0) with 1. rewrite Rabs_pos_eq by lra.
    apply Rle_lt_trans with (bpow radix2 2); [change (bpow radix2 2) with 4; lra|apply bpow_lt; lia].
  - split; [exact F|]. unfold fone. rewrite E. unfold F2R. simpl. lra.
Qed.
Lemma ftwo_R : is_finite ftwo = true /\ B2R ftwo = 2.
Proof.
  destruct (normalize_R 2 0) as [F E].
  - apply format_small; simpl; lia.
  - unfold F2R. cbn [Fnum Fexp]. change (bpow radix2 0) with 1. rewrite Rabs_pos_eq by lra.
    apply Rle_lt_trans with (bpow radix2 2); [change (bpow radix2 2) with 4; lra|apply bpow_lt; lia].
  - split; [exact F|]. unfold ftwo. rewrite E. unfold F2R. simpl. lra.
Qed.
Lemma unit_bpow : powerRZ 2 (-1074) = bpow radix2 (-1074).
Proof. rewrite bpow_powerRZ. reflexivity. Qed.
Lemma pow2_bpow k : (0 <= k)%Z -> IZR (2 ^ k) = bpow radix2 k.
Proof. intros H. change 2%Z with (radix_val radix2). now apply IZR_Zpower. Qed.
Lemma real_value_F n : real_value n = F2R (Float radix2 n (-1074)).
Proof. unfold real_value, F2R. cbn [Fnum Fexp]. now rewrite unit_bpow. Qed.
Lemma real_value_pos n : (0 < n)%Z -> 0 < real_value n.
Proof. intros H. rewrite real_value_F. apply F2R_gt_0. exact H. Qed.
Lemma real_value_lt n k : (0 <= k)%Z -> (n < 2 ^ k)%Z -> real_value n < bpow radix2 (k - 1074).
Proof.
  intros Hk H. unfold real_value. rewrite unit_bpow. unfold Z.sub. rewrite bpow_plus.
  apply Rmult_lt_compat_r; [apply bpow_gt_0|]. rewrite <- pow2_bpow by exact Hk. now apply IZR_lt.
Qed.
Lemma real_value_le n k : (0 <= k)%Z -> (2 ^ k <= n)%Z -> bpow radix2 (k - 1074) <= real_value n.
Proof.
  intros Hk H. unfold real_value. rewrite unit_bpow. unfold Z.sub. rewrite bpow_plus.
  apply Rmult_le_compat_r; [apply bpow_ge_0|]. rewrite <- pow2_bpow by exact Hk. now apply IZR_le.
Qed.
Lemma double_of_R n : is_double n -> is_finite (double_of n) = true /\ B2R (double_of n) = real_value n.
Proof.
  intros D. pose proof (double_bounds n D) as [P L]. unfold double_of. rewrite real_value_F. apply normalize_R.
  - destruct D as (m & k & Hm & Hk & ->).
    replace (F2R (Float radix2 (m * 2 ^ k) (-1074))) with (F2R (Float radix2 m (k - 1074))).
    + apply format_small; lia.
    + unfold F2R. cbn [Fnum Fexp]. rewrite mult_IZR, pow2_bpow by lia. replace (k - 1074)%Z with (k + -1074)%Z by lia. rewrite bpow_plus. ring.
  - rewrite <- real_value_F. rewrite Rabs_pos_eq by (apply Rlt_le, real_value_pos; exact P).
    change 1024%Z with (2098 - 1074)%Z. apply real_value_lt; [lia|exact L].
Qed.

(** ** Small numbers *)
Definition t52 : R := / 2 ^ 52.
Lemma t52_small : 0 < t52 < / 1000000.
Proof. unfold t52. split; [apply Rinv_0_lt_compat, pow_lt; lra|]. apply Rinv_lt_contravar; [|simpl; lra]. apply Rmult_lt_0_compat; [lra|apply pow_lt; lra]. Qed.
Lemma u_t52 : unit_roundoff = t52 / 2.
Proof. unfold unit_roundoff, t52. simpl. lra. Qed.
Lemma ln2_bounds : / 2 < ln 2 < 1.
Proof.
  split.
  - apply exp_lt_inv. rewrite exp_ln by lra. rewrite <- (Ropp_involutive (/2)). rewrite exp_Ropp.
    assert (1 + - / 2 < exp (- / 2)) by (apply exp_ineq1; lra).
    apply Rlt_le_trans with (/ / 2); [|lra]. apply Rinv_lt_contravar; [|lra]. apply Rmult_lt_0_compat; lra.
  - apply exp_lt_inv. rewrite exp_ln by lra. pose proof (exp_ineq1 1). lra.
Qed.
Lemma prod_err x y p q : Rabs (x - 1) <= p -> Rabs y <= q -> Rabs (x * (1 + y) - 1) <= p + q + p * q.
Proof.
  intros H1 H2. replace (x * (1 + y) - 1) with ((x - 1) + y + (x - 1) * y) by ring.
  eapply Rle_trans; [apply Rabs_triang|]. apply Rplus_le_compat.
  - eapply Rle_trans; [apply Rabs_triang|]. now apply Rplus_le_compat.
  - rewrite Rabs_mult. apply Rmult_le_compat; auto using Rabs_pos.
Qed.
Lemma quot_err a b c d t : 0 < t < / 1000000 -> Rabs a <= t -> Rabs b <= t -> Rabs c <= t / 2 -> Rabs d <= t / 2 ->
  Rabs ((1 + a) * (1 + c) * (1 + d) / (1 + b) - 1) <= 4 * t.
Proof.
  intros Ht Ha Hb Hc Hd.
  assert (H1 : Rabs (1 + a - 1) <= t) by (replace (1 + a - 1) with a by ring; exact Ha).
  pose proof (prod_err _ _ _ _ H1 Hc) as H2. pose proof (prod_err _ _ _ _ H2 Hd) as H3.
  set (w := (1 + a) * (1 + c) * (1 + d)) in *. clearbody w.
  assert (Hw : Rabs (w - 1) <= 5 / 2 * t) by nra.
  assert (B : - t <= b <= t) by (apply Rabs_le_inv; exact Hb).
  assert (W : - (5 / 2 * t) <= w - 1 <= 5 / 2 * t) by (apply Rabs_le_inv; exact Hw).
  replace (w / (1 + b) - 1) with ((w - 1 - b) / (1 + b)) by (field; lra).
  apply Rabs_le. split; [apply Rmult_le_reg_r with (1 + b); [lra|]|apply Rmult_le_reg_r with (1 + b); [lra|]];
    unfold Rdiv; rewrite Rmult_assoc, Rinv_l by lra; nra.
Qed.
Lemma rel_of x y t : x <> 0 -> Rabs (y - x) <= t * Rabs x -> exists a, Rabs a <= t /\ y = x * (1 + a).
Proof.
  intros Hx H. exists ((y - x) / x). split; [|field; exact Hx]. unfold Rdiv. rewrite Rabs_mult, Rabs_inv.
  apply Rmult_le_reg_r with (Rabs x); [now apply Rabs_pos_lt|]. rewrite Rmult_assoc, Rinv_l by (now apply Rabs_no_R0). lra.
Qed.
Lemma rnd_rel x : bpow radix2 (-1022) <= Rabs x -> exists e, Rabs e <= t52 / 2 /\ rnd x = x * (1 + e).
Proof.
  intros H. destruct (relative_error_N_FLT_ex radix2 (-1074) 53 eq_refl (fun x => negb (Z.even x)) x H) as (e & He & E).
  exists e. split; [|exact E]. rewrite <- u_t52, u_bpow. exact He.
Qed.
Lemma round_FLX_bpow x e : round radix2 (FLX_exp 53) ZnearestE (x * bpow radix2 e) = round radix2 (FLX_exp 53) ZnearestE x * bpow radix2 e.
Proof.
  destruct (Req_dec x 0) as [->|Nz].
  { rewrite Rmult_0_l, round_0 by typeclasses eauto. ring. }
  unfold round, scaled_mantissa, cexp, F2R. cbn [Fnum Fexp]. rewrite mag_mult_bpow by exact Nz. unfold FLX_exp.
  replace (mag radix2 x + e - 53)%Z with ((mag radix2 x - 53) + e)%Z by lia.
  rewrite (bpow_plus _ (_ - 53) e).
  replace (x * bpow radix2 e * bpow radix2 (- (mag radix2 x - 53 + e))) with (x * bpow radix2 (- (mag radix2 x - 53))).
  - ring.
  - rewrite Z.opp_add_distr, bpow_plus. rewrite (bpow_opp _ e). field. apply Rgt_not_eq, bpow_gt_0.
Qed.
Lemma rnd_bpow x e : (0 <= e)%Z -> bpow radix2 (-1022) <= Rabs x -> rnd (x * bpow radix2 e) = rnd x * bpow radix2 e.
Proof.
  intros He H. change fe with (FLT_exp (-1074) 53). rewrite !round_FLT_FLX.
  - apply round_FLX_bpow.
  - exact H.
  - change (-1074 + 53 - 1)%Z with (-1022)%Z. rewrite Rabs_mult, (Rabs_pos_eq (bpow radix2 e)) by apply bpow_ge_0.
    rewrite <- (Rmult_1_r (bpow radix2 (-1022))). apply Rmult_le_compat; [apply bpow_ge_0|lra|exact H|].
    change 1 with (bpow radix2 0). now apply bpow_le.
Qed.

(** ** The logarithm of a normal double *)
Lemma ln_bpow k : ln (bpow radix2 k) = IZR k * ln 2.
Proof. rewrite bpow_exp. apply ln_exp. Qed.
Notation frac := Proof_ExpMapping.frac.
Notation shift := Proof_ExpMapping.shift.
Lemma far_from_one n : is_double n -> (2 ^ 52 <= n)%Z -> n <> (2 ^ 1074)%Z -> (2 ^ 1021 <= Z.abs (n - 2 ^ 1074))%Z.
Proof.
  intros D N Ne.
  assert (E : n = ((2 ^ 52 + frac n) * 2 ^ shift n)%Z) by (apply n_split; assumption).
  assert (Fr : (0 <= frac n < 2 ^ 52)%Z) by (apply frac_range; assumption).
  assert (Sh : (0 <= shift n <= 2045)%Z) by (apply shift_range; assumption).
  destruct (Z_lt_le_dec (shift n) 1021) as [H|H].
  - assert (n < 2 ^ 1073)%Z.
    { rewrite E. apply Z.lt_le_trans with (2 ^ 53 * 2 ^ shift n)%Z.
      - apply Z.mul_lt_mono_pos_r; [apply Z.pow_pos_nonneg; lia|]. change (2 ^ 53)%Z with (2 * 2 ^ 52)%Z. lia.
      - rewrite <- Z.pow_add_r by lia. apply Z.pow_le_mono_r; lia. }
    assert (E1 : (2 ^ 1074 = 2 * 2 ^ 1073)%Z) by (change 1074%Z with (1 + 1073)%Z; rewrite Z.pow_add_r by lia; reflexivity).
    assert (2 ^ 1021 <= 2 ^ 1073)%Z by (apply Z.pow_le_mono_r; lia). lia.
  - assert (E1 : (2 ^ 1074 = 2 ^ 53 * 2 ^ 1021)%Z) by (rewrite <- Z.pow_add_r by lia; reflexivity).
    assert (E2 : (2 ^ shift n = 2 ^ (shift n - 1021) * 2 ^ 1021)%Z) by (rewrite <- Z.pow_add_r by lia; f_equal; lia).
    assert (E3 : n = ((2 ^ 52 + frac n) * 2 ^ (shift n - 1021) * 2 ^ 1021)%Z) by (rewrite E at 1; rewrite E2; ring).
    set (a := ((2 ^ 52 + frac n) * 2 ^ (shift n - 1021))%Z) in *. rewrite E1 in *.
    assert (P : (0 < 2 ^ 1021)%Z) by (apply Z.pow_pos_nonneg; lia).
    replace (n - 2 ^ 53 * 2 ^ 1021)%Z with ((a - 2 ^ 53) * 2 ^ 1021)%Z by (rewrite E3; ring).
    rewrite Z.abs_mul, (Z.abs_eq (2 ^ 1021)) by lia.
    assert (a <> 2 ^ 53)%Z by (intros Ea; apply Ne; rewrite E3, Ea; reflexivity).
    assert (1 <= Z.abs (a - 2 ^ 53))%Z by lia. clearbody a. nia.
Qed.
Lemma ln_le_minus_1 v : 0 < v -> ln v <= v - 1.
Proof. intros H. pose proof (exp_ineq1_le (ln v)) as E. rewrite exp_ln in E by exact H. lra. Qed.
Lemma ln_ge_1_minus v : 0 < v -> 1 - / v <= ln v.
Proof.
  intros H. pose proof (ln_le_minus_1 (/ v) (Rinv_0_lt_compat _ H)) as E. rewrite ln_Rinv in E by exact H. lra.
Qed.
Lemma ln_away n : is_double n -> (2 ^ 52 <= n)%Z -> n <> (2 ^ 1074)%Z -> bpow radix2 (-54) <= Rabs (ln (real_value n)).
Proof.
  intros D N Ne. pose proof (far_from_one n D N Ne) as F.
  assert (P : (0 < n)%Z) by (pose proof (double_bounds n D); lia). pose proof (real_value_pos n P) as V.
  assert (E1 : real_value (2 ^ 1074) = 1).
  { unfold real_value. rewrite unit_bpow, pow2_bpow by lia. rewrite <- bpow_plus. reflexivity. }
  assert (E2 : real_value (2 ^ 1021) = bpow radix2 (-53)).
  { unfold real_value. rewrite unit_bpow, pow2_bpow by lia. rewrite <- bpow_plus. reflexivity. }
  assert (A : Rabs (real_value n - 1) >= bpow radix2 (-53)).
  { rewrite <- E1, <- E2. unfold real_value. rewrite <- Rmult_minus_distr_r, Rabs_mult.
    rewrite (Rabs_pos_eq (powerRZ _ _)) by (rewrite unit_bpow; apply bpow_ge_0).
    apply Rle_ge, Rmult_le_compat_r; [rewrite unit_bpow; apply bpow_ge_0|]. rewrite <- minus_IZR, <- abs_IZR. now apply IZR_le. }
  set (v := real_value n) in *. clearbody v.
  assert (B : bpow radix2 (-53) = 2 * bpow radix2 (-54)).
  { change (-53)%Z with (1 + -54)%Z. rewrite bpow_plus. reflexivity. }
  assert (B0 : 0 < bpow radix2 (-54) < / 2).
  { split; [apply bpow_gt_0|]. change (/ 2) with (bpow radix2 (-1)). apply bpow_lt. lia. }
  set (q := bpow radix2 (-54)) in *. clearbody q. rewrite B in A.
  destruct (Rle_or_lt 1 v) as [H1|H1].
  - rewrite Rabs_pos_eq in A by lra. pose proof (ln_ge_1_minus v V) as L.
    assert (/ v <= 1 - q).
    { apply Rmult_le_reg_r with v; [exact V|]. rewrite Rinv_l by lra.
      assert (0 <= (1 - 2 * q) * q) by (apply Rmult_le_pos; lra).
      assert ((1 - q) * (1 + 2 * q) <= (1 - q) * v) by (apply Rmult_le_compat_l; lra). lra. }
    rewrite Rabs_pos_eq; lra.
  - rewrite Rabs_left in A by lra. pose proof (ln_le_minus_1 v V) as L. rewrite Rabs_left by lra. lra.
Qed.
Lemma ln_range n : is_double n -> (2 ^ 52 <= n)%Z -> -1022 * ln 2 <= ln (real_value n) <= 1024 * ln 2.
Proof.
  intros D N. pose proof (double_bounds n D) as [P L]. rewrite <- !ln_bpow. split.
  - assert (H : bpow radix2 (52 - 1074) <= real_value n) by (apply real_value_le; [lia|exact N]).
    change (52 - 1074)%Z with (-1022)%Z in H.
    destruct H as [H|H]; [apply Rlt_le, ln_increasing; [apply bpow_gt_0|exact H]|rewrite H; lra].
  - apply Rlt_le, ln_increasing; [apply real_value_pos; exact P|]. change 1024%Z with (2098 - 1074)%Z. apply real_value_lt; [lia|exact L].
Qed.

Section Accurate.
Variable flog : pyfloat -> pyfloat.
Hypothesis Acc : accurate_log flog.
Definition inv_ln2 : pyfloat := fdiv fone (flog ftwo).
Lemma log2_value : is_finite (flog ftwo) = true /\ exists b, Rabs b <= t52 /\ B2R (flog ftwo) = ln 2 * (1 + b).
Proof.
  destruct ftwo_R as [F E]. destruct (Acc ftwo F ltac:(rewrite E; lra)) as [F' H]. rewrite E in H. split; [exact F'|].
  apply rel_of; [pose proof ln2_bounds; lra|exact H].
Qed.
Lemma round_small x k : Rabs x <= bpow radix2 k -> (-1000 <= k <= 1000)%Z -> Rabs (rnd x) <= bpow radix2 k /\ Rabs (rnd x) < bpow radix2 1024.
Proof.
  intros H K. assert (G : generic_format radix2 fe (bpow radix2 k)).
  { change fe with (FLT_exp (-1074) 53). apply generic_format_FLT_bpow; [reflexivity|lia]. }
  pose proof (abs_round_le_generic radix2 fe ZnearestE x _ G H) as A. split; [exact A|].
  eapply Rle_lt_trans; [exact A|]. apply bpow_lt. lia.
Qed.
Lemma inv_ln2_value : is_finite inv_ln2 = true /\ Rabs (B2R inv_ln2) <= bpow radix2 2 /\ / 2 <= B2R inv_ln2
  /\ exists b c, Rabs b <= t52 /\ Rabs c <= t52 / 2 /\ B2R inv_ln2 = / (ln 2 * (1 + b)) * (1 + c).
Proof.
  destruct log2_value as (F & b & Hb & E). pose proof ln2_bounds as L2. pose proof t52_small as T.
  assert (Bb : - t52 <= b <= t52) by (now apply Rabs_le_inv).
  assert (R1 : 1 / 4 < ln 2 * (1 + b) < 3 / 2) by (split; nra).
  set (x := ln 2 * (1 + b)) in *.
  assert (I1 : / 2 < / x < 4).
  { split; [apply Rinv_lt_contravar; lra|]. rewrite <- (Rinv_inv 4). apply Rinv_lt_contravar; [|lra]. apply Rmult_lt_0_compat; lra. }
  destruct (round_small (/ x) 2) as [S1 S2]; [rewrite Rabs_pos_eq by lra; change (bpow radix2 2) with 4; lra|lia|].
  destruct fone_R as [F1 E1].
  pose proof (Bdiv_correct 53 1024 prec64 emax64 mode_NE fone (flog ftwo)) as C. rewrite E, E1 in C.
  specialize (C ltac:(lra)). unfold Rdiv in C. rewrite Rmult_1_l in C. cbn [round_mode] in C. rewrite (Rlt_bool_true _ _ S2) in C.
  destruct C as (C1 & C2 & _). fold (fdiv fone (flog ftwo)) in *. fold inv_ln2 in *.
  split; [rewrite C2; exact F1|]. rewrite C1. split; [exact S1|]. split.
  - apply round_ge_generic; [typeclasses eauto|typeclasses eauto| |lra].
    change (/ 2) with (bpow radix2 (-1)). change fe with (FLT_exp (-1074) 53). apply generic_format_FLT_bpow; [reflexivity|lia].
  - destruct (rnd_rel (/ x)) as (c & Hc & Ec).
    { rewrite Rabs_pos_eq by lra. apply Rle_trans with (bpow radix2 (-1)); [apply bpow_le; lia|change (bpow radix2 (-1)) with (/ 2); lra]. }
    exists b, c. repeat (split; [assumption|]). exact Ec.
Qed.
Lemma scale_factor_value s : (0 <= s <= 20)%Z ->
  is_finite (scale_factor flog s) = true /\ B2R (scale_factor flog s) = B2R inv_ln2 * bpow radix2 s.
Proof.
  intros Hs. destruct inv_ln2_value as (F & B & Lo & _).
  pose proof (Bldexp_correct 53 1024 prec64 emax64 mode_NE inv_ln2 s) as C. cbn [round_mode] in C.
  rewrite round_generic in C; [|typeclasses eauto|].
  2:{ change fe with (FLT_exp (-1074) 53). apply mult_bpow_pos_exact_FLT; [apply (b2r_format inv_ln2)|lia]. }
  rewrite Rlt_bool_true in C.
  - destruct C as (C1 & C2 & _). split; [unfold scale_factor, ldexp; fold inv_ln2; rewrite C2; exact F|exact C1].
  - rewrite Rabs_mult, (Rabs_pos_eq (bpow radix2 s)) by apply bpow_ge_0.
    apply Rle_lt_trans with (bpow radix2 2 * bpow radix2 s).
    + apply Rmult_le_compat_r; [apply bpow_ge_0|exact B].
    + rewrite <- bpow_plus. apply bpow_lt. lia.
Qed.

(** floor(log(value) * factor) is the floor of 2^scale times one number, which is close to the logarithm to base two. *)
Lemma log_floor_value n : is_double n -> (2 ^ 52 <= n)%Z -> n <> (2 ^ 1074)%Z ->
  exists y, Rabs (y - ln (real_value n) / ln 2) <= 4 * t52 * 1024
  /\ forall s, (0 <= s <= 20)%Z -> is_finite (log_product flog s n) = true /\ float_log_floor flog s n = Zfloor (y * bpow radix2 s).
Proof.
  intros D N Ne. destruct (double_of_R n D) as [Fn En]. assert (P : (0 < n)%Z) by (pose proof (double_bounds n D); lia).
  pose proof (real_value_pos n P) as V.
  destruct (Acc (double_of n) Fn ltac:(rewrite En; exact V)) as [Fl A]. rewrite En in A.
  pose proof (ln_away n D N Ne) as Aw. pose proof (ln_range n D N) as Ra. set (l := ln (real_value n)) in *.
  assert (Nz : l <> 0). { intros E. rewrite E, Rabs_R0 in Aw. pose proof (bpow_gt_0 radix2 (-54)). lra. }
  destruct (rel_of _ _ _ Nz A) as (a & Ha & El). fold t52 in Ha.
  destruct inv_ln2_value as (F & B & Lo & b & c & Hb & Hc & Ei). pose proof ln2_bounds as L2. pose proof t52_small as T.
  assert (Ba : - t52 <= a <= t52) by (now apply Rabs_le_inv). assert (Bb : - t52 <= b <= t52) by (now apply Rabs_le_inv).
  assert (Lr : Rabs l <= 1024) by (apply Rabs_le; lra).
  set (L := B2R (flog (double_of n))) in *. set (G := B2R inv_ln2) in *.
  assert (LL : Rabs L <= bpow radix2 11).
  { rewrite El, Rabs_mult. change (bpow radix2 11) with 2048. replace 2048 with (1024 * 2) by lra.
    apply Rmult_le_compat; [apply Rabs_pos|apply Rabs_pos|exact Lr|]. apply Rabs_le. lra. }
  assert (Lm : bpow radix2 (-1022) <= Rabs (L * G)).
  { rewrite El, !Rabs_mult. apply Rle_trans with (bpow radix2 (-54) * bpow radix2 (-1) * bpow radix2 (-1)).
    - rewrite <- !bpow_plus. apply bpow_le. lia.
    - apply Rmult_le_compat; [rewrite <- bpow_plus; apply bpow_ge_0|apply bpow_ge_0| |].
      + apply Rmult_le_compat; [apply bpow_ge_0|apply bpow_ge_0|exact Aw|].
        change (bpow radix2 (-1)) with (/ 2). rewrite Rabs_pos_eq; lra.
      + change (bpow radix2 (-1)) with (/ 2). rewrite Rabs_pos_eq; lra. }
  exists (rnd (L * G)). split.
  - destruct (rnd_rel _ Lm) as (d & Hd & ->). rewrite El, Ei.
    replace (l * (1 + a) * (/ (ln 2 * (1 + b)) * (1 + c)) * (1 + d) - l / ln 2)
      with (l / ln 2 * ((1 + a) * (1 + c) * (1 + d) / (1 + b) - 1)) by (field; split; lra).
    pose proof (quot_err a b c d t52 T Ha Hb Hc Hd) as Q. rewrite Rabs_mult, Rmult_comm.
    apply Rmult_le_compat; [apply Rabs_pos|apply Rabs_pos|exact Q|].
    assert (Ll : - (1024 * ln 2) <= l <= 1024 * ln 2) by lra.
    apply Rabs_le. unfold Rdiv. split; apply Rmult_le_reg_r with (ln 2); try lra; rewrite Rmult_assoc, Rinv_l by lra; lra.
  - intros s Hs. destruct (scale_factor_value s Hs) as [Fs Es].
    assert (Sm : Rabs (rnd (L * (G * bpow radix2 s))) < bpow radix2 1024).
    { apply (round_small _ 33); [|lia]. rewrite !Rabs_mult, (Rabs_pos_eq (bpow radix2 s)) by apply bpow_ge_0.
      change 33%Z with (11 + (2 + 20))%Z. rewrite !bpow_plus. apply Rmult_le_compat; [apply Rabs_pos| |exact LL|].
      - apply Rmult_le_pos; [apply Rabs_pos|apply bpow_ge_0].
      - apply Rmult_le_compat; [apply Rabs_pos|apply bpow_ge_0|exact B|apply bpow_le; lia]. }
    pose proof (Bmult_correct 53 1024 prec64 emax64 mode_NE (flog (double_of n)) (scale_factor flog s)) as C.
    rewrite Es in C. fold L in C. fold G in C. cbn [round_mode] in C. rewrite (Rlt_bool_true _ _ Sm) in C. destruct C as (C1 & C2 & _).
    assert (Fp : is_finite (log_product flog s n) = true) by (unfold log_product, fmul; rewrite C2, Fl, Fs; reflexivity).
    split; [exact Fp|]. unfold float_log_floor. rewrite ffloor_R by exact Fp. f_equal. unfold log_product, fmul. rewrite C1.
    rewrite <- Rmult_assoc. apply rnd_bpow; [lia|exact Lm].
Qed.
End Accurate.
