(** Buckets and consistency of the logarithm mapping in floating point. *)
From Coq Require Import ZArith Reals Lra Lia List Bool Psatz.
From Flocq Require Import Core BinarySingleNaN.
From Verif Require Import Spec_FloatExp Proof_ExpMapping Proof_ExpExt Proof_FloatExp.
Local Open Scope R_scope.

Lemma tol : 4 * t52 * 1024 < / 2 ^ 39.
Proof. unfold t52. simpl. lra. Qed.
Lemma shiftr_floor y : Z.shiftr (Zfloor (2 * y)) 1 = Zfloor y.
Proof.
  rewrite Z.shiftr_div_pow2 by lia. change (2 ^ 1)%Z with 2%Z. symmetry. apply Zfloor_imp.
  pose proof (Zfloor_lb (2 * y)) as L. pose proof (Zfloor_ub (2 * y)) as U. set (k := Zfloor (2 * y)) in *.
  pose proof (Z.div_mod k 2 ltac:(lia)) as E. pose proof (Z.mod_pos_bound k 2 ltac:(lia)) as M.
  set (q := (k / 2)%Z) in *. assert (H : (2 * q <= k <= 2 * q + 1)%Z) by lia. destruct H as [H1 H2].
  apply IZR_le in H1, H2. rewrite mult_IZR in H1. rewrite plus_IZR, mult_IZR in H2. rewrite plus_IZR. lra.
Qed.
Lemma shiftr_min a b : Z.shiftr (Z.min a b) 1 = Z.min (Z.shiftr a 1) (Z.shiftr b 1).
Proof. rewrite !Z.shiftr_div_pow2 by lia. change (2 ^ 1)%Z with 2%Z. destruct (Z.min_spec a b) as [[H ->]|[H ->]]; [pose proof (Z.div_le_mono a b 2)|pose proof (Z.div_le_mono b a 2)]; lia. Qed.
Lemma bpow_S s : (1 <= s)%Z -> bpow radix2 s = 2 * bpow radix2 (s - 1).
Proof. intros H. replace s with (1 + (s - 1))%Z at 1 by lia. rewrite bpow_plus. reflexivity. Qed.
Lemma max_half s : (1 <= s)%Z -> Z.shiftr (log_max_index s) 1 = log_max_index (s - 1).
Proof.
  intros H. unfold log_max_index. change (MAX_NORMAL_EXPONENT + 1)%Z with 1024%Z. rewrite !Z.shiftl_mul_pow2 by lia.
  rewrite Z.shiftr_div_pow2 by lia. change (2 ^ 1)%Z with 2%Z.
  replace (2 ^ s)%Z with (2 * 2 ^ (s - 1))%Z by (rewrite <- Z.pow_succ_r by lia; f_equal; lia).
  replace (1024 * (2 * 2 ^ (s - 1)) - 1)%Z with ((1024 * 2 ^ (s - 1) - 1) * 2 + 1)%Z by ring.
  rewrite Z.div_add_l by lia. change (1 / 2)%Z with 0%Z. lia.
Qed.
Section Accurate.
Variable flog : pyfloat -> pyfloat.
Hypothesis Acc : accurate_log flog.
Notation lf := (float_log_floor flog).

Lemma not_power_mantissa n : is_double n -> (2 ^ 52 <= n)%Z -> (get_ieee_754_mantissa n =? 0)%Z = false -> n <> (2 ^ Z.log2 n)%Z.
Proof. intros D N E. apply Z.eqb_neq in E. rewrite mantissa_eq in E by assumption. intros H. apply E. apply power_iff; assumption. Qed.
Lemma power_mantissa n : is_double n -> (2 ^ 52 <= n)%Z -> (get_ieee_754_mantissa n =? 0)%Z = true ->
  n = (2 ^ Z.log2 n)%Z /\ get_ieee_754_exponent n = (Z.log2 n - 1074)%Z.
Proof.
  intros D N E. apply Z.eqb_eq in E. rewrite mantissa_eq in E by assumption. split; [apply power_iff; assumption|apply exponent_eq; assumption].
Qed.
Lemma not_one n : n <> (2 ^ Z.log2 n)%Z -> n <> (2 ^ 1074)%Z.
Proof. intros H E. apply H. rewrite E at 2. rewrite Z.log2_pow2 by lia. exact E. Qed.

Lemma high_scales s n : (2 <= s <= 20)%Z -> is_double n ->
  map_to_index lf (s - 1) n = Z.shiftr (map_to_index lf s n) 1.
Proof.
  intros Hs D. unfold map_to_index. destruct (Z.leb_spec (s - 1) 0); [lia|]. destruct (Z.leb_spec s 0); [lia|].
  destruct (Z_le_gt_dec n MIN_NORMAL_VALUE) as [L|G].
  - rewrite !log_small by (auto; lia). replace (2 ^ s)%Z with (2 * 2 ^ (s - 1))%Z by (rewrite <- Z.pow_succ_r by lia; f_equal; lia).
    rewrite Z.shiftr_div_pow2 by lia. change (2 ^ 1)%Z with 2%Z.
    replace (-1022 * (2 * 2 ^ (s - 1)) - 1)%Z with ((-1022 * 2 ^ (s - 1) - 1) * 2 + 1)%Z by ring.
    rewrite Z.div_add_l by lia. change (1 / 2)%Z with 0%Z. lia.
  - unfold log_index. destruct (Z.leb_spec n MIN_NORMAL_VALUE); [lia|].
    assert (N : (2 ^ 52 <= n)%Z) by (unfold MIN_NORMAL_VALUE in *; lia).
    destruct (get_ieee_754_mantissa n =? 0)%Z eqn:Em.
    + rewrite !Z.shiftl_mul_pow2 by lia. replace (2 ^ s)%Z with (2 * 2 ^ (s - 1))%Z by (rewrite <- Z.pow_succ_r by lia; f_equal; lia).
      set (e := get_ieee_754_exponent n). rewrite Z.shiftr_div_pow2 by lia. change (2 ^ 1)%Z with 2%Z.
      replace (e * (2 * 2 ^ (s - 1)) - 1)%Z with ((e * 2 ^ (s - 1) - 1) * 2 + 1)%Z by ring.
      rewrite Z.div_add_l by lia. change (1 / 2)%Z with 0%Z. lia.
    + destruct (log_floor_value flog Acc n D N (not_one n (not_power_mantissa n D N Em))) as (y & _ & Y).
      rewrite (proj2 (Y s ltac:(lia))), (proj2 (Y (s - 1)%Z ltac:(lia))). rewrite shiftr_min, max_half by lia. f_equal.
      rewrite (bpow_S s) by lia. replace (y * (2 * bpow radix2 (s - 1))) with (2 * (y * bpow radix2 (s - 1))) by ring.
      symmetry. apply shiftr_floor.
Qed.

(** The bucket of a value, up to the error of the logarithm. *)
Definition log2v (n : Z) : R := ln (real_value n) / ln 2.
Lemma log2v_pow k : (0 <= k)%Z -> log2v (2 ^ k) = IZR (k - 1074).
Proof.
  intros Hk. unfold log2v, real_value. rewrite unit_bpow, pow2_bpow by exact Hk. rewrite <- bpow_plus, ln_bpow.
  pose proof ln2_bounds. replace (k - 1074)%Z with (k + -1074)%Z by lia. field. lra.
Qed.
Lemma log2v_bound s n : (1 <= s <= 20)%Z -> is_double n -> (MIN_NORMAL_VALUE < n)%Z ->
  let i := log_index lf s n in
  IZR i * bpow radix2 (- s) - / 2 ^ 39 < log2v n <= IZR (i + 1) * bpow radix2 (- s) + / 2 ^ 39.
Proof.
  intros Hs D G i. assert (N : (2 ^ 52 <= n)%Z) by (unfold MIN_NORMAL_VALUE in *; lia).
  assert (Tp : 0 < / 2 ^ 39) by (apply Rinv_0_lt_compat, pow_lt; lra).
  assert (Bs : 0 < bpow radix2 (- s)) by apply bpow_gt_0.
  assert (Inv : forall z, z * bpow radix2 s * bpow radix2 (- s) = z).
  { intros z. rewrite Rmult_assoc, <- bpow_plus. replace (s + - s)%Z with 0%Z by lia. simpl. lra. }
  unfold i, log_index. destruct (Z.leb_spec n MIN_NORMAL_VALUE); [lia|].
  destruct (get_ieee_754_mantissa n =? 0)%Z eqn:Em.
  - destruct (power_mantissa n D N Em) as [E1 E2]. rewrite E2.
    assert (El : log2v n = IZR (Z.log2 n - 1074)) by (rewrite E1 at 1; apply log2v_pow, Z.log2_nonneg). rewrite El.
    rewrite Z.shiftl_mul_pow2 by lia. set (e := (Z.log2 n - 1074)%Z). replace (e * 2 ^ s - 1 + 1)%Z with (e * 2 ^ s)%Z by lia.
    rewrite minus_IZR, mult_IZR, pow2_bpow by lia. rewrite Rmult_minus_distr_r, Inv. lra.
  - pose proof (not_one n (not_power_mantissa n D N Em)) as Ne.
    destruct (log_floor_value flog Acc n D N Ne) as (y & Hy & Y). rewrite (proj2 (Y s ltac:(lia))).
    fold (log2v n) in Hy. apply Rabs_le_inv in Hy. pose proof tol as T.
    set (k := Zfloor (y * bpow radix2 s)). pose proof (Zfloor_lb (y * bpow radix2 s)) as L. pose proof (Zfloor_ub (y * bpow radix2 s)) as U.
    fold k in L, U.
    assert (L' : IZR k * bpow radix2 (- s) <= y) by (rewrite <- (Inv y); apply Rmult_le_compat_r; lra).
    assert (U' : y < IZR (k + 1) * bpow radix2 (- s)) by (rewrite <- (Inv y) at 1; apply Rmult_lt_compat_r; [lra|rewrite plus_IZR; exact U]).
    split.
    + assert (IZR (Z.min k (log_max_index s)) * bpow radix2 (- s) <= IZR k * bpow radix2 (- s)) by
        (apply Rmult_le_compat_r; [lra|apply IZR_le; lia]). lra.
    + destruct (Z.min_spec k (log_max_index s)) as [[_ ->]|[_ ->]]; [lra|].
      unfold log_max_index. change (MAX_NORMAL_EXPONENT + 1)%Z with 1024%Z. rewrite Z.shiftl_mul_pow2 by lia.
      replace (1024 * 2 ^ s - 1 + 1)%Z with (1024 * 2 ^ s)%Z by lia. rewrite mult_IZR, pow2_bpow by lia. rewrite Inv.
      pose proof (ln_range n D N) as [_ R]. pose proof ln2_bounds. assert (log2v n <= 1024); [|lra].
      unfold log2v, Rdiv. apply Rmult_le_reg_r with (ln 2); [lra|]. rewrite Rmult_assoc, Rinv_l by lra. lra.
Qed.
Lemma bucket_bound s n : (1 <= s <= 20)%Z -> is_double n -> (MIN_NORMAL_VALUE < n)%Z ->
  let i := log_index lf s n in
  Rpower 2 (IZR i / powerRZ 2 s - / 2 ^ 39) < real_value n <= Rpower 2 (IZR (i + 1) / powerRZ 2 s + / 2 ^ 39).
Proof.
  intros Hs D G i. pose proof (log2v_bound s n Hs D G) as B. cbv zeta in B. fold i in B. pose proof ln2_bounds as L2.
  assert (P : (0 < n)%Z) by (pose proof (double_bounds n D); lia). pose proof (real_value_pos n P) as V.
  assert (E : powerRZ 2 s = bpow radix2 s) by (rewrite bpow_powerRZ; reflexivity).
  assert (I : forall z, z / powerRZ 2 s = z * bpow radix2 (- s)) by (intros z; rewrite E, bpow_opp; reflexivity).
  rewrite !I. unfold Rpower.
  assert (Ev : real_value n = exp (log2v n * ln 2)).
  { unfold log2v, Rdiv. rewrite Rmult_assoc, Rinv_l by lra. rewrite Rmult_1_r, exp_ln; [reflexivity|exact V]. }
  rewrite Ev. destruct B as [B1 [B2|B2]].
  - split; [|left]; apply exp_increasing; apply Rmult_lt_compat_r; lra.
  - split; [|right; rewrite B2; reflexivity]. apply exp_increasing; apply Rmult_lt_compat_r; lra.
Qed.

(** Values that are clear of powers of two. *)
Lemma clear_log n k : is_double n -> clear_of_powers n -> (0 <= k)%Z -> n <> (2 ^ k)%Z ->
  (2 ^ k < n)%Z -> IZR (k - 1074) + / 2 ^ 39 < log2v n.
Proof.
  intros D C Hk Ne Lt. destruct (C k Hk) as [?|C']; [contradiction|]. rewrite Z.abs_eq in C' by lia.
  assert (Pk : (0 < 2 ^ k)%Z) by (apply Z.pow_pos_nonneg; lia).
  pose proof ln2_bounds as L2. rewrite <- log2v_pow by exact Hk. unfold log2v.
  set (r := real_value n / real_value (2 ^ k)).
  assert (V1 : 0 < real_value n) by (apply real_value_pos; lia). assert (V2 : 0 < real_value (2 ^ k)) by (apply real_value_pos; lia).
  assert (R : 1 + / 2 ^ 38 <= r).
  { assert (E : r = IZR n / IZR (2 ^ k)).
    { unfold r, real_value. assert (IZR (2 ^ k) <> 0) by (apply IZR_neq; lia). field. split; [assumption|]. rewrite unit_bpow. apply Rgt_not_eq, bpow_gt_0. }
    rewrite E. apply IZR_le in C'. rewrite mult_IZR, minus_IZR in C'. apply IZR_lt in Pk.
    apply Rmult_le_reg_r with (IZR (2 ^ k)); [exact Pk|]. unfold Rdiv. rewrite Rmult_assoc, Rinv_l by lra.
    change (2 ^ 38)%Z with 274877906944%Z in C'. replace (2 ^ 38) with 274877906944 by (simpl; lra). lra. }
  assert (El : ln (real_value n) = ln (real_value (2 ^ k)) + ln r).
  { rewrite <- ln_mult; [f_equal; unfold r; field; lra|exact V2|]. unfold r. apply Rdiv_lt_0_compat; assumption. }
  rewrite El. unfold Rdiv. rewrite Rmult_plus_distr_r. apply Rplus_lt_compat_l.
  assert (Q : 0 < / 2 ^ 38 < / 2) by (split; [apply Rinv_0_lt_compat, pow_lt; lra|apply Rinv_lt_contravar; simpl; lra]).
  assert (E39 : / 2 ^ 39 = / 2 ^ 38 / 2) by (simpl; lra). rewrite E39. set (q := / 2 ^ 38) in *. clearbody q.
  pose proof (ln_ge_1_minus r ltac:(lra)) as Lr.
  assert (Ir : / r <= 1 - q / 2 * (1 + q)).
  { apply Rmult_le_reg_r with r; [lra|]. rewrite Rinv_l by lra.
    apply Rle_trans with ((1 - q / 2 * (1 + q)) * (1 + q)); [nra|]. apply Rmult_le_compat_l; [nra|exact R]. }
  apply Rmult_lt_reg_r with (ln 2); [lra|]. rewrite Rmult_assoc, Rinv_l by lra. nra.
Qed.
Lemma clear_log_down n k : is_double n -> clear_of_powers n -> (0 <= k)%Z -> n <> (2 ^ k)%Z ->
  (n < 2 ^ k)%Z -> log2v n < IZR (k - 1074) - / 2 ^ 39.
Proof.
  intros D C Hk Ne Lt. destruct (C k Hk) as [?|C']; [contradiction|]. rewrite Z.abs_neq in C' by lia.
  assert (Pk : (0 < 2 ^ k)%Z) by (apply Z.pow_pos_nonneg; lia). assert (Pn : (0 < n)%Z) by (pose proof (double_bounds n D); lia).
  pose proof ln2_bounds as L2. rewrite <- log2v_pow by exact Hk. unfold log2v.
  set (r := real_value n / real_value (2 ^ k)).
  assert (V1 : 0 < real_value n) by (apply real_value_pos; lia). assert (V2 : 0 < real_value (2 ^ k)) by (apply real_value_pos; lia).
  assert (R : r <= 1 - / 2 ^ 38).
  { assert (E : r = IZR n / IZR (2 ^ k)).
    { unfold r, real_value. assert (IZR (2 ^ k) <> 0) by (apply IZR_neq; lia). field. split; [assumption|]. rewrite unit_bpow. apply Rgt_not_eq, bpow_gt_0. }
    rewrite E. apply IZR_le in C'. rewrite mult_IZR, opp_IZR, minus_IZR in C'. apply IZR_lt in Pk.
    apply Rmult_le_reg_r with (IZR (2 ^ k)); [exact Pk|]. unfold Rdiv. rewrite Rmult_assoc, Rinv_l by lra.
    change (2 ^ 38)%Z with 274877906944%Z in C'. replace (2 ^ 38) with 274877906944 by (simpl; lra). lra. }
  assert (Rp : 0 < r) by (unfold r; apply Rdiv_lt_0_compat; assumption).
  assert (El : ln (real_value n) = ln (real_value (2 ^ k)) + ln r).
  { rewrite <- ln_mult; [f_equal; unfold r; field; lra|exact V2|exact Rp]. }
  rewrite El. unfold Rdiv. rewrite Rmult_plus_distr_r. apply Rplus_lt_compat_l.
  assert (Q : 0 < / 2 ^ 38 < / 2) by (split; [apply Rinv_0_lt_compat, pow_lt; lra|apply Rinv_lt_contravar; simpl; lra]).
  assert (E39 : / 2 ^ 39 = / 2 ^ 38 / 2) by (simpl; lra). rewrite E39. set (q := / 2 ^ 38) in *. clearbody q.
  pose proof (ln_le_minus_1 r Rp) as Lr.
  apply Rmult_lt_reg_r with (ln 2); [lra|]. rewrite Rmult_assoc, Rinv_l by lra. nra.
Qed.
Lemma clear_consistent n : is_double n -> clear_of_powers n -> consistent_at lf n.
Proof.
  intros D C s Hs. destruct (Z.eq_dec s 1) as [->|Ns]; [|apply high_scales; [lia|exact D]]. change (1 - 1)%Z with 0%Z.
  unfold map_to_index. cbn [Z.leb Z.compare]. rewrite exponent_index_eq by (auto; lia). change (- 0)%Z with 0%Z. rewrite Z.shiftr_0_r.
  destruct (Z_le_gt_dec n MIN_NORMAL_VALUE) as [L|G].
  - rewrite log_small by (auto; lia). change (-1022 * 2 ^ 1 - 1)%Z with (-2045)%Z. change (Z.shiftr (-2045) 1) with (-1023)%Z.
    unfold level. destruct (Z.ltb_spec n MIN_NORMAL_VALUE); [reflexivity|]. replace n with MIN_NORMAL_VALUE by lia. vm_compute. reflexivity.
  - assert (N : (2 ^ 52 <= n)%Z) by (unfold MIN_NORMAL_VALUE in *; lia). unfold level. destruct (Z.ltb_spec n MIN_NORMAL_VALUE); [lia|].
    unfold log_index. destruct (Z.leb_spec n MIN_NORMAL_VALUE); [lia|].
    destruct (get_ieee_754_mantissa n =? 0)%Z eqn:Em.
    + destruct (power_mantissa n D N Em) as [E1 E2]. rewrite E2. rewrite log2_up_pow by assumption.
      rewrite Z.shiftl_mul_pow2, Z.shiftr_div_pow2 by lia. change (2 ^ 1)%Z with 2%Z.
      replace ((Z.log2 n - 1074) * 2 - 1)%Z with ((Z.log2 n - 1075) * 2 + 1)%Z by ring.
      rewrite Z.div_add_l by lia. change (1 / 2)%Z with 0%Z. lia.
    + pose proof (not_power_mantissa n D N Em) as Np. rewrite log2_up_not_pow by assumption.
      destruct (log_floor_value flog Acc n D N (not_one n Np)) as (y & Hy & Y). rewrite (proj2 (Y 1%Z ltac:(lia))).
      rewrite shiftr_min, max_half by lia. change (bpow radix2 1) with 2. rewrite (Rmult_comm y 2), shiftr_floor.
      fold (log2v n) in Hy. apply Rabs_le_inv in Hy. pose proof tol as T.
      pose proof (Z.log2_nonneg n) as L0. pose proof (Z.log2_spec n ltac:(lia)) as [S1 S2].
      pose proof (clear_log n (Z.log2 n) D C L0 Np ltac:(lia)) as K1.
      assert (Ne2 : n <> (2 ^ Z.succ (Z.log2 n))%Z) by lia.
      pose proof (clear_log_down n (Z.succ (Z.log2 n)) D C ltac:(lia) Ne2 S2) as K2.
      assert (Ef : Zfloor y = (Z.log2 n - 1074)%Z).
      { apply Zfloor_imp. replace (Z.log2 n - 1074 + 1)%Z with (Z.succ (Z.log2 n) - 1074)%Z by lia. lra. }
      rewrite Ef. pose proof (double_log2 n D). change (log_max_index (1 - 1)) with 1023%Z. lia.
Qed.
End Accurate.
