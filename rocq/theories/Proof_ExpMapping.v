(** Facts about the value-to-index mappings (Model_ExpHist.v). *)
From Coq Require Import Lia Qpower.
From Verif Require Import Spec_ExpHist.
Local Open Scope Z_scope.

Lemma pow2_gt k : 0 <= k -> 0 < 2 ^ k.
Proof. intros H. apply Z.pow_pos_nonneg; lia. Qed.
(** ** The bits of a double *)
Lemma double_bounds n : is_double n -> 0 < n < 2 ^ 2098.
Proof.
  intros (m & k & Hm & Hk & ->). pose proof (pow2_gt k ltac:(lia)) as P.
  split; [apply Z.mul_pos_pos; lia|].
  apply Z.lt_le_trans with (2 ^ 53 * 2 ^ k); [apply Z.mul_lt_mono_pos_r; lia|].
  rewrite <- Z.pow_add_r by lia. apply Z.pow_le_mono_r; lia.
Qed.
Lemma double_log2 n : is_double n -> 0 <= Z.log2 n <= 2097.
Proof.
  intros H. pose proof (double_bounds n H) as B. split; [apply Z.log2_nonneg|].
  assert (Z.log2 n < 2098); [|lia]. apply Z.log2_lt_pow2; lia.
Qed.
Lemma double_divide n : is_double n -> 2 ^ 52 <= n -> (2 ^ (Z.log2 n - 52) | n).
Proof.
  intros (m & k & Hm & Hk & ->) Hn.
  assert (L : Z.log2 (m * 2 ^ k) = Z.log2 m + k) by (rewrite Z.log2_mul_pow2 by lia; lia).
  assert (Z.log2 m < 53) by (apply Z.log2_lt_pow2; lia).
  exists (m * 2 ^ (k - (Z.log2 (m * 2 ^ k) - 52))). rewrite <- Z.mul_assoc, <- Z.pow_add_r.
  - f_equal. f_equal. lia.
  - lia.
  - assert (Z.log2 (2 ^ 52) <= Z.log2 (m * 2 ^ k)) by (apply Z.log2_le_mono; exact Hn).
    rewrite Z.log2_pow2 in H0 by lia. lia.
Qed.
Section Normal.
Variable n : Z.
Hypothesis (D : is_double n) (N : 2 ^ 52 <= n).
Local Definition shift := Z.log2 n - 52.
Local Definition frac := Z.shiftr n shift - 2 ^ 52.
Lemma shift_range : 0 <= shift <= 2045.
Proof.
  unfold shift. pose proof (double_log2 n D). assert (Z.log2 (2 ^ 52) <= Z.log2 n) by (apply Z.log2_le_mono; exact N).
  rewrite Z.log2_pow2 in H0 by lia. lia.
Qed.
Lemma n_split : n = (2 ^ 52 + frac) * 2 ^ shift.
Proof.
  unfold frac. pose proof shift_range. pose proof (pow2_gt shift ltac:(lia)).
  replace (2 ^ 52 + (Z.shiftr n shift - 2 ^ 52)) with (Z.shiftr n shift) by lia.
  rewrite Z.shiftr_div_pow2 by lia. destruct (double_divide n D N) as (q & E). fold shift in E.
  rewrite E at 2. rewrite Z.div_mul by lia. exact E.
Qed.
Lemma frac_range : 0 <= frac < 2 ^ 52.
Proof.
  pose proof shift_range as S. pose proof (pow2_gt shift ltac:(lia)) as P.
  pose proof (Z.log2_spec n ltac:(lia)) as L. rewrite n_split in L at 2 3.
  replace (Z.log2 n) with (52 + shift) in L by (unfold shift; lia).
  replace (Z.succ (52 + shift)) with (53 + shift) in L by lia. rewrite !Z.pow_add_r in L by lia.
  destruct L as [L1 L2]. apply Z.mul_le_mono_pos_r in L1; [|exact P]. apply Z.mul_lt_mono_pos_r in L2; [|exact P].
  change (2 ^ 53) with (2 ^ 52 + 2 ^ 52) in L2. lia.
Qed.
Lemma bits_eq : bits64 n = (shift + 1) * 2 ^ 52 + frac.
Proof. unfold bits64. destruct (Z.ltb_spec n (2 ^ 52)); [lia|]. reflexivity. Qed.
Lemma mantissa_eq : get_ieee_754_mantissa n = frac.
Proof.
  unfold get_ieee_754_mantissa. change MANTISSA_MASK with (Z.ones 52). rewrite Z.land_ones by lia. rewrite bits_eq.
  pose proof frac_range. rewrite Z.add_comm, Z.mod_add by lia. apply Z.mod_small. lia.
Qed.
Lemma exponent_eq : get_ieee_754_exponent n = Z.log2 n - 1074.
Proof.
  unfold get_ieee_754_exponent. change EXPONENT_MASK with (Z.shiftl (Z.ones 11) 52). change MANTISSA_WIDTH with 52.
  rewrite Z.shiftr_land, Z.shiftr_shiftl_l by lia. change (Z.shiftl (Z.ones 11) (52 - 52)) with (Z.ones 11).
  rewrite Z.land_ones by lia. rewrite Z.shiftr_div_pow2 by lia. rewrite bits_eq. pose proof frac_range.
  rewrite Z.add_comm, Z.div_add by lia. rewrite (Z.div_small frac) by lia. pose proof shift_range.
  rewrite Z.mod_small by (change (2 ^ 11) with 2048; lia). change EXPONENT_BIAS with 1023. unfold shift. lia.
Qed.
Lemma power_iff : frac = 0 <-> n = 2 ^ Z.log2 n.
Proof.
  pose proof shift_range. pose proof (pow2_gt shift ltac:(lia)) as P. split; intros H'.
  - rewrite n_split at 1. rewrite H', Z.add_0_r, <- Z.pow_add_r by lia. f_equal. unfold shift. lia.
  - rewrite n_split in H' at 1. replace (Z.log2 n) with (52 + shift) in H' by (unfold shift; lia).
    rewrite Z.pow_add_r in H' by lia. apply Z.mul_cancel_r in H'; lia.
Qed.
Lemma log2_up_pow : n = 2 ^ Z.log2 n -> Z.log2_up n = Z.log2 n.
Proof. intros E. rewrite E at 1. apply Z.log2_up_pow2. apply Z.log2_nonneg. Qed.
Lemma log2_up_not_pow : n <> 2 ^ Z.log2 n -> Z.log2_up n = Z.log2 n + 1.
Proof.
  intros E. pose proof (Z.log2_spec n ltac:(lia)) as L. apply Z.log2_up_unique; [pose proof (Z.log2_nonneg n); lia|].
  replace (Z.pred (Z.log2 n + 1)) with (Z.log2 n) by lia. replace (Z.log2 n + 1) with (Z.succ (Z.log2 n)) by lia. lia.
Qed.
(** Exponent and correction: the exponent of the next power of two, minus one. *)
Lemma corrected : get_ieee_754_exponent n + Z.shiftr (get_ieee_754_mantissa n - 1) MANTISSA_WIDTH = Z.log2_up n - 1075.
Proof.
  rewrite exponent_eq, mantissa_eq. pose proof frac_range as F. change MANTISSA_WIDTH with 52.
  destruct (Z.eq_dec frac 0) as [E|E].
  - rewrite log2_up_pow by now apply power_iff. rewrite E. change (Z.shiftr (0 - 1) 52) with (-1). lia.
  - rewrite log2_up_not_pow by (intros E'; apply power_iff in E'; contradiction).
    rewrite Z.shiftr_div_pow2, Z.div_small by lia. lia.
Qed.
End Normal.

Lemma min_index_eq s : -10 <= s <= 0 -> exponent_min_index s = Z.shiftr (-1023) (- s).
Proof.
  intros H. assert (s = 0 \/ s = -1 \/ s = -2 \/ s = -3 \/ s = -4 \/ s = -5 \/ s = -6 \/ s = -7 \/ s = -8 \/ s = -9 \/ s = -10) as C by lia.
  repeat (destruct C as [->|C]; [vm_compute; reflexivity|]). subst. vm_compute. reflexivity.
Qed.
(** The exponent of the bucket of scale 0 that a double is in; subnormals are taken for the smallest normal value. *)
Definition level (n : Z) : Z := if n <? MIN_NORMAL_VALUE then -1023 else Z.log2_up n - 1075.
Lemma exponent_index_eq s n : -10 <= s <= 0 -> is_double n -> exponent_index s n = Z.shiftr (level n) (- s).
Proof.
  intros Hs D. unfold exponent_index, level. change MIN_NORMAL_VALUE with (2 ^ 52).
  destruct (Z.ltb_spec n (2 ^ 52)); [now apply min_index_eq|]. cbn zeta. now rewrite corrected by auto.
Qed.
Lemma level_range n : is_double n -> -1023 <= level n <= 1023.
Proof.
  intros D. unfold level. change MIN_NORMAL_VALUE with (2 ^ 52). destruct (Z.ltb_spec n (2 ^ 52)); [lia|].
  pose proof (double_bounds n D). assert (Z.log2_up (2 ^ 52) <= Z.log2_up n) by (apply Z.log2_up_le_mono; lia).
  rewrite Z.log2_up_pow2 in H1 by lia.
  assert (Z.log2_up n <= 2098); [|lia]. apply Z.log2_up_le_pow2; lia.
Qed.

(** ** Powers of two in Q *)
Lemma pow_Z z : 0 <= z -> (Qpower 2 z == inject_Z (2 ^ z))%Q.
Proof. intros H. change 2%Q with (inject_Z 2). symmetry. apply Zpower_Qpower. exact H. Qed.
Lemma pow_unit z : -1074 <= z -> (Qpower 2 z == inject_Z (2 ^ (z + 1074)) * Qpower 2 (-1074))%Q.
Proof.
  intros H. rewrite <- pow_Z by lia. rewrite <- Qpower_plus by discriminate.
  replace (z + 1074 + -1074) with z by lia. reflexivity.
Qed.
Lemma unit_pos : (0 < Qpower 2 (-1074))%Q. Proof. reflexivity. Qed.
Lemma real_lt z n : -1074 <= z -> 2 ^ (z + 1074) < n -> (Qpower 2 z < real n)%Q.
Proof.
  intros H L. unfold real. rewrite (pow_unit z H). apply Qmult_lt_compat_r; [apply unit_pos|]. now rewrite <- Zlt_Qlt.
Qed.
Lemma real_le z n : -1074 <= z -> n <= 2 ^ (z + 1074) -> (real n <= Qpower 2 z)%Q.
Proof.
  intros H L. unfold real. rewrite (pow_unit z H). apply Qmult_le_compat_r; [now rewrite <- Zle_Qle|apply Qlt_le_weak, unit_pos].
Qed.
(** Scale 0: the bucket of a double is its level. *)
Lemma level_bucket n : is_double n -> MIN_NORMAL_VALUE <= n ->
  (Qpower 2 (level n) < real n <= Qpower 2 (level n + 1))%Q.
Proof.
  intros D N. unfold level. change MIN_NORMAL_VALUE with (2 ^ 52) in *. destruct (Z.ltb_spec n (2 ^ 52)); [lia|].
  assert (L2 : Z.log2_up (2 ^ 52) <= Z.log2_up n) by (apply Z.log2_up_le_mono; lia). rewrite Z.log2_up_pow2 in L2 by lia.
  pose proof (Z.log2_up_spec n ltac:(lia)) as L. split.
  - apply real_lt; [lia|]. replace (Z.log2_up n - 1075 + 1074) with (Z.pred (Z.log2_up n)) by lia. lia.
  - apply real_le; [lia|]. replace (Z.log2_up n - 1075 + 1 + 1074) with (Z.log2_up n) by lia. lia.
Qed.
Lemma Qpow_mono a b : a <= b -> (Qpower 2 a <= Qpower 2 b)%Q.
Proof.
  intros H. replace b with (a + (b - a)) by lia. rewrite Qpower_plus by discriminate.
  rewrite <- (Qmult_1_r (2 ^ a)) at 1. apply Qmult_le_l.
  - apply Qpower_0_lt. reflexivity.
  - rewrite pow_Z by lia. change 1%Q with (inject_Z 1). rewrite <- Zle_Qle. pose proof (pow2_gt (b - a) ltac:(lia)). lia.
Qed.
Lemma exponent_bucket s n : -10 <= s <= 0 -> is_double n -> MIN_NORMAL_VALUE <= n ->
  in_exp_bucket s (exponent_index s n) (real n).
Proof.
  intros Hs D N. rewrite exponent_index_eq by assumption. unfold in_exp_bucket. destruct (Z.leb_spec s 0); [|lia].
  destruct (level_bucket n D N) as [L1 L2]. pose proof (pow2_gt (- s) ltac:(lia)) as P.
  rewrite Z.shiftr_div_pow2 by lia. set (k := 2 ^ (- s)) in *.
  pose proof (Z.div_mod (level n) k ltac:(lia)) as E. pose proof (Z.mod_pos_bound (level n) k P) as M. split.
  - eapply Qle_lt_trans; [|exact L1]. apply Qpow_mono. lia.
  - eapply Qle_trans; [exact L2|]. apply Qpow_mono. lia.
Qed.
Lemma min_normal_double : is_double MIN_NORMAL_VALUE.
Proof. exists (2 ^ 52), 0. repeat split; vm_compute; congruence. Qed.
(** Subnormal values go where the smallest normal value goes. *)
Lemma subnormal_index s n : -10 <= s <= 0 -> is_double n -> n < MIN_NORMAL_VALUE ->
  exponent_index s n = exponent_index s MIN_NORMAL_VALUE.
Proof.
  intros Hs D N. rewrite !exponent_index_eq by (auto using min_normal_double). f_equal. unfold level.
  destruct (Z.ltb_spec n MIN_NORMAL_VALUE); [|lia]. reflexivity.
Qed.
Lemma exponent_shift s k n : -10 <= s - k -> 0 <= k -> s <= 0 -> is_double n ->
  exponent_index (s - k) n = Z.shiftr (exponent_index s n) k.
Proof.
  intros H1 Hk Hs D. rewrite !exponent_index_eq by (auto; lia). rewrite Z.shiftr_shiftr by lia. f_equal. lia.
Qed.
Lemma shiftr_mono k a b : 0 <= k -> a <= b -> Z.shiftr a k <= Z.shiftr b k.
Proof. intros Hk H. rewrite !Z.shiftr_div_pow2 by exact Hk. apply Z.div_le_mono; [now apply pow2_gt|exact H]. Qed.
(** [get_lower_boundary] gives base^index for every index that a double has. *)
Lemma boundary_ok s n : -10 <= s <= 0 -> is_double n ->
  exponent_lower_boundary s (exponent_index s n) = Boundary (exponent_index s n * 2 ^ (- s)).
Proof.
  intros Hs D. unfold exponent_lower_boundary. pose proof (level_range n D) as L.
  rewrite exponent_index_eq by assumption. rewrite min_index_eq by exact Hs. unfold exponent_max_index.
  change MAX_NORMAL_EXPONENT with 1023.
  pose proof (shiftr_mono (- s) (-1023) (level n) ltac:(lia) ltac:(lia)).
  pose proof (shiftr_mono (- s) (level n) 1023 ltac:(lia) ltac:(lia)).
  destruct (Z.ltb_spec (Z.shiftr (level n) (- s)) (Z.shiftr (-1023) (- s))); [lia|].
  destruct (Z.ltb_spec (Z.shiftr 1023 (- s)) (Z.shiftr (level n) (- s))); [lia|].
  f_equal. apply Z.shiftl_mul_pow2. lia.
Qed.

(** ** The logarithm mapping without rounding *)
Lemma square_power y j : 0 < y -> y * y = 2 ^ j -> exists i, 0 <= i /\ y = 2 ^ i.
Proof.
  intros Hy. revert j. pattern y. apply Zlt_lower_bound_ind with (z := 1); [|lia]. clear y Hy. intros y IH Hy j E.
  assert (Hj : 0 <= j). { destruct (Z_lt_le_dec j 0); [|assumption]. rewrite Z.pow_neg_r in E by assumption. nia. }
  destruct (Z.eq_dec y 1) as [->|N1]; [exists 0; split; [lia|reflexivity]|].
  destruct (Z.Even_or_Odd y) as [(z & Ez)|(z & Ez)].
  - assert (j = 0 \/ j = 1 \/ 2 <= j) as [->|[->|Hj2]] by lia; [change (2 ^ 0) with 1 in E; nia|change (2 ^ 1) with 2 in E; nia|].
    destruct (IH z ltac:(lia) (j - 2)) as (i & Hi & Eq).
    { replace j with (2 + (j - 2)) in E by lia. rewrite Z.pow_add_r in E by lia. change (2 ^ 2) with 4 in E. nia. }
    exists (i + 1). split; [lia|]. rewrite Z.pow_add_r by lia. change (2 ^ 1) with 2. lia.
  - exfalso. assert (j = 0 \/ 1 <= j) as [->|Hj1] by lia; [change (2 ^ 0) with 1 in E; nia|].
    replace j with (1 + (j - 1)) in E by lia. rewrite Z.pow_add_r in E by lia. change (2 ^ 1) with 2 in E. nia.
Qed.
Lemma tower_power s n : 0 <= s -> 0 < n -> forall j, n ^ (2 ^ s) = 2 ^ j -> exists i, 0 <= i /\ n = 2 ^ i.
Proof.
  intros Hs Hn. pattern s. apply natlike_ind; [| |exact Hs]; clear s Hs.
  - intros j E. change (2 ^ 0) with 1 in E. rewrite Z.pow_1_r in E. exists j. split; [|exact E].
    destruct (Z_lt_le_dec j 0); [rewrite Z.pow_neg_r in E by assumption; lia|assumption].
  - intros s Hs IH j E. rewrite Z.pow_succ_r in E by exact Hs. pose proof (pow2_gt s Hs) as P.
    replace (2 * 2 ^ s) with (2 ^ s + 2 ^ s) in E by lia. rewrite Z.pow_add_r in E by lia.
    destruct (square_power (n ^ 2 ^ s) j ltac:(apply Z.pow_pos_nonneg; lia) E) as (i & Hi & Ei). exact (IH i Ei).
Qed.
(** The exact index: log2 of the value, rounded up, minus one. *)
Definition exact_index (s n : Z) : Z := Z.log2_up (n ^ (2 ^ s)) - 1 - 1074 * 2 ^ s.
Lemma tower_half s n : 0 < n -> 1 < n -> 1 <= s -> exact_index (s - 1) n = Z.shiftr (exact_index s n) 1.
Proof.
  intros Hn Hn1 Hs. unfold exact_index. pose proof (pow2_gt (s - 1) ltac:(lia)) as P.
  replace (2 ^ s) with (2 ^ (s - 1) + 2 ^ (s - 1)) by (replace s with (Z.succ (s - 1)) at 3 by lia; rewrite Z.pow_succ_r by lia; lia).
  rewrite Z.pow_add_r by lia. set (X := n ^ (2 ^ (s - 1))).
  assert (HX : 1 < X) by (unfold X; apply Z.pow_gt_1; lia).
  pose proof (Z.log2_up_spec X HX) as [L1 L2]. set (u := Z.log2_up X) in *.
  assert (Hu : 1 <= u) by (pose proof (Z.log2_up_pos X HX); lia).
  assert (U : Z.log2_up (X * X) = 2 * u - 1 \/ Z.log2_up (X * X) = 2 * u).
  { assert (A : 2 ^ (2 * u - 2) < X * X <= 2 ^ (2 * u)).
    { replace (2 * u - 2) with (Z.pred u + Z.pred u) by lia. replace (2 * u) with (u + u) by lia.
      rewrite !Z.pow_add_r by lia. pose proof (pow2_gt (Z.pred u) ltac:(lia)). nia. }
    assert (Z.log2_up (X * X) <= 2 * u) by (apply Z.log2_up_le_pow2; lia).
    assert (2 * u - 2 < Z.log2_up (X * X)) by (apply Z.log2_up_lt_pow2; lia). lia. }
  rewrite Z.shiftr_div_pow2 by lia. change (2 ^ 1) with 2. set (c := 2 ^ (s - 1)).
  destruct U as [-> | ->]; [apply Z.div_unique with (r := 0)|apply Z.div_unique with (r := 1)]; lia.
Qed.
Lemma exact_index_0 n : exact_index 0 n = Z.log2_up n - 1075.
Proof. unfold exact_index. change (2 ^ 0) with 1. rewrite Z.pow_1_r. lia. Qed.
Lemma exact_log_index s n : 1 <= s -> is_double n -> MIN_NORMAL_VALUE < n ->
  log_index exact_log_floor s n = exact_index s n.
Proof.
  intros Hs D N. unfold log_index. destruct (Z.leb_spec n MIN_NORMAL_VALUE); [lia|]. change MIN_NORMAL_VALUE with (2 ^ 52) in *.
  assert (N' : 2 ^ 52 <= n) by lia. pose proof (pow2_gt s ltac:(lia)) as P. pose proof (double_bounds n D) as Bd.
  rewrite mantissa_eq by auto. destruct (Z.eqb_spec (frac n) 0) as [E|E].
  - apply power_iff in E; auto. rewrite exponent_eq by auto. rewrite Z.shiftl_mul_pow2 by lia. unfold exact_index.
    set (e := Z.log2 n) in *. pose proof (Z.log2_nonneg n) as He. fold e in He.
    rewrite E at 1. rewrite <- Z.pow_mul_r by lia. rewrite Z.log2_up_pow2 by lia. lia.
  - assert (Np : forall j, n ^ (2 ^ s) <> 2 ^ j).
    { intros j Ej. apply E. apply power_iff; auto.
      destruct (tower_power s n ltac:(lia) ltac:(lia) j Ej) as (i & Hi & En). rewrite En. rewrite Z.log2_pow2 by exact Hi. reflexivity. }
    set (X := n ^ (2 ^ s)) in *. assert (HX : 1 < X) by (unfold X; apply Z.pow_gt_1; lia).
    assert (U : Z.log2_up X = Z.log2 X + 1).
    { pose proof (Z.log2_spec X ltac:(lia)) as L. apply Z.log2_up_unique; [pose proof (Z.log2_nonneg X); lia|].
      replace (Z.pred (Z.log2 X + 1)) with (Z.log2 X) by lia. replace (Z.log2 X + 1) with (Z.succ (Z.log2 X)) by lia.
      pose proof (Np (Z.log2 X)). lia. }
    unfold exact_log_floor, exact_index. fold X. rewrite U. rewrite Z.min_l; [lia|].
    unfold log_max_index. change (MAX_NORMAL_EXPONENT + 1) with 1024. rewrite Z.shiftl_mul_pow2 by lia.
    assert (Z.log2 X < 2098 * 2 ^ s); [|lia]. apply Z.log2_lt_pow2; [lia|]. unfold X.
    rewrite Z.pow_mul_r by lia. apply Z.pow_lt_mono_l; lia.
Qed.
Lemma log_small s n lf : 0 <= s -> n <= MIN_NORMAL_VALUE -> log_index lf s n = -1022 * 2 ^ s - 1.
Proof.
  intros Hs H. unfold log_index. destruct (Z.leb_spec n MIN_NORMAL_VALUE); [|lia]. unfold log_min_index.
  rewrite Z.shiftl_mul_pow2 by exact Hs. change MIN_NORMAL_EXPONENT with (-1022). lia.
Qed.
Lemma exact_consistent : log_consistent exact_log_floor.
Proof.
  intros s n Hs D. pose proof (double_bounds n D) as Bd. unfold map_to_index.
  destruct (Z.leb_spec s 0); [lia|].
  destruct (Z_le_gt_dec n MIN_NORMAL_VALUE) as [Sm|Lg].
  - rewrite (log_small s) by (auto; lia). replace (Z.shiftr (-1022 * 2 ^ s - 1) 1) with (-1022 * 2 ^ (s - 1) - 1).
    2:{ rewrite Z.shiftr_div_pow2 by lia. change (2 ^ 1) with 2. replace s with (Z.succ (s - 1)) at 2 by lia.
        rewrite Z.pow_succ_r by lia. apply Z.div_unique with (r := 1); lia. }
    destruct (Z.leb_spec (s - 1) 0).
    + replace (s - 1) with 0 by lia. rewrite exponent_index_eq by (auto; lia). unfold level.
      destruct (Z.ltb_spec n MIN_NORMAL_VALUE); [reflexivity|].
      replace n with MIN_NORMAL_VALUE by lia. reflexivity.
    + apply log_small; auto; lia.
  - rewrite (exact_log_index s) by (auto; lia). change MIN_NORMAL_VALUE with (2 ^ 52) in Lg.
    rewrite <- tower_half by lia. destruct (Z.leb_spec (s - 1) 0).
    + replace (s - 1) with 0 by lia. rewrite exponent_index_eq by (auto; lia). rewrite exact_index_0. unfold level.
      change MIN_NORMAL_VALUE with (2 ^ 52). destruct (Z.ltb_spec n (2 ^ 52)); [lia|]. apply Z.shiftr_0_r.
    + apply exact_log_index; [lia|exact D|change MIN_NORMAL_VALUE with (2 ^ 52); lia].
Qed.
(** ... and it is correct. *)
Lemma tower_real s n : 0 <= s -> (Qpower (real n) (2 ^ s) == inject_Z (n ^ (2 ^ s)) * Qpower 2 (- 1074 * 2 ^ s))%Q.
Proof.
  intros Hs. pose proof (pow2_gt s Hs). unfold real. rewrite Qmult_power, <- Qpower_mult.
  rewrite Zpower_Qpower by lia. reflexivity.
Qed.
Lemma exact_bucket s n : 1 <= s -> is_double n -> MIN_NORMAL_VALUE < n ->
  in_exp_bucket s (log_index exact_log_floor s n) (real n).
Proof.
  intros Hs D N. rewrite exact_log_index by assumption. unfold in_exp_bucket. destruct (Z.leb_spec s 0); [lia|].
  pose proof (pow2_gt s ltac:(lia)) as P. rewrite tower_real by lia. unfold exact_index. change MIN_NORMAL_VALUE with (2 ^ 52) in N.
  set (X := n ^ (2 ^ s)). assert (HX : 1 < X) by (unfold X; apply Z.pow_gt_1; lia).
  pose proof (Z.log2_up_spec X HX) as [L1 L2]. set (u := Z.log2_up X) in *.
  assert (Hu : 1 <= u) by (pose proof (Z.log2_up_pos X HX); lia).
  assert (U : (0 < Qpower 2 (-1074 * 2 ^ s))%Q) by (apply Qpower_0_lt; reflexivity).
  split.
  - replace (u - 1 - 1074 * 2 ^ s) with (Z.pred u + (-1074 * 2 ^ s)) by lia. rewrite Qpower_plus by discriminate.
    apply Qmult_lt_compat_r; [exact U|]. rewrite pow_Z by lia. now rewrite <- Zlt_Qlt.
  - replace (u - 1 - 1074 * 2 ^ s + 1) with (u + (-1074 * 2 ^ s)) by lia. rewrite Qpower_plus by discriminate.
    apply Qmult_le_compat_r; [|now apply Qlt_le_weak]. rewrite pow_Z by lia. now rewrite <- Zle_Qle.
Qed.

(** ** Consistency over all scales *)
Section Consistent.
Variable log_floor : Z -> Z -> Z.
Hypothesis C : log_consistent log_floor.
Lemma map_half s n : -9 <= s <= 20 -> is_double n ->
  map_to_index log_floor (s - 1) n = Z.shiftr (map_to_index log_floor s n) 1.
Proof.
  intros Hs D. destruct (Z_le_gt_dec 1 s); [apply C; auto; lia|]. unfold map_to_index.
  destruct (Z.leb_spec s 0); [|lia]. destruct (Z.leb_spec (s - 1) 0); [|lia]. apply exponent_shift; auto; lia.
Qed.
Lemma map_shift k : 0 <= k -> forall s n, -10 <= s - k -> s <= 20 -> is_double n ->
  map_to_index log_floor (s - k) n = Z.shiftr (map_to_index log_floor s n) k.
Proof.
  intros Hk. pattern k. apply natlike_ind; [| |exact Hk]; clear k Hk.
  - intros s n _ _ _. rewrite Z.sub_0_r, Z.shiftr_0_r. reflexivity.
  - intros k Hk IH s n H1 H2 D. replace (s - Z.succ k) with (s - k - 1) by lia. rewrite map_half by (auto; lia).
    rewrite IH by (auto; lia). rewrite Z.shiftr_shiftr by lia. f_equal.
Qed.
(** At the lowest scale there are two buckets. *)
Lemma map_lowest n : is_double n -> -1 <= map_to_index log_floor (-10) n <= 0.
Proof.
  intros D. unfold map_to_index. cbn [Z.leb Z.compare]. rewrite exponent_index_eq by (auto; lia).
  pose proof (level_range n D) as L. change (- -10) with 10.
  pose proof (shiftr_mono 10 (-1023) (level n) ltac:(lia) ltac:(lia)) as A.
  pose proof (shiftr_mono 10 (level n) 1023 ltac:(lia) ltac:(lia)) as B.
  change (Z.shiftr (-1023) 10) with (-1) in A. change (Z.shiftr 1023 10) with 0 in B. lia.
Qed.
End Consistent.
