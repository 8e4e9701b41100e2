(** Times in floating point. *)
From Coq Require Import String ZArith Reals Lra Lia List Bool Psatz.
From Flocq Require Import Core BinarySingleNaN.
From Verif Require Import Model_Str Model_Span Model_FloatExp Spec_Float Proof_Float Proof_FloatExp Spec_Times Proof_Calendar.
Import ListNotations.
Local Open Scope R_scope.

(** ** Rounding *)

Lemma bpow_format e : (-1074 <= e)%Z -> generic_format radix2 fe (bpow radix2 e).
Proof. intros H. change fe with (FLT_exp (-1074) 53). now apply generic_format_FLT_bpow. Qed.
Lemma rnd_err x e : (-1021 <= e)%Z -> Rabs x <= bpow radix2 e -> Rabs (rnd x - x) <= bpow radix2 (e - 54).
Proof.
  intros He Hx. destruct (Rle_lt_or_eq_dec _ _ Hx) as [L|E].
  - destruct (Req_dec x 0) as [->|Nz].
    { rewrite round_0 by typeclasses eauto. rewrite Rminus_0_r, Rabs_R0. apply bpow_ge_0. }
    apply Rle_trans with (1 := error_le_half_ulp radix2 fe (fun x => negb (Z.even x)) x).
    rewrite ulp_neq_0 by exact Nz. unfold cexp. pose proof (mag_le_bpow radix2 x e Nz L) as M.
    replace (e - 54)%Z with (-1 + (e - 53))%Z by lia. rewrite bpow_plus. change (bpow radix2 (-1)) with (/ 2).
    apply Rmult_le_compat_l; [lra|]. apply bpow_le. change (fe (mag radix2 x)) with (Z.max (mag radix2 x - 53) (-1074)). lia.
  - assert (F : generic_format radix2 fe x).
    { destruct (Rcase_abs x) as [N|P].
      - rewrite Rabs_left in E by exact N. replace x with (- bpow radix2 e) by lra. apply generic_format_opp, bpow_format. lia.
      - rewrite Rabs_right in E by exact P. rewrite E. apply bpow_format. lia. }
    rewrite round_generic by (try typeclasses eauto; exact F). rewrite Rminus_diag_eq by reflexivity. rewrite Rabs_R0. apply bpow_ge_0.
Qed.
Lemma rnd_le_bpow x e : (-1074 <= e)%Z -> Rabs x <= bpow radix2 e -> Rabs (rnd x) <= bpow radix2 e.
Proof. intros He H. apply abs_round_le_generic; try typeclasses eauto; [now apply bpow_format|exact H]. Qed.
Lemma rnd_mono x y : x <= y -> rnd x <= rnd y.
Proof. intros H. apply round_le; try typeclasses eauto. exact H. Qed.
Lemma rnd_pos x : 0 <= x -> 0 <= rnd x.
Proof. intros H. apply round_ge_generic; try typeclasses eauto; [apply generic_format_0|exact H]. Qed.
Lemma int_format z : (Z.abs z < 2 ^ 53)%Z -> generic_format radix2 fe (IZR z).
Proof. intros H. pose proof (format_small z 0 H ltac:(lia)) as F. unfold F2R in F. cbn [Fnum Fexp] in F. change (bpow radix2 0) with 1 in F. now rewrite Rmult_1_r in F. Qed.

Lemma fmul_R x y : is_finite x = true -> is_finite y = true -> Rabs (B2R x * B2R y) <= bpow radix2 1023 ->
  is_finite (fmul x y) = true /\ B2R (fmul x y) = rnd (B2R x * B2R y).
Proof.
  intros Hx Hy H. pose proof (Bmult_correct 53 1024 prec64 emax64 mode_NE x y) as C. cbv zeta in C.
  rewrite Rlt_bool_true in C.
  - destruct C as (C1 & C2 & _). split; [|exact C1]. unfold fmul. rewrite C2, Hx, Hy. reflexivity.
  - apply Rle_lt_trans with (bpow radix2 1023); [|apply bpow_lt; lia]. apply rnd_le_bpow; [lia|exact H].
Qed.
Lemma fdiv_R x y : is_finite x = true -> B2R y <> 0 -> Rabs (B2R x / B2R y) <= bpow radix2 1023 ->
  is_finite (fdiv x y) = true /\ B2R (fdiv x y) = rnd (B2R x / B2R y).
Proof.
  intros Hx Hy H. pose proof (Bdiv_correct 53 1024 prec64 emax64 mode_NE x y Hy) as C. cbv zeta in C.
  rewrite Rlt_bool_true in C.
  - destruct C as (C1 & C2 & _). split; [|exact C1]. unfold fdiv. rewrite C2. exact Hx.
  - apply Rle_lt_trans with (bpow radix2 1023); [|apply bpow_lt; lia]. apply rnd_le_bpow; [lia|exact H].
Qed.
Lemma fadd_R' x y : is_finite x = true -> is_finite y = true -> Rabs (B2R x + B2R y) <= bpow radix2 1023 ->
  is_finite (fadd x y) = true /\ B2R (fadd x y) = rnd (B2R x + B2R y).
Proof.
  intros Hx Hy H. pose proof (Bplus_correct 53 1024 prec64 emax64 mode_NE x y Hx Hy) as C. cbv zeta in C.
  rewrite Rlt_bool_true in C.
  - destruct C as (C1 & C2 & _). now split.
  - apply Rle_lt_trans with (bpow radix2 1023); [|apply bpow_lt; lia]. apply rnd_le_bpow; [lia|exact H].
Qed.
Lemma fsub_R' x y : is_finite x = true -> is_finite y = true -> Rabs (B2R x - B2R y) <= bpow radix2 1023 ->
  is_finite (fsub x y) = true /\ B2R (fsub x y) = rnd (B2R x - B2R y).
Proof.
  intros Hx Hy H. pose proof (Bminus_correct 53 1024 prec64 emax64 mode_NE x y Hx Hy) as C. cbv zeta in C.
  rewrite Rlt_bool_true in C.
  - destruct C as (C1 & C2 & _). now split.
  - apply Rle_lt_trans with (bpow radix2 1023); [|apply bpow_lt; lia]. apply rnd_le_bpow; [lia|exact H].
Qed.
Lemma small_bpow x e : (e <= 1023)%Z -> Rabs x <= bpow radix2 e -> Rabs x <= bpow radix2 1023.
Proof. intros He H. apply Rle_trans with (1 := H). now apply bpow_le. Qed.
Lemma norm_int z : (Z.abs z < 2 ^ 53)%Z -> is_finite (binary_normalize 53 1024 prec64 emax64 mode_NE z 0 false) = true
  /\ B2R (binary_normalize 53 1024 prec64 emax64 mode_NE z 0 false) = IZR z.
Proof.
  intros H. assert (E : F2R (Float radix2 z 0) = IZR z) by (unfold F2R; cbn [Fnum Fexp]; change (bpow radix2 0) with 1; lra).
  destruct (normalize_R z 0) as [A B].
  - now apply format_small.
  - rewrite E, <- abs_IZR. apply Rlt_trans with (bpow radix2 53); [|apply bpow_lt; lia].
    change (bpow radix2 53) with (IZR (2 ^ 53)). now apply IZR_lt.
  - split; [exact A|]. now rewrite B.
Qed.
Lemma f1e9_R : is_finite f1e9 = true /\ B2R f1e9 = 1000000000.
Proof. apply (norm_int 1000000000). lia. Qed.
Lemma f1e6_R : is_finite f1e6 = true /\ B2R f1e6 = 1000000.
Proof. apply (norm_int 1000000). lia. Qed.

(** ** Conversions *)

Lemma finite_cases {A} (f : pyfloat) (a b c : A) : is_finite f = true ->
  match f with B754_nan => a | B754_infinity _ => b | _ => c end = c.
Proof. destruct f; simpl; try discriminate; reflexivity. Qed.
Lemma int_of_R f : is_finite f = true -> int_of f = Ok (Ztrunc (B2R f)).
Proof.
  intros H. unfold int_of. assert (E : Btrunc f = Ztrunc (B2R f)).
  { apply eq_IZR. rewrite Btrunc_correct by exact emax64. now rewrite round_FIX_IZR. }
  rewrite <- E. destruct f; simpl in *; try discriminate; reflexivity.
Qed.
Lemma round_of_R f : is_finite f = true -> round_of f = Ok (ZnearestE (B2R f)).
Proof.
  intros H. unfold round_of.
  assert (E : Btrunc (Bnearbyint (prec_lt_emax_ := emax64) mode_NE f) = ZnearestE (B2R f)).
  { apply eq_IZR. rewrite Btrunc_correct by exact emax64. rewrite round_FIX_IZR.
    destruct (Bnearbyint_correct 53 1024 emax64 mode_NE f) as [N _]. rewrite N. cbn [round_mode]. rewrite round_FIX_IZR, Ztrunc_IZR. reflexivity. }
  rewrite <- E. destruct f; simpl in H; try discriminate; reflexivity.
Qed.
Lemma int_float z : Rabs (IZR z) <= bpow radix2 1023 -> exists f, float_of_int z = Some f /\ is_finite f = true /\ B2R f = rnd (IZR z).
Proof.
  intros H. unfold float_of_int. pose proof (binary_normalize_correct 53 1024 prec64 emax64 mode_NE z 0 false) as C. cbv zeta in C.
  assert (E : F2R (Float radix2 z 0) = IZR z) by (unfold F2R; cbn [Fnum Fexp]; change (bpow radix2 0) with 1; lra).
  rewrite E in C. rewrite Rlt_bool_true in C.
  - destruct C as (C1 & C2 & _). rewrite C2. eauto.
  - apply Rle_lt_trans with (bpow radix2 1023); [|apply bpow_lt; lia]. apply rnd_le_bpow; [lia|exact H].
Qed.
Lemma int_float_small z : (Z.abs z < 2 ^ 53)%Z -> exists f, float_of_int z = Some f /\ is_finite f = true /\ B2R f = IZR z.
Proof. intros H. unfold float_of_int. destruct (norm_int z H) as [A B]. rewrite A. eauto. Qed.

Lemma over_1e9_R z t : (0 <= z)%Z -> over_1e9 z = Ok t -> is_finite t = true /\ B2R t = rnd (rnd (IZR z) / 1000000000) /\ 0 <= B2R t.
Proof.
  intros Hz. unfold over_1e9. destruct (float_of_int z) as [f|] eqn:E; [|discriminate]. intros [= <-].
  destruct (conv_R _ _ E) as [Ff Rf]. destruct f1e9_R as [F9 R9].
  assert (P : 0 <= B2R f) by (rewrite Rf; apply rnd_pos; now apply IZR_le).
  destruct (fdiv_R f f1e9 Ff) as [Fd Rd].
  - rewrite R9. lra.
  - rewrite R9. pose proof (abs_B2R_lt_emax 53 1024 f) as B.
    assert (bpow radix2 1024 = 2 * bpow radix2 1023) as E2 by (change 1024%Z with (1 + 1023)%Z; now rewrite bpow_plus).
    rewrite E2 in B. rewrite Rabs_pos_eq in * by (try exact P; apply Rmult_le_pos; lra).
    pose proof (bpow_gt_0 radix2 1023). unfold Rdiv. lra.
  - split; [exact Fd|]. rewrite Rd, R9, Rf. split; [reflexivity|]. apply rnd_pos.
    assert (0 <= rnd (IZR z)) by (apply rnd_pos; now apply IZR_le). unfold Rdiv. lra.
Qed.

(** ** Seconds and microseconds *)

(** What [datetime.fromtimestamp] makes of [x] seconds, in microseconds *)
Definition micros (x : R) : Z := (Zfloor x * 10 ^ 6 + ZnearestE (rnd ((x - IZR (Zfloor x)) * 1000000)))%Z.
Lemma fraction_format x : 0 <= x -> generic_format radix2 fe x ->
  generic_format radix2 fe (IZR (Zfloor x)) /\ generic_format radix2 fe (x - IZR (Zfloor x)).
Proof.
  intros P G. change fe with (FLT_exp (-1074) 53) in G. apply FLT_format_generic in G; [|reflexivity].
  destruct G as [[m e] Ex Bm Be]. cbn [Fnum Fexp] in Bm, Be. change (radix2 ^ 53)%Z with (2 ^ 53)%Z in Bm.
  unfold F2R in Ex. cbn [Fnum Fexp] in Ex.
  assert (Pm : (0 <= m)%Z).
  { apply le_IZR. apply Rmult_le_reg_r with (bpow radix2 e); [apply bpow_gt_0|]. lra. }
  destruct (Z.leb_spec 0 e) as [E|E].
  - assert (Hi : x = IZR (m * 2 ^ e)).
    { rewrite Ex, mult_IZR. f_equal. change 2%Z with (radix_val radix2). now rewrite IZR_Zpower. }
    rewrite Hi, Zfloor_IZR, <- Hi. split.
    + rewrite Ex. apply (format_small m e Bm Be).
    + rewrite Rminus_diag_eq by reflexivity. apply generic_format_0.
  - set (k := (2 ^ (- e))%Z). assert (Hk : (0 < k)%Z) by (apply Z.pow_pos_nonneg; lia).
    assert (Hb : bpow radix2 e = / IZR k).
    { replace e with (- - e)%Z by lia. rewrite bpow_opp. f_equal. unfold k. change 2%Z with (radix_val radix2). rewrite IZR_Zpower by lia. f_equal. }
    assert (Hfl : Zfloor x = (m / k)%Z).
    { rewrite Ex, Hb. apply Zfloor_div. lia. }
    pose proof (Z.div_mod m k ltac:(lia)) as DM. pose proof (Z.mod_pos_bound m k Hk) as MB.
    split.
    + rewrite Hfl. apply int_format. pose proof (Z.div_pos m k Pm Hk). nia.
    + replace (x - IZR (Zfloor x)) with (F2R (Float radix2 (m mod k) e)).
      * apply format_small; [|exact Be]. pose proof (Z.mod_le m k Pm Hk). lia.
      * unfold F2R. cbn [Fnum Fexp]. rewrite Hfl, Ex, Hb. rewrite DM at 2. rewrite plus_IZR, mult_IZR. field. apply IZR_neq. lia.
Qed.
Lemma fraction_bounds x : 0 <= x - IZR (Zfloor x) < 1.
Proof. pose proof (Zfloor_lb x). pose proof (Zfloor_ub x). lra. Qed.
Lemma scaled_bounds x : 0 <= rnd ((x - IZR (Zfloor x)) * 1000000) <= 1000000.
Proof.
  pose proof (fraction_bounds x). split; [apply rnd_pos; lra|].
  apply round_le_generic; try typeclasses eauto; [apply (int_format 1000000); lia|]. lra.
Qed.
Lemma nearest_bounds r n : 0 <= r <= IZR n -> (0 <= ZnearestE r <= n)%Z.
Proof.
  intros [A B]. rewrite <- (Zrnd_IZR ZnearestE 0), <- (Zrnd_IZR ZnearestE n).
  split; apply Zrnd_le; try typeclasses eauto; assumption.
Qed.
Lemma to_timeval_R t : is_finite t = true -> 0 <= B2R t ->
  exists s us, to_timeval t = Ok (s, us) /\ (0 <= s)%Z /\ (0 <= us < 10 ^ 6)%Z /\ (s * 10 ^ 6 + us)%Z = micros (B2R t).
Proof.
  intros F P. unfold to_timeval. rewrite (int_of_R _ F). rewrite Ztrunc_floor by exact P.
  set (x := B2R t) in *. destruct (fraction_format x P (b2r_format t)) as [G1 G2].
  assert (Px : (0 <= Zfloor x)%Z) by (apply Zfloor_lub; exact P).
  pose proof (fraction_bounds x) as Bf. pose proof (scaled_bounds x) as Bs.
  assert (Hfr : exists fr, match float_of_int (Zfloor x) with Some f => fsub t f | None => t end = fr
                /\ is_finite fr = true /\ B2R fr = x - IZR (Zfloor x)).
  { destruct (float_of_int (Zfloor x)) as [f|] eqn:E.
    - destruct (conv_R _ _ E) as [Ff Rf]. rewrite round_generic in Rf by (try typeclasses eauto; exact G1).
      destruct (fsub_R' t f F Ff) as [Fs Rs].
      + fold x. rewrite Rf. apply small_bpow with 0%Z; [lia|]. change (bpow radix2 0) with 1. rewrite Rabs_pos_eq; lra.
      + exists (fsub t f). split; [reflexivity|]. split; [exact Fs|]. rewrite Rs. fold x. rewrite Rf. apply round_generic; [typeclasses eauto|exact G2].
    - exfalso. unfold float_of_int in E. pose proof (binary_normalize_correct 53 1024 prec64 emax64 mode_NE (Zfloor x) 0 false) as C. cbv zeta in C.
      assert (EE : F2R (Float radix2 (Zfloor x) 0) = IZR (Zfloor x)) by (unfold F2R; cbn [Fnum Fexp]; change (bpow radix2 0) with 1; lra).
      rewrite EE in C. cbn [round_mode] in C. rewrite round_generic in C by (try typeclasses eauto; exact G1).
      rewrite Rlt_bool_true in C.
      + destruct C as (_ & C2 & _). rewrite C2 in E. discriminate.
      + apply Rle_lt_trans with (Rabs x); [|apply abs_B2R_lt_emax]. rewrite !Rabs_pos_eq; [apply Zfloor_lb|exact P|apply IZR_le; exact Px]. }
  destruct Hfr as (fr & -> & Ffr & Rfr). destruct f1e6_R as [F6 R6].
  destruct (fmul_R fr f1e6 Ffr F6) as [Fm Rm].
  { rewrite Rfr, R6. apply small_bpow with 20%Z; [lia|]. change (bpow radix2 20) with 1048576. rewrite Rabs_pos_eq; lra. }
  rewrite (round_of_R _ Fm), Rm, Rfr, R6. unfold micros.
  pose proof (nearest_bounds _ 1000000 Bs) as Bn. set (us := ZnearestE (rnd ((x - IZR (Zfloor x)) * 1000000))) in *.
  destruct (Z.leb_spec (10 ^ 6) us) as [L|L]; eexists _, _; (split; [reflexivity|]); change (10 ^ 6)%Z with 1000000%Z in *; clear -L Bn Px; lia.
Qed.
Lemma micros_mono x y : x <= y -> (micros x <= micros y)%Z.
Proof.
  intros H. unfold micros. pose proof (Zfloor_le x y H) as Hf.
  pose proof (nearest_bounds _ 1000000 (scaled_bounds x)). pose proof (nearest_bounds _ 1000000 (scaled_bounds y)).
  destruct (Z.eq_dec (Zfloor x) (Zfloor y)) as [E|E]; [|lia].
  rewrite <- E. apply Zplus_le_compat_l. apply Zrnd_le; [typeclasses eauto|]. apply rnd_mono. lra.
Qed.
Lemma micros_scaled x : Rabs (rnd ((x - IZR (Zfloor x)) * 1000000) - (x - IZR (Zfloor x)) * 1000000) <= / 17179869184.
Proof.
  pose proof (fraction_bounds x). pose proof (rnd_err ((x - IZR (Zfloor x)) * 1000000) 20 ltac:(lia)) as E.
  change (bpow radix2 (20 - 54)) with (/ 17179869184) in E. apply E. change (bpow radix2 20) with 1048576. rewrite Rabs_pos_eq; lra.
Qed.
Lemma micros_near x n : Rabs (x * 1000000 - IZR n) < / 2 - / 17179869184 -> micros x = n.
Proof.
  intros H. unfold micros. pose proof (micros_scaled x) as E.
  replace (ZnearestE (rnd ((x - IZR (Zfloor x)) * 1000000))) with (n - Zfloor x * 10 ^ 6)%Z; [lia|].
  symmetry. apply Znearest_imp. rewrite minus_IZR, mult_IZR. change (IZR (10 ^ 6)) with 1000000.
  apply Rabs_def2 in H. apply Rabs_le_inv in E. apply Rabs_def1; lra.
Qed.
Lemma micros_err x : Rabs (IZR (micros x) - x * 1000000) <= / 2 + / 17179869184.
Proof.
  unfold micros. pose proof (micros_scaled x) as E. pose proof (Znearest_half (fun x => negb (Z.even x)) (rnd ((x - IZR (Zfloor x)) * 1000000))) as N.
  rewrite plus_IZR, mult_IZR. change (IZR (10 ^ 6)) with 1000000. apply Rabs_le_inv in E. apply Rabs_le_inv in N. apply Rabs_le. lra.
Qed.

(** ** Accuracy *)

Lemma until_R : IZR until_2106 = 4294967296000000000.
Proof. reflexivity. Qed.
Lemma seconds_err z : (0 <= z < until_2106)%Z -> exists t, over_1e9 z = Ok t /\ is_finite t = true /\ 0 <= B2R t <= bpow radix2 32
  /\ Rabs (B2R t * 1000000000 - IZR z) <= 256 + 1000000000 / 4194304.
Proof.
  intros [Hz Hb]. apply IZR_le in Hz. apply IZR_lt in Hb. rewrite until_R in Hb.
  pose proof (rnd_err (IZR z) 62 ltac:(lia)) as E1. change (bpow radix2 (62 - 54)) with 256 in E1. change (bpow radix2 62) with 4611686018427387904 in E1.
  rewrite (Rabs_pos_eq (IZR z)) in E1 by lra. specialize (E1 ltac:(lra)). apply Rabs_le_inv in E1.
  destruct (int_float z) as (f & Ef & _).
  { apply small_bpow with 62%Z; [lia|]. change (bpow radix2 62) with 4611686018427387904. rewrite Rabs_pos_eq; lra. }
  assert (Et : over_1e9 z = Ok (fdiv f f1e9)) by (unfold over_1e9; now rewrite Ef).
  destruct (over_1e9_R z _ ltac:(now apply le_IZR) Et) as (Ft & Rt & Pt).
  exists (fdiv f f1e9). split; [exact Et|]. split; [exact Ft|].
  assert (P1 : 0 <= rnd (IZR z) <= 4294967296000000000).
  { split; [apply rnd_pos; lra|]. apply round_le_generic; try typeclasses eauto; [|lra].
    replace 4294967296000000000 with (F2R (Float radix2 1953125 41)) by (unfold F2R; cbn; lra). apply format_small; cbn; lia. }
  set (q := rnd (IZR z) / 1000000000) in *. assert (Pq : 0 <= q <= bpow radix2 32).
  { change (bpow radix2 32) with 4294967296. unfold q. lra. }
  split.
  { rewrite Rt. split; [apply rnd_pos; lra|]. apply round_le_generic; try typeclasses eauto; [apply bpow_format; lia|lra]. }
  pose proof (rnd_err q 32 ltac:(lia)) as E2. rewrite (Rabs_pos_eq q) in E2 by lra. specialize (E2 ltac:(lra)).
  change (bpow radix2 (32 - 54)) with (/ 4194304) in E2. apply Rabs_le_inv in E2. rewrite Rt.
  assert (q * 1000000000 = rnd (IZR z)) as Eq by (unfold q; field). apply Rabs_le. lra.
Qed.
(** Printing *)
Theorem printed_ok ns : (0 <= ns < until_2106)%Z ->
  exists text us, ns_to_iso_str ns = Ok text /\ utc_instant text us /\ (Z.abs (us * 1000 - ns) < 1000)%Z /\ ((1000 | ns) -> us * 1000 = ns)%Z.
Proof.
  intros H. destruct (seconds_err ns H) as (t & Et & Ft & Pt & Bt).
  destruct (to_timeval_R t Ft (proj1 Pt)) as (s & us & Ev & Ps & Pu & Em).
  set (x := B2R t) in *. pose proof (micros_err x) as Ee. apply Rabs_le_inv in Ee. apply Rabs_le_inv in Bt.
  assert (Hm : (Z.abs (micros x * 1000 - ns) < 1000)%Z).
  { apply Z.abs_lt. split; apply lt_IZR; rewrite ?opp_IZR, minus_IZR, mult_IZR; lra. }
  destruct (utc_text_ex s us) as [text Etx].
  { assert (micros x <= 4294967296000001)%Z.
    { apply le_IZR. change (bpow radix2 32) with 4294967296 in Pt. lra. }
    lia. }
  exists text, (micros x). unfold ns_to_iso_str. rewrite Et, Ev, Etx. split; [reflexivity|].
  split; [rewrite <- Em; now apply utc_text_ok|]. split; [exact Hm|].
  intros [k ->]. assert (micros x = k); [|lia]. apply micros_near. rewrite mult_IZR in Bt. apply Rabs_def1; lra.
Qed.
(** Order *)
Theorem printed_mono a b ta tb ua ub : (0 <= a <= b)%Z -> ns_to_iso_str a = Ok ta -> ns_to_iso_str b = Ok tb ->
  utc_instant ta ua -> utc_instant tb ub -> (ua <= ub)%Z.
Proof.
  intros [H0 H] Ha Hb Ia Ib.
  assert (T : forall z text u, (0 <= z)%Z -> ns_to_iso_str z = Ok text -> utc_instant text u -> u = micros (rnd (rnd (IZR z) / 1000000000))).
  { intros z text u Hz E I. unfold ns_to_iso_str in E. destruct (over_1e9 z) as [t|] eqn:Et; [|discriminate].
    destruct (over_1e9_R z t Hz Et) as (Ft & Rt & Pt). destruct (to_timeval_R t Ft Pt) as (s & us & Ev & Ps & Pu & Em).
    rewrite Ev in E. rewrite Rt in Em. rewrite <- Em. apply (utc_instant_fun text); [exact I|]. now apply utc_text_ok. }
  rewrite (T a ta ua H0 Ha Ia), (T b tb ub ltac:(lia) Hb Ib). apply micros_mono, rnd_mono.
  apply IZR_le in H. apply rnd_mono in H. unfold Rdiv. lra.
Qed.
(** Seconds to nanoseconds *)
Lemma to_ns_R s : is_finite s = true -> 0 <= B2R s <= bpow radix2 32 ->
  exists ns, int_of (fmul s f1e9) = Ok ns /\ ns = Zfloor (rnd (B2R s * 1000000000)) /\ Rabs (IZR ns - B2R s * 1000000000) <= 257.
Proof.
  intros F P. change (bpow radix2 32) with 4294967296 in P. destruct f1e9_R as [F9 R9].
  assert (Pp : 0 <= B2R s * 1000000000 <= bpow radix2 62) by (change (bpow radix2 62) with 4611686018427387904; lra).
  destruct (fmul_R s f1e9 F F9) as [Fm Rm].
  { rewrite R9. apply small_bpow with 62%Z; [lia|]. rewrite Rabs_pos_eq; lra. }
  rewrite R9 in Rm. rewrite (int_of_R _ Fm), Rm. rewrite Ztrunc_floor by (apply rnd_pos; lra).
  eexists. split; [reflexivity|]. split; [reflexivity|].
  pose proof (rnd_err (B2R s * 1000000000) 62 ltac:(lia)) as E. change (bpow radix2 (62 - 54)) with 256 in E.
  rewrite (Rabs_pos_eq (B2R s * 1000000000)) in E by lra. specialize (E ltac:(lra)). apply Rabs_le_inv in E.
  pose proof (Zfloor_lb (rnd (B2R s * 1000000000))). pose proof (Zfloor_ub (rnd (B2R s * 1000000000))). apply Rabs_le. lra.
Qed.
Lemma float_exists r : generic_format radix2 fe r -> Rabs r < bpow radix2 1024 -> exists f : pyfloat, is_finite f = true /\ B2R f = r.
Proof.
  intros G B. change fe with (FLT_exp (-1074) 53) in G. apply FLT_format_generic in G; [|reflexivity].
  destruct G as [[m e] Ex Bm Be]. cbn [Fnum Fexp] in Bm, Be. destruct (normalize_R m e) as [F R].
  - now apply format_small.
  - now rewrite <- Ex.
  - eexists. split; [exact F|]. now rewrite R.
Qed.
Lemma rnd_nearest x f : is_finite f = true -> B2R f = rnd x -> nearest_float x f.
Proof.
  intros F R. split; [exact F|]. intros g _. rewrite R.
  destruct (round_N_pt radix2 fe (fun x => negb (Z.even x)) x) as [_ N]. apply N. apply b2r_format.
Qed.
Lemma nearest_err x f e : (-1021 <= e <= 1023)%Z -> nearest_float x f -> Rabs x <= bpow radix2 e -> Rabs (B2R f - x) <= bpow radix2 (e - 54).
Proof.
  intros He [_ N] H. destruct (float_exists (rnd x)) as (g & Fg & Rg).
  - apply generic_format_round; typeclasses eauto.
  - apply Rle_lt_trans with (bpow radix2 e); [apply rnd_le_bpow; [lia|exact H]|apply bpow_lt; lia].
  - specialize (N g Fg). rewrite Rg in N. apply Rle_trans with (1 := N). now apply rnd_err.
Qed.
Lemma nearest_range x f e : (-1021 <= e <= 1023)%Z -> nearest_float x f -> 0 <= x <= bpow radix2 e -> 0 <= B2R f <= bpow radix2 e.
Proof.
  intros He [Ff N] [H0 H].
  destruct (float_exists 0) as (g & Fg & Rg); [apply generic_format_0|rewrite Rabs_R0; apply bpow_gt_0|].
  destruct (float_exists (bpow radix2 e)) as (h & Fh & Rh);
    [apply bpow_format; lia|rewrite Rabs_pos_eq by apply bpow_ge_0; apply bpow_lt; lia|].
  pose proof (N g Fg) as Ng. pose proof (N h Fh) as Nh. rewrite Rg in Ng. rewrite Rh in Nh.
  rewrite (Rabs_left1 (0 - x)) in Ng by lra. rewrite (Rabs_pos_eq (bpow radix2 e - x)) in Nh by lra.
  apply Rabs_le_inv in Ng. apply Rabs_le_inv in Nh. lra.
Qed.
Theorem created_ok x f : 0 <= x < IZR until_2106 -> nearest_float (x / 1000000000) f ->
  exists ns, int_of (fmul f f1e9) = Ok ns /\ Rabs (IZR ns - x) < 500.
Proof.
  intros H N. rewrite until_R in H. assert (P : 0 <= x / 1000000000 <= bpow radix2 32) by (change (bpow radix2 32) with 4294967296; lra).
  pose proof (nearest_range _ _ 32 ltac:(lia) N P) as R. pose proof (nearest_err _ _ 32 ltac:(lia) N) as E.
  rewrite (Rabs_pos_eq (x / 1000000000)) in E by lra. specialize (E ltac:(lra)). change (bpow radix2 (32 - 54)) with (/ 4194304) in E.
  destruct (to_ns_R f (proj1 N) R) as (ns & En & _ & B). exists ns. split; [exact En|].
  apply Rabs_le_inv in E. apply Rabs_le_inv in B. apply Rabs_def1; lra.
Qed.
Theorem to_ns_mono a b na nb : is_finite a = true -> is_finite b = true -> 0 <= B2R a <= B2R b ->
  int_of (fmul a f1e9) = Ok na -> int_of (fmul b f1e9) = Ok nb -> (na <= nb)%Z.
Proof.
  intros Fa Fb [P H] Ea Eb. destruct f1e9_R as [F9 R9].
  assert (T : forall f n, is_finite f = true -> 0 <= B2R f -> int_of (fmul f f1e9) = Ok n -> n = Zfloor (rnd (B2R f * 1000000000))).
  { intros f n Ff Pf E. assert (Fm : is_finite (fmul f f1e9) = true) 
      by (clear - E; revert E; generalize (fmul f f1e9); intros p E; destruct p; [reflexivity|discriminate E|discriminate E|reflexivity]).
    rewrite (int_of_R _ Fm) in E. injection E as <-.
    pose proof (Bmult_correct 53 1024 prec64 emax64 mode_NE f f1e9) as C. cbv zeta in C. fold (fmul f f1e9) in C.
    destruct (Rlt_bool _ _) eqn:L.
    - destruct C as (C1 & _). rewrite C1, R9. cbn [round_mode]. apply Ztrunc_floor. apply rnd_pos. lra.
    - exfalso. generalize dependent (fmul f f1e9). intros p Fm C. clear - Fm C. destruct p; simpl in Fm, C; discriminate. }
  rewrite (T a na Fa P Ea), (T b nb Fb ltac:(lra) Eb). apply Zfloor_le, rnd_mono. lra.
Qed.
Theorem there_and_back ns : (0 <= ns < until_2106)%Z ->
  exists s ns', time_seconds_from_ns ns = Ok s /\ is_finite s = true /\ Rabs (B2R s * 1000000000 - IZR ns) < 500
    /\ time_seconds_to_ns s = Ok ns' /\ (Z.abs (ns' - ns) < 1000)%Z.
Proof.
  intros H. destruct (seconds_err ns H) as (t & Et & Ft & Pt & Bt). destruct (to_ns_R t Ft Pt) as (n & En & _ & Bn).
  exists t, n. repeat (split; [first [exact Et|exact Ft|exact En|apply Rabs_le_inv in Bt; apply Rabs_def1; lra]|]).
  apply Rabs_le_inv in Bt. apply Rabs_le_inv in Bn. apply Z.abs_lt. split; apply lt_IZR; rewrite ?opp_IZR, minus_IZR; lra.
Qed.
(** OpenCensus *)
Theorem message_ok zone text us : utc_instant text us -> (us * 1000 < until_2106)%Z ->
  let local := (zone (us / 10 ^ 6) * 10 ^ 6 + us mod 10 ^ 6)%Z in (0 <= local)%Z -> (local * 1000 < until_2106)%Z ->
  exists ns, oc_time_to_nanos zone text = Some ns /\ (Z.abs (ns - local * 1000) < 500)%Z.
Proof.
  intros I Hb local H0 Hl. destruct (strptime_ok _ _ I) as (s & u & Es & Eu & Bu).
  assert (Ed : (us / 10 ^ 6)%Z = s) by (rewrite Eu, Z.div_add_l by lia; rewrite Z.div_small by lia; lia).
  assert (Em : (us mod 10 ^ 6)%Z = u) by (rewrite Eu, Z.add_comm, Z.mod_add by lia; apply Z.mod_small; lia).
  unfold local in *. rewrite Ed, Em in *. set (z := zone s) in *. clear local.
  assert (Bz : (0 <= z < 2 ^ 32)%Z) by (unfold until_2106 in Hl; lia).
  unfold oc_time_to_nanos. rewrite Es. fold z.
  destruct (int_float_small z) as (a & -> & Fa & Ra); [lia|]. destruct (int_float_small u) as (b & -> & Fb & Rb); [lia|].
  destruct f1e6_R as [F6 R6]. destruct f1e9_R as [F9 R9].
  destruct Bu as [U0 U1]. apply IZR_le in U0. apply IZR_lt in U1. change (IZR (10 ^ 6)) with 1000000 in U1.
  destruct Bz as [Z0 Z1]. apply IZR_le in Z0. apply IZR_lt in Z1. change (IZR (2 ^ 32)) with 4294967296 in Z1.
  destruct (fdiv_R b f1e6 Fb) as [Fd Rd].
  { rewrite R6. lra. }
  { rewrite Rb, R6. apply small_bpow with 0%Z; [lia|]. change (bpow radix2 0) with 1. rewrite Rabs_pos_eq; lra. }
  rewrite Rb, R6 in Rd. set (q := IZR u / 1000000) in *.
  pose proof (rnd_err q 0 ltac:(lia)) as E1. change (bpow radix2 0) with 1 in E1. assert (Pq : 0 <= q < 1) by (unfold q; lra).
  rewrite (Rabs_pos_eq q) in E1 by lra. specialize (E1 ltac:(lra)). change (bpow radix2 (0 - 54)) with (/ 18014398509481984) in E1. apply Rabs_le_inv in E1.
  assert (Pq' : 0 <= rnd q <= 1).
  { split; [apply rnd_pos; lra|]. apply round_le_generic; try typeclasses eauto; [apply (int_format 1); lia|lra]. }
  assert (Hl' : IZR z + q < 4294967296).
  { apply IZR_lt in Hl. rewrite until_R, mult_IZR, plus_IZR, mult_IZR in Hl. change (IZR (10 ^ 6)) with 1000000 in Hl. unfold q. lra. }
  assert (Z1' : IZR z <= 4294967295) by (apply IZR_le; apply lt_IZR in Z1; lia).
  destruct (fadd_R' a (fdiv b f1e6) Fa Fd) as [Fs Rs].
  { rewrite Ra, Rd. apply small_bpow with 32%Z; [lia|]. change (bpow radix2 32) with 4294967296. rewrite Rabs_pos_eq; lra. }
  rewrite Ra, Rd in Rs. set (w := IZR z + rnd q) in *.
  pose proof (rnd_err w 32 ltac:(lia)) as E2. change (bpow radix2 32) with 4294967296 in E2. assert (Pw : 0 <= w <= 4294967296) by (unfold w; lra).
  rewrite (Rabs_pos_eq w) in E2 by lra. specialize (E2 ltac:(lra)). change (bpow radix2 (32 - 54)) with (/ 4194304) in E2. apply Rabs_le_inv in E2.
  assert (Pw' : 0 <= rnd w <= 4294967296).
  { split; [apply rnd_pos; lra|]. apply round_le_generic; try typeclasses eauto; [|lra]. change 4294967296 with (bpow radix2 32). apply bpow_format. lia. }
  destruct (fmul_R (fadd a (fdiv b f1e6)) f1e9 Fs F9) as [Fm Rm].
  { rewrite Rs, R9. apply small_bpow with 62%Z; [lia|]. change (bpow radix2 62) with 4611686018427387904. rewrite Rabs_pos_eq; lra. }
  rewrite Rs, R9 in Rm. set (v := rnd w * 1000000000) in *.
  pose proof (rnd_err v 62 ltac:(lia)) as E3. change (bpow radix2 62) with 4611686018427387904 in E3. assert (Pv : 0 <= v <= 4294967296000000000) by (unfold v; lra).
  rewrite (Rabs_pos_eq v) in E3 by lra. specialize (E3 ltac:(lra)). change (bpow radix2 (62 - 54)) with 256 in E3. apply Rabs_le_inv in E3.
  rewrite (round_of_R _ Fm), Rm. eexists. split; [reflexivity|].
  pose proof (Znearest_half (fun x => negb (Z.even x)) (rnd v)) as N. apply Rabs_le_inv in N.
  assert (EE : v = rnd w * 1000000000) by reflexivity. assert (EW : w = IZR z + rnd q) by reflexivity. assert (EQ : q * 1000000 = IZR u) by (unfold q; field).
  apply Z.abs_lt. split; apply lt_IZR; rewrite ?opp_IZR, minus_IZR, mult_IZR, plus_IZR, mult_IZR; change (IZR (10 ^ 6)) with 1000000; lra.
Qed.
