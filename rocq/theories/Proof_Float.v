From Coq Require Import ZArith Reals Lra Lia List Bool Psatz.
From Flocq Require Import Core BinarySingleNaN Relative Plus_error.
From Verif Require Import Model_FloatMetrics Spec_Float.
Import ListNotations.
Local Open Scope R_scope.

Notation fe := (SpecFloat.fexp 53 1024).
Notation rnd := (round radix2 fe ZnearestE).
#[export] Existing Instance prec64.
#[export] Existing Instance emax64.
#[export] Instance fe_valid : Valid_exp fe.
Proof. unfold Valid_exp. apply fexp_correct. reflexivity. Qed.
#[export] Instance fe_mono : Monotone_exp fe.
Proof. apply fexp_monotone. Qed.
Lemma fe_FLT : forall e, fe e = FLT_exp (-1074) 53 e.
Proof. reflexivity. Qed.
Lemma u_bpow : unit_roundoff = / 2 * bpow radix2 (-53 + 1).
Proof. unfold unit_roundoff. simpl. lra. Qed.
Lemma u_pos : 0 < unit_roundoff.
Proof. unfold unit_roundoff. apply Rinv_0_lt_compat. apply pow_lt. lra. Qed.
Lemma b2r_format (f : pyfloat) : generic_format radix2 fe (B2R f).
Proof. apply generic_format_B2R. Qed.

Lemma fadd_finite f g : is_finite (fadd f g) = true -> is_finite f = true /\ is_finite g = true.
Proof.
  destruct f as [s|s| |s m e H], g as [s'|s'| |s' m' e' H']; simpl; auto; try discriminate; destruct s; try destruct s'; simpl; discriminate.
Qed.
Lemma fsub_finite f g : is_finite (fsub f g) = true -> is_finite f = true /\ is_finite g = true.
Proof.
  destruct f as [s|s| |s m e H], g as [s'|s'| |s' m' e' H']; simpl; auto; try discriminate; destruct s; try destruct s'; simpl; discriminate.
Qed.
Lemma fadd_R f g : is_finite (fadd f g) = true -> B2R (fadd f g) = rnd (B2R f + B2R g).
Proof.
  intros F. destruct (fadd_finite _ _ F) as [Hf Hg].
  pose proof (Bplus_correct 53 1024 _ _ mode_NE f g Hf Hg) as C. cbv zeta in C.
  destruct (Rlt_bool _ _) eqn:E; [exact (proj1 C)|].
  exfalso. destruct C as [C _]. fold (fadd f g) in C. destruct (fadd f g); simpl in *; try discriminate.
Qed.
Lemma fsub_R f g : is_finite (fsub f g) = true -> B2R (fsub f g) = rnd (B2R f - B2R g).
Proof.
  intros F. destruct (fsub_finite _ _ F) as [Hf Hg].
  pose proof (Bminus_correct 53 1024 _ _ mode_NE f g Hf Hg) as C. cbv zeta in C.
  destruct (Rlt_bool _ _) eqn:E; [exact (proj1 C)|].
  exfalso. destruct C as [C _]. fold (fsub f g) in C. destruct (fsub f g); simpl in *; try discriminate.
Qed.
Lemma conv_R z f : float_of_int z = Some f -> is_finite f = true /\ B2R f = rnd (IZR z).
Proof.
  unfold float_of_int. pose proof (binary_normalize_correct 53 1024 _ _ mode_NE z 0 false) as C. cbv zeta in C.
  unfold prec64, emax64 in *.
  destruct (is_finite _) eqn:F; [|discriminate]. intros [= <-].
  split; [exact F|].
  destruct (Rlt_bool _ _) eqn:E.
  - destruct C as [C _]. etransitivity; [exact C|]. f_equal. unfold F2R. simpl. lra.
  - exfalso. destruct (binary_normalize _ _ _ _ _ _ _ _); simpl in *; discriminate.
Qed.
Lemma conv_err z f : float_of_int z = Some f -> exists e, Rabs e <= unit_roundoff /\ B2R f = IZR z * (1 + e).
Proof.
  intros H. destruct (conv_R _ _ H) as [_ ->].
  destruct (Z.eq_dec z 0) as [->|Nz].
  { exists 0. rewrite Rabs_R0. split; [apply Rlt_le, u_pos|]. rewrite round_0; [lra|typeclasses eauto]. }
  destruct (relative_error_N_FLT_ex radix2 (-1074) 53 eq_refl (fun x => negb (Z.even x)) (IZR z)) as (e & He & E).
  { apply Rle_trans with 1. - change 1 with (bpow radix2 0). apply bpow_le. lia.
    - rewrite <- abs_IZR. apply IZR_le. lia. }
  exists e. rewrite u_bpow. split; [exact He|exact E].
Qed.
Lemma add_err f g : is_finite (fadd f g) = true ->
  exists e, Rabs e <= unit_roundoff /\ B2R (fadd f g) = (B2R f + B2R g) * (1 + e).
Proof.
  intros F. rewrite (fadd_R _ _ F).
  destruct (@FLT_plus_error_N_ex radix2 (-1074) 53 eq_refl (fun x => negb (Z.even x)) _ _ (b2r_format f) (b2r_format g)) as (e & He & E).
  exists e. split; [|exact E]. eapply Rle_trans; [exact He|].
  change (u_ro radix2 53) with (/ 2 * bpow radix2 (-53 + 1)). rewrite <- u_bpow. pose proof u_pos as H.
  set (w := unit_roundoff) in *. clearbody w.
  apply Rmult_le_reg_r with (1 + w); [lra|]. unfold Rdiv. rewrite Rmult_assoc, Rinv_l by lra.
  assert (0 <= w * w) by (apply Rmult_le_pos; lra). lra.
Qed.

(** Approximation of a quantity [X] of size at most [W] after [n] roundings. *)
Definition growth (n : nat) : R := (1 + unit_roundoff) ^ n - 1.
Lemma growth_0 n : 0 <= growth n.
Proof. unfold growth. pose proof u_pos. assert (1 <= (1 + unit_roundoff) ^ n) by (apply pow_R1_Rle; lra). lra. Qed.
Lemma growth_le n m : (n <= m)%nat -> growth n <= growth m.
Proof. intros. unfold growth. pose proof u_pos. assert ((1 + unit_roundoff) ^ n <= (1 + unit_roundoff) ^ m) by (apply Rle_pow; [lra|assumption]). lra. Qed.
Definition approx (n : nat) (x X W : R) : Prop := Rabs X <= W /\ Rabs (x - X) <= growth n * W.
Lemma approx_le n m x X W : (n <= m)%nat -> approx n x X W -> approx m x X W.
Proof.
  intros L [A B]. split; [exact A|]. eapply Rle_trans; [exact B|]. apply Rmult_le_compat_r.
  - eapply Rle_trans; [apply Rabs_pos|exact A].
  - apply growth_le; exact L.
Qed.
Lemma approx_round n x X W e : approx n x X W -> Rabs e <= unit_roundoff -> approx (S n) (x * (1 + e)) X W.
Proof.
  intros [A B] He. split; [exact A|].
  replace (x * (1 + e) - X) with ((x - X) + (x - X) * e + X * e) by ring.
  eapply Rle_trans; [apply Rabs_triang|]. 
  assert (W0 : 0 <= W) by (eapply Rle_trans; [apply Rabs_pos|exact A]).
  assert (G : growth (S n) = growth n + growth n * unit_roundoff + unit_roundoff) by (unfold growth; simpl; ring).
  rewrite G. pose proof (growth_0 n) as Gn. pose proof u_pos as U.
  eapply Rle_trans. { apply Rplus_le_compat_r. apply Rabs_triang. }
  rewrite !Rabs_mult.
  replace ((growth n + growth n * unit_roundoff + unit_roundoff) * W)
    with (growth n * W + (growth n * W) * unit_roundoff + W * unit_roundoff) by ring.
  apply Rplus_le_compat; [apply Rplus_le_compat; [exact B|]|].
  - apply Rmult_le_compat; auto using Rabs_pos.
  - apply Rmult_le_compat; auto using Rabs_pos.
Qed.
Lemma approx_add n x X W y Y V : approx n x X W -> approx n y Y V -> approx n (x + y) (X + Y) (W + V).
Proof.
  intros [A B] [C D]. split.
  - eapply Rle_trans; [apply Rabs_triang|]. lra.
  - replace (x + y - (X + Y)) with ((x - X) + (y - Y)) by ring. eapply Rle_trans; [apply Rabs_triang|]. lra.
Qed.

(** A number that is a real number. *)
Lemma value_finite x r : is_real x r -> match x with NInt z => r = IZR z | NFloat f => is_finite f = true /\ r = B2R f end.
Proof. unfold is_real. destruct x as [z|[s|s| |s m e H]]; simpl; intros E; try discriminate E; try (destruct s; discriminate E); injection E as <-; auto. Qed.
Lemma finite_value f : is_finite f = true -> is_real (NFloat f) (B2R f).
Proof. unfold is_real. destruct f; simpl; try discriminate; auto. Qed.

Lemma to_float_approx x f r n X W : to_float x = Some f -> is_real x r -> approx n r X W ->
  is_finite f = true /\ approx (S n) (B2R f) X W.
Proof.
  intros T V A. apply value_finite in V. destruct x as [z|g]; simpl in *.
  - subst r. destruct (conv_R _ _ T) as [F _]. destruct (conv_err _ _ T) as (e & He & ->). split; [exact F|]. apply approx_round; assumption.
  - injection T as <-. destruct V as [F ->]. split; [exact F|]. apply (approx_le n); [lia|exact A].
Qed.
(** If a sum is a real number, so are the terms. *)
Lemma add_real x y s r : num_add x y = Some s -> is_real s r -> (exists a, is_real x a) /\ (exists b, is_real y b).
Proof.
  unfold num_add. intros E V.
  assert (H : forall f g, to_float x = Some f -> to_float y = Some g -> s = NFloat (fadd f g) -> (exists a, is_real x a) /\ (exists b, is_real y b)).
  { intros f g Hf Hg ->. apply value_finite in V. destruct V as [F _]. apply fadd_finite in F. destruct F as [F G]. split.
    - destruct x; simpl in *; [eexists; reflexivity|]. injection Hf as ->. eexists. apply finite_value. exact F.
    - destruct y; simpl in *; [eexists; reflexivity|]. injection Hg as ->. eexists. apply finite_value. exact G. }
  destruct x as [a|f], y as [b|g]; simpl in *.
  - split; eexists; reflexivity.
  - destruct (float_of_int a); [|discriminate]. injection E as <-. eapply H; reflexivity.
  - destruct (float_of_int b); [|discriminate]. injection E as <-. eapply H; reflexivity.
  - injection E as <-. eapply H; reflexivity.
Qed.
Lemma add_approx x y s r a b n X W Y V : num_add x y = Some s -> is_real s r -> is_real x a -> is_real y b ->
  approx n a X W -> approx n b Y V -> approx (2 + n) r (X + Y) (W + V).
Proof.
  intros E R1 Rx Ry Ax Ay.
  assert (H : forall f g, to_float x = Some f -> to_float y = Some g -> s = NFloat (fadd f g) -> approx (2 + n) r (X + Y) (W + V)).
  { intros f g Hf Hg ->. apply value_finite in R1. destruct R1 as [F ->].
    destruct (add_err _ _ F) as (e & He & ->).
    destruct (to_float_approx _ _ _ _ _ _ Hf Rx Ax) as [_ A1]. destruct (to_float_approx _ _ _ _ _ _ Hg Ry Ay) as [_ A2].
    change (2 + n)%nat with (S (S n)). apply approx_round; [|exact He]. apply approx_add; assumption. }
  unfold num_add in E. destruct x as [za|f], y as [zb|g]; simpl in *.
  - injection E as <-. apply value_finite in R1, Rx, Ry. simpl in *. subst. rewrite plus_IZR.
    apply (approx_le n); [lia|]. apply approx_add; assumption.
  - destruct (float_of_int za); [|discriminate]. injection E as <-. eapply H; reflexivity.
  - destruct (float_of_int zb); [|discriminate]. injection E as <-. eapply H; reflexivity.
  - injection E as <-. eapply H; reflexivity.
Qed.
