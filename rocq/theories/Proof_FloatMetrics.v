From Coq Require Import ZArith Reals Lra Lia List Bool.
From Flocq Require Import Core BinarySingleNaN.
From Verif Require Import Model_FloatMetrics Spec_Float Proof_Float.
Import ListNotations.
Local Open Scope R_scope.

(** ** Comparisons *)
Definition xcmp (a b : xreal) : comparison :=
  match a, b with
  | XNeg, XNeg => Eq | XNeg, _ => Lt | _, XNeg => Gt
  | XPos, XPos => Eq | XPos, _ => Gt | _, XPos => Lt
  | XReal x, XReal y => Rcompare x y
  end.
Lemma xcmp_lt a b : xcmp a b = Lt <-> xlt a b.
Proof.
  destruct a, b; simpl; try (split; [intros; discriminate|tauto]); try (split; auto; fail).
  split; [apply Rcompare_Lt_inv|apply Rcompare_Lt].
Qed.
Lemma xcmp_swap a b : xcmp b a = CompOpp (xcmp a b).
Proof. destruct a, b; simpl; auto. apply Rcompare_sym. Qed.
Lemma cmp_int_float_spec z f : cmp_int_float z f = option_map (xcmp (XReal (IZR z))) (value_of (NFloat f)).
Proof.
  destruct f as [s|s| |s m e H]; simpl; auto.
  - f_equal. rewrite <- Rcompare_IZR. reflexivity.
  - destruct s; reflexivity.
  - f_equal.
    set (M := if s then Zneg m else Zpos m).
    assert (EM : F2R (Float radix2 (SpecFloat.cond_Zopp s (Zpos m)) e) = IZR M * bpow radix2 e) by (unfold F2R; simpl; destruct s; reflexivity).
    rewrite EM. destruct (Z.leb_spec 0 e).
    + rewrite <- Rcompare_IZR, mult_IZR. f_equal. f_equal. symmetry. change 2%Z with (radix_val radix2). rewrite IZR_Zpower by assumption. reflexivity.
    + rewrite <- Rcompare_IZR, mult_IZR. change 2%Z with (radix_val radix2). rewrite IZR_Zpower by lia.
      rewrite <- (Rcompare_mult_r (bpow radix2 (- e)) (IZR z)) by apply bpow_gt_0.
      f_equal. rewrite Rmult_assoc, <- bpow_plus. replace (e + - e)%Z with 0%Z by lia. simpl (bpow _ 0). rewrite Rmult_1_r. reflexivity.
Qed.
Lemma num_cmp_spec x y : num_cmp x y =
  match value_of x, value_of y with Some a, Some b => Some (xcmp a b) | _, _ => None end.
Proof.
  destruct x as [a|f], y as [b|g]; unfold num_cmp.
  - simpl. rewrite Rcompare_IZR. reflexivity.
  - rewrite cmp_int_float_spec. destruct (value_of (NFloat g)); reflexivity.
  - rewrite cmp_int_float_spec. destruct (value_of (NFloat f)); [|reflexivity]. simpl option_map.
    change (value_of (NInt b)) with (Some (XReal (IZR b))). symmetry. apply (f_equal Some). apply (xcmp_swap (XReal (IZR b)) x).
  - destruct (is_finite f) eqn:Ff, (is_finite g) eqn:Fg.
    { rewrite Bcompare_correct by assumption. rewrite (finite_value f Ff), (finite_value g Fg). reflexivity. }
    all: destruct f as [s|s| |s m e H], g as [s'|s'| |s' m' e' H']; try discriminate; simpl; try destruct s; try destruct s'; reflexivity.
Qed.
Lemma ltb_less x y : num_ltb x y = true <-> less x y.
Proof.
  unfold num_ltb, less. rewrite num_cmp_spec. destruct (value_of x) as [a|], (value_of y) as [b|].
  - pose proof (xcmp_lt a b) as C. destruct (xcmp a b); split.
    1,5: discriminate. 2: intros _; exists a, b; repeat split; apply C; reflexivity. 2: reflexivity.
    all: intros (a' & b' & [= <-] & [= <-] & H); apply C in H; discriminate.
  - split; [discriminate|]. intros (? & ? & ? & [=] & ?).
  - split; [discriminate|]. intros (? & ? & [=] & ?).
  - split; [discriminate|]. intros (? & ? & [=] & ?).
Qed.
Lemma ltb_false x y : num_ltb x y = false <-> ~ less x y.
Proof. rewrite <- ltb_less. destruct (num_ltb x y); split; try congruence; intros H; exfalso; apply H; reflexivity. Qed.

(** ** Runs *)
Section Runs.
Context {A P : Type} (agg1 : A -> num -> A * bool) (col1 : A -> Z -> A * option (option P)) (k : ikind).
Lemma frun_app a h1 h2 :
  frun agg1 col1 k a (h1 ++ h2) =
  (fst (frun agg1 col1 k (fst (frun agg1 col1 k a h1)) h2),
   snd (frun agg1 col1 k a h1) ++ snd (frun agg1 col1 k (fst (frun agg1 col1 k a h1)) h2)).
Proof.
  revert a. induction h1 as [|c h1 IH]; intros a; simpl.
  - destruct (frun agg1 col1 k a h2); reflexivity.
  - destruct (fstep agg1 col1 k a c) as [a1 r]. rewrite IH. destruct (frun agg1 col1 k a1 h1) as [a2 rs]. simpl.
    destruct (frun agg1 col1 k a2 h2). reflexivity.
Qed.
Lemma frun_length a h : length (snd (frun agg1 col1 k a h)) = length h.
Proof.
  revert a. induction h as [|c h IH]; intros a; simpl; [reflexivity|].
  destruct (fstep agg1 col1 k a c) as [a1 r]. specialize (IH a1). destruct (frun agg1 col1 k a1 h). simpl in *. f_equal. exact IH.
Qed.
Lemma frun_nth a h i r : nth_error (snd (frun agg1 col1 k a h)) i = Some r ->
  exists c, nth_error h i = Some c /\ r = snd (fstep agg1 col1 k (fst (frun agg1 col1 k a (firstn i h))) c) /\
    firstn i (snd (frun agg1 col1 k a h)) = snd (frun agg1 col1 k a (firstn i h)).
Proof.
  revert a i. induction h as [|c h IH]; intros a i H; simpl in *.
  - destruct i; discriminate.
  - destruct i as [|i].
    + exists c. destruct (fstep agg1 col1 k a c) as [a1 r1] eqn:E. destruct (frun agg1 col1 k a1 h). simpl in *. rewrite E. simpl.
      injection H as <-. repeat split.
    + simpl. destruct (fstep agg1 col1 k a c) as [a1 r1] eqn:E. specialize (IH a1 i).
      destruct (frun agg1 col1 k a1 h) as [a2 rs]. simpl in *. destruct (IH H) as (c' & H1 & H2 & H3). exists c'.
      destruct (frun agg1 col1 k a1 (firstn i h)) as [a3 rs3]. simpl in *. repeat split; auto. f_equal. exact H3.
Qed.
End Runs.

(** ** The amounts that count *)
Fixpoint taken (k : ikind) (h : list fcall) : list num :=
  match h with
  | [] => []
  | FRead _ :: h' => taken k h'
  | FCall v :: h' => match foffered k v with Some v => v :: taken k h' | None => taken k h' end
  end.
Lemma offered_none k v : foffered k v = None <-> (k = ICounter \/ k = IHistogram) /\ less v (NInt 0).
Proof.
  unfold foffered. pose proof (ltb_less v (NInt 0)) as L.
  destruct k; try (split; [discriminate|intros [[|] ?]; discriminate]);
    destruct (num_ltb v (NInt 0)); split; auto; try discriminate.
  - intros _. split; [auto|apply L; reflexivity].
  - intros [_ H]. apply L in H. discriminate.
  - intros _. split; [auto|apply L; reflexivity].
  - intros [_ H]. apply L in H. discriminate.
Qed.
Lemma offered_some k v w : foffered k v = Some w -> w = v.
Proof. unfold foffered. destruct k; try congruence; destruct (num_ltb v (NInt 0)); congruence. Qed.
Lemma counts_taken k h l : counts_for k h l <-> l = taken k h.
Proof.
  split.
  - intros H. induction H as [|now h l H IH|v h l Hk Hl H IH|v h l Hn H IH]; simpl; auto.
    + assert (E : foffered k v = None) by (apply offered_none; auto). rewrite E. exact IH.
    + destruct (foffered k v) as [w|] eqn:E; [rewrite (offered_some _ _ _ E); f_equal; exact IH|].
      apply offered_none in E. contradiction.
  - revert l. induction h as [|[v|now] h IH]; intros l ->; simpl.
    + constructor.
    + destruct (foffered k v) as [w|] eqn:E.
      * rewrite (offered_some _ _ _ E). constructor; [|apply IH; reflexivity]. rewrite <- offered_none. congruence.
      * apply offered_none in E. destruct E. constructor; auto.
    + constructor. apply IH. reflexivity.
Qed.
Lemma taken_app k h1 h2 : taken k (h1 ++ h2) = taken k h1 ++ taken k h2.
Proof. induction h1 as [|[v|now] h1 IH]; simpl; auto. destruct (foffered k v); simpl; rewrite IH; reflexivity. Qed.

(** ** Accuracy *)
Definition good (n : nat) (x : num) (l : list num) : Prop :=
  forall r, is_real x r -> exists rs, Forall2 is_real l rs /\ approx n r (rsum rs) (rsum (map Rabs rs)).
Lemma rsum_app l m : rsum (l ++ m) = rsum l + rsum m.
Proof. induction l as [|x l IH]; simpl; [lra|]. rewrite IH. lra. Qed.
Lemma good_le n m x l : (n <= m)%nat -> good n x l -> good m x l.
Proof. intros L G r H. destruct (G r H) as (rs & F & A). exists rs. split; [exact F|]. apply (approx_le n); assumption. Qed.
Lemma good_0 n : good n (NInt 0) [].
Proof.
  intros r H. apply value_finite in H. simpl in H. subst r. exists []. split; [constructor|].
  split; simpl; [rewrite Rabs_R0; lra|]. rewrite Rminus_0_r, Rabs_R0. lra.
Qed.
Lemma good_1 v : good 0 v [v].
Proof.
  intros r H. exists [r]. split; [constructor; [exact H|constructor]|]. simpl. rewrite !Rplus_0_r. split; [lra|].
  rewrite Rminus_diag_eq by reflexivity. rewrite Rabs_R0. unfold growth. simpl. lra.
Qed.
Lemma good_add n x y s l m : num_add x y = Some s -> good n x l -> good n y m -> good (2 + n) s (m ++ l) /\ good (2 + n) s (l ++ m).
Proof.
  intros E G1 G2. split; intros r H; destruct (add_real _ _ _ _ E H) as [[a Ra] [b Rb]];
    destruct (G1 a Ra) as (rs & F1 & A1); destruct (G2 b Rb) as (ts & F2 & A2); pose proof (add_approx _ _ _ _ _ _ _ _ _ _ _ E H Ra Rb A1 A2) as A3.
  - exists (ts ++ rs). split; [apply Forall2_app; assumption|]. rewrite map_app, !rsum_app.
    rewrite (Rplus_comm (rsum ts)), (Rplus_comm (rsum (map Rabs ts))). exact A3.
  - exists (rs ++ ts). split; [apply Forall2_app; assumption|]. rewrite map_app, !rsum_app. exact A3.
Qed.

Definition fval (a : fsum) : num := match fs_value a with None => NInt 0 | Some x => x end.
Lemma since_app_call h v : since_read (h ++ [FCall v]) = since_read h ++ [FCall v].
Proof.
  induction h as [|c h IH]; [reflexivity|]. simpl app. cbn [since_read]. rewrite existsb_app. simpl. rewrite orb_false_r.
  destruct (existsb is_read h); [exact IH|]. destruct (is_read c); reflexivity.
Qed.
Lemma since_app_read h now : since_read (h ++ [FRead now]) = [].
Proof.
  induction h as [|c h IH]; [reflexivity|]. simpl app. cbn [since_read]. rewrite existsb_app. simpl. rewrite orb_true_r. exact IH.
Qed.
Lemma instr_sync k : synchronous k = true -> instr_temporality k = DELTA.
Proof. unfold instr_temporality. intros ->. reflexivity. Qed.
Lemma instr_async k : synchronous k = false -> instr_temporality k = CUMULATIVE.
Proof. unfold instr_temporality. intros ->. reflexivity. Qed.

Lemma collect_sync a t now : fs_instr a = DELTA ->
  fsum_collect a t now =
  if is_delta t then
    (FSum (fs_attrs a) (fs_instr a) (fs_start a) None now (fs_prev a),
     Some (option_map (fun v => FP (fs_attrs a) (Some (fs_prev_start a)) now v) (fs_value a)))
  else
    match num_add (fval a) (fs_prev a) with
    | Some prev => (FSum (fs_attrs a) (fs_instr a) (fs_start a) None (fs_prev_start a) prev,
                    Some (Some (FP (fs_attrs a) (Some (fs_start a)) now prev)))
    | None => (FSum (fs_attrs a) (fs_instr a) (fs_start a) None (fs_prev_start a) (fs_prev a), None)
    end.
Proof. intros H. unfold fsum_collect, fval. rewrite H. cbn [is_delta]. destruct (is_delta t), (fs_value a); reflexivity. Qed.
Lemma aggregate_eq a v :
  fsum_aggregate a v =
  (FSum (fs_attrs a) (fs_instr a) (fs_start a) (Some (match num_add (fval a) v with Some x => x | None => fval a end)) (fs_prev_start a) (fs_prev a),
   match num_add (fval a) v with Some _ => false | None => true end).
Proof. unfold fsum_aggregate, fval. destruct (num_add _ _); reflexivity. Qed.
Section Sum.
Variable k : ikind.
Hypothesis Sy : synchronous k = true.
Variables (t : temporality) (attrs : mattrs) (start : Z).
Notation run h := (frun fsum_aggregate (fun a now => fsum_collect a t now) k (fsum_new attrs (instr_temporality k) start) h).
Lemma run_snoc h c : run (h ++ [c]) =
  (fst (fstep fsum_aggregate (fun a now => fsum_collect a t now) k (fst (run h)) c),
   snd (run h) ++ [snd (fstep fsum_aggregate (fun a now => fsum_collect a t now) k (fst (run h)) c)]).
Proof. rewrite frun_app. cbn [frun]. destruct (fstep _ _ k (fst (run h)) c). reflexivity. Qed.
Lemma sum_instr h : fs_instr (fst (run h)) = DELTA.
Proof.
  induction h as [|c h IH] using rev_ind; [simpl; apply instr_sync; exact Sy|].
  rewrite run_snoc. cbn [fst]. destruct c as [v|now]; cbn [fstep].
  - destruct (foffered k v); [|exact IH]. rewrite aggregate_eq. exact IH.
  - rewrite collect_sync by exact IH. destruct (is_delta t); [exact IH|]. destruct (num_add _ _); exact IH.
Qed.
Definition before_read (h : list fcall) : list fcall := firstn (length h - length (since_read h)) h.
(** What is known after a history without OverflowError: the value is about the amounts since the last collection, and the
    previous value about those before it (with cumulative temporality). *)
Lemma sum_good h : ~ In FOverflow (snd (run h)) ->
  exists old, taken k h = old ++ taken k (since_read h) /\
    good (2 * length h) (fval (fst (run h))) (taken k (since_read h)) /\
    (is_delta t = false -> good (2 * length h) (fs_prev (fst (run h))) old).
Proof.
  induction h as [|c h IH] using rev_ind; intros N.
  - exists []. repeat split; auto using good_0.
  - rewrite run_snoc in *. cbn [fst snd] in *.
    destruct IH as (old & E & G1 & G2). { intros X. apply N. apply in_or_app. auto. }
    assert (N1 : snd (fstep fsum_aggregate (fun a now => fsum_collect a t now) k (fst (run h)) c) <> FOverflow).
    { intros X. apply N. apply in_or_app. right. left. exact X. }
    pose proof (sum_instr h) as Ti. rewrite taken_app, app_length. simpl length.
    assert (L : (2 * length h <= 2 * (length h + 1))%nat) by lia.
    destruct c as [v|now]; cbn [fstep] in N1 |- *.
    + rewrite since_app_call, taken_app. simpl taken.
      destruct (foffered k v) as [w|] eqn:O.
      2:{ exists old. rewrite !app_nil_r. repeat split; auto; [eapply good_le; eauto|intros D; eapply good_le; eauto]. }
      rewrite aggregate_eq in *.
      destruct (num_add (fval (fst (run h))) w) as [x|] eqn:Ad; [|cbn in N1; congruence].
      exists old. rewrite E, <- app_assoc. split; [reflexivity|]. split.
      * cbn [fval fs_value fst]. apply (good_le (2 + 2 * length h)); [lia|].
        eapply good_add; [exact Ad|exact G1|]. eapply good_le; [|apply good_1]. lia.
      * intros D. simpl. eapply good_le; [exact L|]. apply G2. exact D.
    + rewrite since_app_read. simpl taken. rewrite !app_nil_r.
      rewrite collect_sync in * by exact Ti. destruct (is_delta t) eqn:D.
      * exists (taken k h). rewrite app_nil_r. repeat split; auto using good_0. discriminate.
      * destruct (num_add (fval (fst (run h))) (fs_prev (fst (run h)))) as [x|] eqn:Ad; [|simpl in N1; congruence].
        exists (taken k h). rewrite app_nil_r. split; [reflexivity|]. split; [apply good_0|].
        intros _. cbn [fst fs_prev]. apply (good_le (2 + 2 * length h)); [lia|]. rewrite E.
        exact (proj1 (good_add _ _ _ _ _ _ Ad G1 (G2 eq_refl))).
Qed.
Theorem sum_accuracy h i p r l :
  nth_error (snd (run h)) i = Some (FPoint (Some p)) -> ~ In FOverflow (firstn i (snd (run h))) -> is_real (fp_value p) r ->
  counts_for k (if is_delta t then since_read (firstn i h) else firstn i h) l ->
  exists rs, Forall2 is_real l rs /\ Rabs (r - rsum rs) <= ((1 + unit_roundoff) ^ (2 * S i) - 1) * rsum (map Rabs rs).
Proof.
  intros Hi N Hr C. destruct (frun_nth _ _ _ _ _ _ _ Hi) as (c & Hc & Hp & Hf). rewrite Hf in N.
  assert (Li : length (firstn i h) = i).
  { apply firstn_length_le. assert (i < length h)%nat by (apply nth_error_Some; congruence). lia. }
  destruct (sum_good _ N) as (old & E & G1 & G2). rewrite Li in *. apply counts_taken in C. subst l.
  destruct c as [v|now].
  { exfalso. cbn [fstep] in Hp. destruct (foffered k v); [|discriminate]. rewrite aggregate_eq in Hp. destruct (num_add _ _); discriminate. }
  cbn [fstep] in Hp. rewrite collect_sync in Hp by apply sum_instr.
  destruct (is_delta t).
  - unfold fval in G1. destruct (fs_value _) as [x|]; [|discriminate]. injection Hp as ->. simpl in Hr.
    destruct (G1 r Hr) as (rs & F & [_ A]). exists rs. split; [exact F|].
    eapply Rle_trans; [exact A|]. apply Rmult_le_compat_r.
    + clear. induction rs; simpl; [lra|]. pose proof (Rabs_pos a). lra.
    + apply growth_le. lia.
  - destruct (num_add _ _) as [x|] eqn:Ad; [|discriminate]. injection Hp as ->. simpl in Hr.
    rewrite E. destruct (good_add _ _ _ _ _ _ Ad G1 (G2 eq_refl)) as [G _]. destruct (G r Hr) as (rs & F & [_ A]).
    exists rs. split; [exact F|]. replace (2 * S i)%nat with (2 + 2 * i)%nat by lia. exact A.
Qed.
End Sum.

(** ** A counter never goes down *)
Definition nonneg (x : num) : Prop := forall a, value_of x = Some a -> xle (XReal 0) a.
Lemma xle_refl a : xle a a.
Proof. left. reflexivity. Qed.
Lemma xle_trans a b c : xle a b -> xle b c -> xle a c.
Proof.
  intros [->|H1] [->|H2]; [left; reflexivity|right; assumption|right; assumption|right].
  destruct a, b, c; simpl in *; auto; try contradiction. lra.
Qed.
Lemma at_most_refl x : at_most x x.
Proof. intros b H. exists b. split; [exact H|apply xle_refl]. Qed.
Lemma at_most_trans x y z : at_most x y -> at_most y z -> at_most x z.
Proof. intros A B c H. destruct (B c H) as (b & Hb & L). destruct (A b Hb) as (a & Ha & L'). exists a. split; [exact Ha|eapply xle_trans; eauto]. Qed.
Lemma xle_R a b : xle (XReal a) (XReal b) <-> a <= b.
Proof. unfold xle. simpl. split; [intros [[= ->]|]; lra|]. intros [H| ->]; auto. Qed.
Lemma sign_neg (f : pyfloat) : is_finite f = true -> Bsign f = true -> B2R f <= 0.
Proof.
  destruct f as [s|s| |s m e H]; simpl; intros F S; try discriminate; [lra|]. subst s. simpl.
  apply F2R_le_0. simpl. lia.
Qed.
Lemma fadd_mono f g : nonneg (NFloat f) -> at_most (NFloat g) (NFloat (fadd f g)).
Proof.
  intros Nf b Hb.
  destruct (is_finite f) eqn:Ff.
  2:{ destruct f as [s|s| |s m e H]; try discriminate.
      specialize (Nf _ eq_refl). simpl in Nf. destruct s; [destruct Nf as [[=]|[]]|].
      destruct g as [s'|s'| |s' m' e' H']; try destruct s'; simpl in Hb; try discriminate; injection Hb as <-;
        eexists; (split; [reflexivity|]); try (right; exact I); apply xle_refl. }
  destruct (is_finite g) eqn:Fg.
  2:{ destruct g as [s|s| |s m e H]; try discriminate.
      - destruct f as [s'|s'| |s' m' e' H']; try discriminate; simpl in Hb; injection Hb as <-; eexists; (split; [reflexivity|apply xle_refl]).
      - destruct f as [s'|s'| |s' m' e' H']; simpl in Hb; discriminate. }
  assert (f0 : 0 <= B2R f). { apply xle_R. apply Nf. apply finite_value. exact Ff. }
  pose proof (Bplus_correct 53 1024 _ _ mode_NE f g Ff Fg) as C. cbv zeta in C. fold (fadd f g) in C.
  exists (XReal (B2R g)). split; [apply finite_value; exact Fg|].
  assert (G : B2R g <= rnd (B2R f + B2R g)).
  { apply round_ge_generic; [typeclasses eauto|typeclasses eauto|apply b2r_format|lra]. }
  destruct (Rlt_bool_spec (Rabs (round radix2 (SpecFloat.fexp 53 1024) (round_mode mode_NE) (B2R f + B2R g))) (bpow radix2 1024)) as [Lt|Ge].
  - destruct C as (C1 & C2 & _). rewrite (finite_value _ C2) in Hb. injection Hb as <-. apply xle_R. rewrite C1. exact G.
  - destruct C as [C1 C2]. unfold binary_overflow in C1. simpl in C1.
    destruct (fadd f g) as [s|s| |s m e H] eqn:E; try discriminate. simpl in C1. injection C1 as ->.
    simpl in Hb. destruct (Bsign f) eqn:Sf.
    + exfalso. pose proof (sign_neg f Ff Sf). pose proof (sign_neg g Fg (eq_sym C2)).
      assert (H1 : B2R f + B2R g = B2R g) by lra. rewrite H1 in Ge. 
      rewrite round_generic in Ge; [|typeclasses eauto|apply b2r_format].
      pose proof (abs_B2R_lt_emax 53 1024 g) as Hg. lra.
    + injection Hb as <-. right. exact I.
Qed.
Lemma conv_nonneg z f : float_of_int z = Some f -> (0 <= z)%Z -> nonneg (NFloat f).
Proof.
  intros H L a Ha. destruct (conv_R _ _ H) as [F E]. rewrite (finite_value _ F) in Ha. injection Ha as <-. apply xle_R. rewrite E.
  apply round_ge_generic; [typeclasses eauto|typeclasses eauto|apply generic_format_0|]. apply IZR_le. exact L.
Qed.
Lemma conv_exact z f : float_of_int z = Some f -> (Z.abs z <= 2 ^ 53)%Z -> B2R f = IZR z.
Proof.
  intros H L. destruct (conv_R _ _ H) as [_ ->]. apply round_generic; [typeclasses eauto|].
  destruct (Z.eq_dec (Z.abs z) (2 ^ 53)) as [E|N].
  - assert (X : IZR z = bpow radix2 53 \/ IZR z = - bpow radix2 53).
    { change (bpow radix2 53) with (IZR (2 ^ 53)). rewrite <- opp_IZR. destruct (Z.abs_eq_or_opp z) as [A|A]; [left|right]; f_equal; lia. }
    destruct X as [->| ->]; [|apply generic_format_opp]; apply generic_format_bpow; vm_compute; discriminate.
  - apply generic_format_FLT. exists (Float radix2 z 0).
    + unfold F2R. simpl. ring.
    + change (Z.abs z < 2 ^ 53)%Z. lia.
    + vm_compute. discriminate.
Qed.
Lemma to_float_nonneg x f : to_float x = Some f -> nonneg x -> nonneg (NFloat f).
Proof.
  destruct x as [z|g]; simpl; intros H N; [|injection H as <-; exact N]. apply (conv_nonneg z); [exact H|].
  apply le_IZR. apply xle_R. apply N. reflexivity.
Qed.
Lemma add_mono v x s : num_add v x = Some s -> nonneg v -> (forall z, x = NInt z -> (Z.abs z <= 2 ^ 53)%Z) -> at_most x s.
Proof.
  intros E N B.
  assert (X : forall f g, to_float v = Some f -> to_float x = Some g -> at_most x (NFloat (fadd f g))).
  { intros f g Hf Hg. apply (at_most_trans _ (NFloat g)); [|apply fadd_mono; eapply to_float_nonneg; eauto].
    destruct x as [z|g']; simpl in Hg; [|injection Hg as <-; apply at_most_refl].
    destruct (conv_R _ _ Hg) as [F _]. intros b Hb. rewrite (finite_value _ F) in Hb. injection Hb as <-.
    eexists. split; [reflexivity|]. rewrite (conv_exact _ _ Hg (B _ eq_refl)). apply xle_refl. }
  unfold num_add in E. destruct v as [a|f], x as [z|g]; cbn [to_float] in E.
  - injection E as <-. intros b Hb. injection Hb as <-. eexists. split; [reflexivity|]. apply xle_R. apply IZR_le.
    specialize (N _ eq_refl). apply xle_R in N. apply le_IZR in N. lia.
  - destruct (float_of_int a) eqn:Ea; [|discriminate]. injection E as <-. eapply X; [exact Ea|reflexivity].
  - destruct (float_of_int z) eqn:Ea; [|discriminate]. injection E as <-. eapply X; [reflexivity|exact Ea].
  - injection E as <-. eapply X; reflexivity.
Qed.
Lemma nonneg_up x y : nonneg x -> at_most x y -> nonneg y.
Proof. intros N A b Hb. destruct (A b Hb) as (a & Ha & L). eapply xle_trans; [apply N; exact Ha|exact L]. Qed.
Lemma add_nonneg x y s : num_add x y = Some s -> nonneg x -> nonneg y -> nonneg s.
Proof.
  intros E N1 N2.
  assert (X : forall f g, to_float x = Some f -> to_float y = Some g -> nonneg (NFloat (fadd f g))).
  { intros f g Hf Hg. apply (nonneg_up (NFloat g)); [eapply to_float_nonneg; eauto|]. apply fadd_mono. eapply to_float_nonneg; eauto. }
  unfold num_add in E. destruct x as [a|f], y as [z|g]; cbn [to_float] in E.
  - injection E as <-. intros b Hb. injection Hb as <-. apply xle_R. rewrite plus_IZR.
    specialize (N1 _ eq_refl). specialize (N2 _ eq_refl). apply xle_R in N1, N2. lra.
  - destruct (float_of_int a) eqn:Ea; [|discriminate]. injection E as <-. eapply X; [exact Ea|reflexivity].
  - destruct (float_of_int z) eqn:Ea; [|discriminate]. injection E as <-. eapply X; [reflexivity|exact Ea].
  - injection E as <-. eapply X; reflexivity.
Qed.
Lemma offered_nonneg v w : foffered ICounter v = Some w -> w = v /\ nonneg v.
Proof.
  unfold foffered. destruct (num_ltb v (NInt 0)) eqn:L; [discriminate|]. intros [= <-]. split; [reflexivity|].
  apply ltb_false in L. intros a Ha. destruct a as [|r|]; [|apply xle_R|right; exact I].
  - exfalso. apply L. exists XNeg, (XReal 0). repeat split. exact Ha.
  - apply Rnot_lt_le. intros X. apply L. exists (XReal r), (XReal 0). repeat split; [exact Ha|exact X].
Qed.
Definition ti (x : num) : Z := match x with NInt z => z | _ => 0%Z end.
Lemma ti_nonneg x : nonneg x -> (0 <= ti x)%Z.
Proof. destruct x as [z|]; simpl; [|lia]. intros N. specialize (N _ eq_refl). apply xle_R in N. apply le_IZR in N. exact N. Qed.
Lemma ti_add x y s : num_add x y = Some s -> nonneg x -> nonneg y -> (ti s <= ti x + ti y)%Z.
Proof.
  intros E N1 N2. apply ti_nonneg in N1, N2. unfold num_add in E. destruct x as [a|f], y as [z|g]; cbn [to_float] in E.
  - injection E as <-. simpl. lia.
  - destruct (float_of_int a); [|discriminate]. injection E as <-. simpl in *. lia.
  - destruct (float_of_int z); [|discriminate]. injection E as <-. simpl in *. lia.
  - injection E as <-. simpl. lia.
Qed.
Lemma int_total_app h1 h2 : int_total (h1 ++ h2) = (int_total h1 + int_total h2)%Z.
Proof. induction h1 as [|[[z|f]|now] h1 IH]; simpl; rewrite ?IH; lia. Qed.
Lemma int_total_0 h : (0 <= int_total h)%Z.
Proof. induction h as [|[[z|f]|now] h1 IH]; simpl; lia. Qed.
Lemma int_total_firstn n h : (int_total (firstn n h) <= int_total h)%Z.
Proof. rewrite <- (firstn_skipn n h) at 2. rewrite int_total_app. pose proof (int_total_0 (skipn n h)). lia. Qed.

Section Counter.
Variables (attrs : mattrs) (start : Z).
Notation col := (fun a now => fsum_collect a CUMULATIVE now).
Notation run h := (frun fsum_aggregate col ICounter (fsum_new attrs (instr_temporality ICounter) start) h).
Lemma counter_instr h : fs_instr (fst (run h)) = DELTA.
Proof. apply sum_instr. reflexivity. Qed.
Lemma counter_inv h : nonneg (fval (fst (run h))) /\ nonneg (fs_prev (fst (run h))) /\
  (ti (fval (fst (run h))) + ti (fs_prev (fst (run h))) <= int_total h)%Z.
Proof.
  assert (Z0 : nonneg (NInt 0)). { intros a Ha. injection Ha as <-. apply xle_refl. }
  induction h as [|c h (I1 & I2 & I3)] using rev_ind; [repeat split; auto; simpl; lia|].
  rewrite run_snoc by reflexivity. cbn [fst]. pose proof (counter_instr h) as Ti. rewrite int_total_app.
  destruct c as [v|now]; cbn [fstep].
  - destruct (foffered ICounter v) as [w|] eqn:O.
    2:{ cbn [fst]. pose proof (int_total_0 [FCall v]). repeat split; auto. lia. }
    apply offered_nonneg in O. destruct O as [-> Nv]. rewrite aggregate_eq. cbn [fst]. cbn [fval fs_value fs_prev].
    destruct (num_add (fval (fst (run h))) v) as [x|] eqn:Ad.
    + split; [|split]; auto.
      * eapply add_nonneg; eauto.
      * pose proof (ti_add _ _ _ Ad I1 Nv). assert (T : (ti v <= int_total [FCall v])%Z) by (destruct v; simpl; lia). lia.
    + pose proof (int_total_0 [FCall v]). split; [|split]; auto. fold (fval (fst (run h))). lia.
  - rewrite collect_sync by exact Ti. cbn [is_delta]. simpl (int_total [FRead now]).
    pose proof (ti_nonneg _ I1). pose proof (ti_nonneg _ I2).
    destruct (num_add _ _) as [x|] eqn:Ad; cbn [fst fval fs_value fs_prev].
    + pose proof (ti_add _ _ _ Ad I1 I2). split; [|split]; auto; [eapply add_nonneg; eauto|simpl; lia].
    + split; [|split]; auto. simpl. lia.
Qed.
Lemma counter_step h c : (int_total h <= 2 ^ 53)%Z -> at_most (fs_prev (fst (run h))) (fs_prev (fst (run (h ++ [c])))).
Proof.
  intros B. rewrite run_snoc by reflexivity. cbn [fst]. pose proof (counter_instr h) as Ti. destruct (counter_inv h) as (I1 & I2 & I3).
  destruct c as [v|now]; cbn [fstep].
  - destruct (foffered ICounter v); [|apply at_most_refl]. rewrite aggregate_eq. apply at_most_refl.
  - rewrite collect_sync by exact Ti. cbn [is_delta]. destruct (num_add _ _) as [x|] eqn:Ad; cbn [fst fs_prev]; [|apply at_most_refl].
    eapply add_mono; [exact Ad|exact I1|]. intros z Ez. pose proof (ti_nonneg _ I1). pose proof (ti_nonneg _ I2). rewrite Ez in *. simpl in *. lia.
Qed.
Lemma firstn_S_nth {B} (l : list B) n x : nth_error l n = Some x -> firstn (S n) l = firstn n l ++ [x].
Proof. revert n. induction l as [|y l IH]; intros [|n] H; simpl in *; try discriminate; [injection H as ->; reflexivity|]. f_equal. apply IH. exact H. Qed.
Lemma counter_steps h i j : (int_total h <= 2 ^ 53)%Z -> (i <= j)%nat -> at_most (fs_prev (fst (run (firstn i h)))) (fs_prev (fst (run (firstn j h)))).
Proof.
  intros B L. induction L as [|j L IH]; [apply at_most_refl|]. eapply at_most_trans; [exact IH|].
  destruct (nth_error h j) as [c|] eqn:E.
  - rewrite (firstn_S_nth _ _ _ E). apply counter_step. pose proof (int_total_firstn j h). lia.
  - apply nth_error_None in E. rewrite !firstn_all2 by lia. apply at_most_refl.
Qed.
Lemma counter_reading h i p : nth_error (snd (run h)) i = Some (FPoint (Some p)) -> fp_value p = fs_prev (fst (run (firstn (S i) h))).
Proof.
  intros H. destruct (frun_nth _ _ _ _ _ _ _ H) as (c & Hc & Hp & _). rewrite (firstn_S_nth _ _ _ Hc), run_snoc by reflexivity. cbn [fst].
  destruct c as [v|now]; cbn [fstep] in *.
  - destruct (foffered ICounter v); [|discriminate]. destruct (fsum_aggregate _ _) as [? []]; discriminate.
  - rewrite collect_sync in * by apply counter_instr. cbn [is_delta] in *. destruct (num_add _ _); [|discriminate]. injection Hp as ->. reflexivity.
Qed.
Theorem counter_never_down h i j p q : (int_total h <= 2 ^ 53)%Z -> (i <= j)%nat ->
  nth_error (snd (run h)) i = Some (FPoint (Some p)) -> nth_error (snd (run h)) j = Some (FPoint (Some q)) ->
  at_most (fp_value p) (fp_value q).
Proof. intros B L Hi Hj. rewrite (counter_reading _ _ _ Hi), (counter_reading _ _ _ Hj). apply counter_steps; [exact B|lia]. Qed.
End Counter.
