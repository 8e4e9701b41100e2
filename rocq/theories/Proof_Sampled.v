(** Proofs about which measurements a reservoir of fixed size keeps, and with which span ids. *)
From Verif Require Import Proof_Dict Proof_Exemplar Spec_Exemplar.
From Coq Require Import Lia.
Local Open Scope Z_scope.

Lemma flat_map_len {A B} (c : nat) (f : A -> list B) l : (forall x, In x l -> length (f x) = c) -> length (flat_map f l) = (length l * c)%nat.
Proof.
  induction l as [|x l IH]; intro H; [reflexivity|]. cbn [flat_map length]. rewrite app_length, H by now left.
  rewrite IH by (intros y I; apply H; now right). lia.
Qed.

(** ** Spans *)
Lemma ids_from i pick rs : match ids_of i (slots pick rs) with
  | Some (s, t) => exists m sm, In m (map fst (rev rs)) /\ me_span m = Some (s, t, sm)
  | None => True end.
Proof.
  induction rs as [|[m d] rs IH]; [exact I|]. cbn [slots ids_of].
  assert (X : match ids_of i (slots pick rs) with
    | Some (s, t) => exists m0 sm, In m0 (map fst (rev ((m, d) :: rs))) /\ me_span m0 = Some (s, t, sm)
    | None => True end).
  { destruct (ids_of i (slots pick rs)) as [[s t]|]; [|exact I]. destruct IH as (m' & sm & A & B).
    exists m', sm. split; [|exact B]. cbn [rev]. rewrite map_app. apply in_or_app. now left. }
  destruct (goes i _); [|exact X]. destruct (me_span m) as [[[s t] sm]|] eqn:E; [|exact X].
  exists m, sm. split; [|exact E]. cbn [rev]. rewrite map_app. apply in_or_app. right. now left.
Qed.
Lemma holder_ids i r m : holder i r = Some m ->
  match me_span m with Some (s, t, _) => ids_of i r = Some (s, t) | None => True end.
Proof.
  induction r as [|[m' c] r IH]; [discriminate|]. cbn [holder ids_of]. destruct (goes i c); intro E.
  - injection E as ->. destruct (me_span m) as [[[s t] sm]|]; [reflexivity|exact I].
  - now apply IH.
Qed.
Lemma no_ids i pick rs : (forall m, In m (map fst (rev rs)) -> me_span m = None) -> ids_of i (slots pick rs) = None.
Proof.
  intro H. pose proof (ids_from i pick rs) as X. destruct (ids_of i (slots pick rs)) as [[s t]|]; [|reflexivity].
  destruct X as (m & sm & A & B). rewrite (H m A) in B. discriminate.
Qed.
Lemma collected_span pick point since n :
  taken_with (span_rule (map fst since)) point (map fst since) (collected point (slots pick (rev since)) n).
Proof.
  exists (flat_map (fun i => olist (posn i (slots pick (rev since)))) (seq 0 n)).
  split; [apply NoDup_positions, seq_NoDup|]. unfold collected.
  induction (seq 0 n) as [|i l IH]; [constructor|]. cbn [flat_map].
  apply Forall2_app; [|exact IH]. pose proof (holder_posn pick (rev since) i) as H. rewrite rev_involutive in H.
  destruct (holder i (slots pick (rev since))) as [m|] eqn:Ho, (posn i (slots pick (rev since))) as [p|]; try now destruct H.
  - constructor; [|constructor]. exists m. split; [apply H|]. split; [split; [reflexivity|split; [reflexivity|]]|].
    { now apply filtered_spec. }
    pose proof (holder_ids _ _ _ Ho) as HI. pose proof (ids_from i pick (rev since)) as F. rewrite rev_involutive in F.
    split.
    + intros [S0|S0].
      * unfold names_span. destruct (me_span m) as [[[s t] sm]|]; [|now destruct S0]. cbn. rewrite HI. split; reflexivity.
      * unfold names_span. rewrite (S0 m).
        -- cbn. rewrite no_ids; [split; reflexivity|]. rewrite rev_involutive. exact S0.
        -- eapply nth_error_In. apply H.
    + cbn [ex_span_id ex_trace_id]. destruct (ids_of i (slots pick (rev since))) as [[s t]|]; [|left; split; reflexivity].
      destruct F as (m' & sm & A & B). right. exists m', s, t, sm. repeat split; assumption.
  - constructor.
Qed.
Lemma simple_span size h : (forall iv, In iv (intervals [] h) -> draws_ok (fst iv)) ->
  Forall2 (fun iv es => taken_with (span_rule (map fst (fst iv))) (snd iv) (map fst (fst iv)) es)
    (intervals [] h) (snd (rrun (simple_new size) h)).
Proof.
  intro D. unfold rrun. rewrite (history_simple size h []); cbn [app rev].
  - rewrite <- (map_id (intervals [] h)) at 1. apply Forall2_map_r. intros [since point] I. apply collected_span.
  - intros iv I. apply draws_nonneg. auto.
  - exists []. split; [reflexivity|]. split; [apply inv_nil|intros i []].
Qed.
Lemma aligned_span bounds h :
  Forall2 (fun iv es => taken_with (span_rule (map fst (fst iv))) (snd iv) (map fst (fst iv)) es)
    (intervals [] h) (snd (rrun (aligned_new bounds) h)).
Proof.
  unfold rrun. rewrite (history_aligned bounds h []); cbn [app rev].
  - rewrite <- (map_id (intervals [] h)) at 1. apply Forall2_map_r. intros [since point] I. apply collected_span.
  - exists []. split; [reflexivity|]. split; [apply inv_nil|intros i []].
Qed.

(** ** Filters *)
Definition passes (f : efilter) (o : rop) : bool :=
  match o with Offer m _ => filter_should_sample f m | RCollect _ => true end.
Lemma frun_filter f h : forall s, fold_left (fstep f) h s = fold_left rstep (filter (passes f) h) s.
Proof.
  induction h as [|[m d|point] h IH]; intros [r acc]; [reflexivity| |].
  - cbn [fold_left filter passes fstep fst snd]. unfold sample_exemplar. destruct (filter_should_sample f m).
    + cbn [fold_left rstep fst snd]. apply IH.
    + apply IH.
  - cbn [fold_left filter passes fstep rstep fst snd]. destruct (rcollect point r). apply IH.
Qed.
Lemma intervals_passes f h : forall since, (forall m d, In (m, d) since -> filter_should_sample f m = true) ->
  forall iv, In iv (intervals since (filter (passes f) h)) -> forall m, In m (map fst (fst iv)) -> filter_should_sample f m = true.
Proof.
  induction h as [|[m d|point] h IH]; intros since S0 iv I m0 M; [destruct I| |].
  - cbn [filter passes] in I. destruct (filter_should_sample f m) eqn:E.
    + cbn [intervals] in I. eapply IH; [|exact I|exact M]. intros m' d' J. apply in_app_or in J.
      destruct J as [J|[J|[]]]; [eauto|]. injection J as <- <-. exact E.
    + eapply IH; eassumption.
  - cbn [filter passes intervals] in I. destruct I as [<-|I].
    + cbn in M. apply in_map_iff in M as ([m' d'] & <- & J). eapply S0. exact J.
    + eapply IH; [|exact I|exact M]. intros m' d' [].
Qed.

(** ** Which measurements are kept *)
Lemma all_draws_length n l : In l (all_draws n) -> length l = n.
Proof.
  revert l. induction n as [|n IH]; intros l I.
  - destruct I as [<-|[]]. reflexivity.
  - cbn [all_draws] in I. apply in_flat_map in I as (l0 & I0 & J). apply in_map_iff in J as (d & <- & _).
    rewrite app_length, (IH l0 I0). cbn. lia.
Qed.
Lemma all_draws_count n : length (all_draws n) = fact n.
Proof.
  induction n as [|n IH]; [reflexivity|]. cbn [all_draws]. rewrite (flat_map_len (S n)).
  - rewrite IH. cbn [fact]. lia.
  - intros l _. now rewrite map_length, seq_length.
Qed.
Section Counting.
Variable k : nat.
Hypothesis k1 : (1 <= k)%nat.
Let pick := pick_simple (Z.of_nat k).
Definition surv (j : nat) (rs : list (meas * Z)) : bool :=
  existsb (fun i => match posn i (slots (pick_simple (Z.of_nat k)) rs) with Some p => Nat.eqb p j | None => false end) (seq 0 k).
Lemma surv_iff j rs : surv j rs = true <-> exists i, (i < k)%nat /\ posn i (slots pick rs) = Some j.
Proof.
  unfold surv. rewrite existsb_exists. split.
  - intros (i & I & E). apply in_seq in I. exists i. split; [lia|]. fold pick in E.
    destruct (posn i (slots pick rs)); [|discriminate]. apply Nat.eqb_eq in E. now subst.
  - intros (i & I & E). exists i. split; [apply in_seq; lia|]. fold pick. rewrite E. apply Nat.eqb_refl.
Qed.
Lemma posn_lt i rs p : posn i (slots pick rs) = Some p -> (p < length rs)%nat.
Proof.
  intro E. pose proof (holder_posn pick rs i) as H. rewrite E in H. destruct (holder i (slots pick rs)); [|destruct H].
  destruct H as [H _]. assert (X : nth_error (map fst (rev rs)) p <> None) by congruence.
  apply nth_error_Some in X. now rewrite map_length, rev_length in X.
Qed.
Lemma pick_early n m d : (S n < k)%nat -> pick n m d = Some n.
Proof.
  intro H. unfold pick, pick_simple, simple_index. destruct (Z.ltb_spec (Z.of_nat (S n)) (Z.of_nat k)); [|lia].
  f_equal. lia.
Qed.
Lemma pick_late n m d : (k <= S n)%nat -> pick n m (Z.of_nat d) = if (d <? k)%nat then Some d else None.
Proof.
  intro H. unfold pick, pick_simple, simple_index. destruct (Z.ltb_spec (Z.of_nat (S n)) (Z.of_nat k)); [lia|].
  destruct (Z.ltb_spec (Z.of_nat d) (Z.of_nat k)), (Nat.ltb_spec d k); try lia; [|reflexivity]. f_equal. lia.
Qed.
Lemma filter_const {A} (l : list A) b : filter (fun _ => b) l = if b then l else [].
Proof. induction l as [|x l IH]; [now destruct b|]. cbn. rewrite IH. now destruct b. Qed.
Lemma count_ne s n : (s < n)%nat -> length (filter (fun d => negb (Nat.eqb d s)) (seq 0 n)) = (n - 1)%nat.
Proof.
  intro H. replace n with (s + S (n - s - 1))%nat at 1 by lia. rewrite seq_app. cbn [seq].
  rewrite filter_app. cbn [filter]. replace (0 + s)%nat with s by lia. rewrite Nat.eqb_refl. cbn [negb].
  rewrite app_length.
  assert (X : forall a c, (forall d, In d (seq a c) -> d <> s) -> length (filter (fun d => negb (Nat.eqb d s)) (seq a c)) = c).
  { intros a c Y. rewrite <- (seq_length c a) at 2. f_equal.
    clear - Y. induction (seq a c) as [|x l IH]; [reflexivity|]. cbn.
    destruct (Nat.eqb_spec x s) as [E|E]; [exfalso; apply (Y x); [now left|exact E]|]. cbn. f_equal. apply IH.
    intros d D. apply Y. now right. }
  rewrite !X; [lia| |]; intros d D; apply in_seq in D; lia.
Qed.
Lemma count_lt n : (k <= n)%nat -> length (filter (fun d => (d <? k)%nat) (seq 0 n)) = k.
Proof.
  intro H. replace n with (k + (n - k))%nat by lia. rewrite seq_app, filter_app, app_length.
  assert (X : forall a c, (a + c <= k)%nat -> filter (fun d => (d <? k)%nat) (seq a c) = seq a c).
  { intros a c. revert a. induction c as [|c IH]; intros a L; [reflexivity|]. cbn [seq filter].
    destruct (Nat.ltb_spec a k); [|lia]. f_equal. apply IH. lia. }
  assert (Y : forall c a, (k <= a)%nat -> filter (fun d => (d <? k)%nat) (seq a c) = []).
  { induction c as [|c IH]; intros a L; [reflexivity|]. cbn [seq filter].
    destruct (Nat.ltb_spec a k); [lia|]. apply IH. lia. }
  rewrite X, Y, seq_length by lia. cbn. lia.
Qed.
Lemma surv_cons_old j m d rs : (j < length rs)%nat ->
  surv j ((m, Z.of_nat d) :: rs)
  = match (if surv j rs then true else false) with
    | false => false
    | true => negb (existsb (fun i => (goes i (pick (length rs) m (Z.of_nat d))
                   && match posn i (slots pick rs) with Some p => Nat.eqb p j | None => false end)%bool) (seq 0 k))
    end.
Proof.
  intro L. destruct (surv j rs) eqn:E.
  - apply surv_iff in E as (i & I & P). destruct (existsb _ (seq 0 k)) eqn:X; cbn [negb].
    + apply existsb_exists in X as (i' & I' & G). apply andb_prop in G as [G G'].
      destruct (posn i' (slots pick rs)) as [p'|] eqn:P'; [|discriminate]. apply Nat.eqb_eq in G'. subst p'.
      assert (i' = i) by (eapply posn_inj; eassumption). subst i'.
      destruct (surv j ((m, Z.of_nat d) :: rs)) eqn:Y; [exfalso|reflexivity].
      apply surv_iff in Y as (i2 & I2 & P2). cbn [slots posn] in P2. fold pick in P2.
      destruct (goes i2 (pick (length rs) m (Z.of_nat d))) eqn:G2.
      * rewrite slots_length in P2. injection P2 as <-. lia.
      * assert (i2 = i) by (eapply posn_inj; eassumption). subst i2. congruence.
    + apply surv_iff. exists i. split; [exact I|]. cbn [slots posn]. fold pick.
      destruct (goes i (pick (length rs) m (Z.of_nat d))) eqn:G; [|exact P]. exfalso.
      rewrite <- Bool.not_true_iff_false in X. apply X. apply existsb_exists. exists i.
      split; [apply in_seq; lia|]. rewrite G, P, Nat.eqb_refl. reflexivity.
  - destruct (surv j ((m, Z.of_nat d) :: rs)) eqn:Y; [exfalso|reflexivity].
    apply surv_iff in Y as (i2 & I2 & P2). cbn [slots posn] in P2. fold pick in P2.
    destruct (goes i2 (pick (length rs) m (Z.of_nat d))) eqn:G2.
    * rewrite slots_length in P2. injection P2 as <-. lia.
    * rewrite <- Bool.not_true_iff_false in E. apply E. apply surv_iff. eauto.
Qed.
Lemma surv_old_simple j i m d rs : posn i (slots pick rs) = Some j -> (i < k)%nat ->
  surv j ((m, Z.of_nat d) :: rs) = negb (goes i (pick (length rs) m (Z.of_nat d))).
Proof.
  intros P I. rewrite surv_cons_old by (eapply posn_lt; eassumption).
  assert (E : surv j rs = true) by (apply surv_iff; eauto). rewrite E. f_equal.
  destruct (goes i (pick (length rs) m (Z.of_nat d))) eqn:G.
  - apply existsb_exists. exists i. split; [apply in_seq; lia|]. now rewrite G, P, Nat.eqb_refl.
  - destruct (existsb _ (seq 0 k)) eqn:X; [|reflexivity]. exfalso.
    apply existsb_exists in X as (i' & I' & G0). apply andb_prop in G0 as [G0 G'].
    destruct (posn i' (slots pick rs)) as [p'|] eqn:P'; [|discriminate]. apply Nat.eqb_eq in G'. subst p'.
    assert (i' = i) by (eapply posn_inj; eassumption). congruence.
Qed.
(** How many of the next draws let the measurement at [j] survive. *)
Lemma next_old j m rs : (j < length rs)%nat ->
  length (filter (fun d => surv j ((m, Z.of_nat d) :: rs)) (seq 0 (S (length rs))))
  = if surv j rs then if (S (length rs) <? k)%nat then S (length rs) else length rs else 0%nat.
Proof.
  intro L. destruct (surv j rs) eqn:E.
  - pose proof E as E'. apply surv_iff in E' as (i & I & P).
    assert (X : forall d, surv j ((m, Z.of_nat d) :: rs) = negb (goes i (pick (length rs) m (Z.of_nat d))))
      by (intro d; now apply surv_old_simple).
    rewrite (filter_ext _ _ X). destruct (Nat.ltb_spec (S (length rs)) k) as [S0|S0].
    + rewrite (filter_ext _ (fun _ => true)).
      * rewrite filter_const. apply seq_length.
      * intro d. rewrite pick_early by assumption. cbn [goes]. destruct (Nat.eqb_spec (length rs) i) as [Q|Q]; [|reflexivity].
        exfalso. pose proof (holder_posn pick rs i) as H. rewrite P in H.
        destruct (holder i (slots pick rs)); [|destruct H]. destruct H as [_ (d' & n & _ & -> & H)].
        rewrite pick_early in H by lia. injection H as ->. lia.
    + rewrite (filter_ext _ (fun d => negb (Nat.eqb d i))).
      * rewrite count_ne by lia. lia.
      * intro d. rewrite pick_late by lia. destruct (Nat.ltb_spec d k); cbn [goes]; [reflexivity|].
        destruct (Nat.eqb_spec d i); [lia|reflexivity].
  - rewrite (filter_ext _ (fun _ => false)).
    + now rewrite filter_const.
    + intro d. rewrite surv_cons_old by assumption. now rewrite E.
Qed.
Lemma next_new m rs :
  length (filter (fun d => surv (length rs) ((m, Z.of_nat d) :: rs)) (seq 0 (S (length rs))))
  = if (S (length rs) <? k)%nat then S (length rs) else k.
Proof.
  assert (X : forall d, surv (length rs) ((m, Z.of_nat d) :: rs)
     = match pick (length rs) m (Z.of_nat d) with Some i => (i <? k)%nat | None => false end).
  { intro d. destruct (surv (length rs) ((m, Z.of_nat d) :: rs)) eqn:E.
    - apply surv_iff in E as (i & I & P). cbn [slots posn] in P. fold pick in P.
      destruct (pick (length rs) m (Z.of_nat d)) as [i'|]; cbn [goes] in P.
      + destruct (Nat.eqb i' i) eqn:Q; [apply Nat.eqb_eq in Q; subst i; symmetry; now apply Nat.ltb_lt|]. apply posn_lt in P. lia.
      + apply posn_lt in P. lia.
    - destruct (pick (length rs) m (Z.of_nat d)) as [i'|] eqn:G; [|reflexivity].
      destruct (Nat.ltb_spec i' k); [exfalso|reflexivity]. rewrite <- Bool.not_true_iff_false in E. apply E.
      apply surv_iff. exists i'. split; [assumption|]. cbn [slots posn]. fold pick. rewrite G. cbn [goes].
      now rewrite Nat.eqb_refl, slots_length. }
  rewrite (filter_ext _ _ X). destruct (Nat.ltb_spec (S (length rs)) k) as [S0|S0].
  - rewrite (filter_ext _ (fun _ => true)).
    + rewrite filter_const. apply seq_length.
    + intro d. rewrite pick_early by assumption. apply Nat.ltb_lt. lia.
  - rewrite (filter_ext _ (fun d => (d <? k)%nat)); [now apply count_lt|].
    intro d. rewrite pick_late by lia. destruct (Nat.ltb_spec d k); [|reflexivity]. now apply Nat.ltb_lt.
Qed.

Definition rcomb (ms : list meas) (l : list Z) : list (meas * Z) := rev (combine ms l).
Lemma rcomb_snoc ms m l d : length ms = length l -> rcomb (ms ++ [m]) (l ++ [d]) = (m, d) :: rcomb ms l.
Proof.
  intro E. unfold rcomb. replace (combine (ms ++ [m]) (l ++ [d])) with (combine ms l ++ [(m, d)]); [now rewrite rev_app_distr|].
  revert l E. induction ms as [|x ms IH]; intros [|y l] E; try discriminate; [reflexivity|]. cbn. f_equal. apply IH. now injection E.
Qed.
Lemma rcomb_length ms l : length ms = length l -> length (rcomb ms l) = length ms.
Proof. intro E. unfold rcomb. rewrite rev_length, combine_length. lia. Qed.
Definition survivors (ms : list meas) (j : nat) : nat :=
  length (filter (fun l => surv j (rcomb ms l)) (all_draws (length ms))).
Lemma filter_flat_map {A B} (p : B -> bool) (f : A -> list B) l : filter p (flat_map f l) = flat_map (fun x => filter p (f x)) l.
Proof. induction l as [|x l IH]; [reflexivity|]. cbn. now rewrite filter_app, IH. Qed.
Lemma filter_map_length {A B} (p : B -> bool) (f : A -> B) l : length (filter p (map f l)) = length (filter (fun x => p (f x)) l).
Proof. induction l as [|x l IH]; [reflexivity|]. cbn. destruct (p (f x)); cbn; now rewrite IH. Qed.
Lemma sum_if {A} (f : A -> list (list Z)) (p : A -> bool) c l :
  (forall x, In x l -> length (f x) = if p x then c else 0%nat) ->
  length (flat_map f l) = (length (filter p l) * c)%nat.
Proof.
  induction l as [|x l IH]; intro H; [reflexivity|]. cbn [flat_map filter]. rewrite app_length, H by now left.
  rewrite IH by (intros y I; apply H; now right). destruct (p x); cbn [length]; lia.
Qed.
Lemma survivors_snoc ms m j : (j <= length ms)%nat ->
  survivors (ms ++ [m]) j
  = if (j =? length ms)%nat
    then (fact (length ms) * (if (S (length ms) <? k)%nat then S (length ms) else k))%nat
    else (survivors ms j * (if (S (length ms) <? k)%nat then S (length ms) else length ms))%nat.
Proof.
  intro J. unfold survivors. rewrite app_length. cbn [length]. rewrite Nat.add_1_r. cbn [all_draws].
  rewrite filter_flat_map. destruct (Nat.eqb_spec j (length ms)) as [->|N].
  - rewrite <- all_draws_count.
    rewrite (flat_map_len (if (S (length ms) <? k)%nat then S (length ms) else k)); [reflexivity|].
    intros l I. apply all_draws_length in I. rewrite filter_map_length.
    rewrite <- (rcomb_length ms l (eq_sym I)). rewrite <- (next_new m (rcomb ms l)).
    f_equal. apply filter_ext. intro d. rewrite rcomb_snoc by congruence. reflexivity.
  - apply sum_if. intros l I. apply all_draws_length in I. rewrite filter_map_length.
    rewrite <- (rcomb_length ms l (eq_sym I)). rewrite <- (next_old j m (rcomb ms l)).
    + f_equal. apply filter_ext. intro d. rewrite rcomb_snoc by congruence. reflexivity.
    + rewrite rcomb_length by congruence. lia.
Qed.
Lemma survivors_early ms j : (length ms < k)%nat -> (j < length ms)%nat -> survivors ms j = fact (length ms).
Proof.
  induction ms as [|m ms IH] using rev_ind; intros L J; [cbn in J; lia|].
  rewrite app_length in L, J. cbn [length] in L, J. rewrite survivors_snoc by lia.
  destruct (Nat.ltb_spec (S (length ms)) k); [|lia]. rewrite app_length. cbn [length]. rewrite Nat.add_1_r. cbn [fact].
  destruct (Nat.eqb_spec j (length ms)) as [->|N]; [lia|]. rewrite IH by lia. lia.
Qed.
Lemma survivors_late ms j : (k <= length ms)%nat -> (j < length ms)%nat ->
  (survivors ms j * length ms = (if (S j <? k)%nat then k - 1 else k) * fact (length ms))%nat.
Proof.
  induction ms as [|m ms IH] using rev_ind; intros L J; [cbn in J; lia|].
  rewrite app_length in L, J. cbn [length] in L, J. rewrite survivors_snoc by lia.
  destruct (Nat.ltb_spec (S (length ms)) k); [lia|]. rewrite app_length. cbn [length]. rewrite Nat.add_1_r. cbn [fact].
  destruct (Nat.eqb_spec j (length ms)) as [->|N].
  - destruct (Nat.ltb_spec (S (length ms)) k); [lia|]. lia.
  - destruct (Nat.leb_spec k (length ms)) as [K|K].
    + rewrite IH by lia. nia.
    + assert (K' : (k = S (length ms))%nat) by lia. rewrite survivors_early by lia.
      destruct (Nat.ltb_spec (S j) k); [|lia]. rewrite K'. cbn [Nat.sub]. rewrite Nat.sub_0_r. nia.
Qed.

(** The exemplars' values. *)
Lemma offers_match md r rs : matches (Z.of_nat k) k rs r -> nonneg md ->
  matches (Z.of_nat k) k (rev md ++ rs) (fold_left (fun r md => offer (fst md) (snd md) r) md r).
Proof.
  revert r rs. induction md as [|[m d] md IH]; intros r rs M D; [exact M|]. cbn [fold_left rev fst snd].
  rewrite <- app_assoc. cbn [app]. apply IH.
  - pose proof (simple_offer (Z.of_nat k) rs m d r) as X. rewrite Nat2Z.id in X. apply X; [|exact M].
    apply (D m d). now left.
  - intros m' d' I. apply (D m' d'). now right.
Qed.
Lemma all_draws_nonneg n l d : In l (all_draws n) -> In d l -> 0 <= d.
Proof.
  revert l. induction n as [|n IH]; intros l I J.
  - destruct I as [<-|[]]. destruct J.
  - cbn [all_draws] in I. apply in_flat_map in I as (l0 & I0 & K). apply in_map_iff in K as (d0 & <- & _).
    apply in_app_or in J. destruct J as [J|[<-|[]]]; [eauto|lia].
Qed.
Lemma sampled_collected ms l : In l (all_draws (length ms)) ->
  sampled (Z.of_nat k) ms l = map ex_value (collected [] (slots pick (rcomb ms l)) k).
Proof.
  intro I. unfold sampled. f_equal.
  assert (M : matches (Z.of_nat k) k (rev (combine ms l) ++ []) (fold_left (fun r md => offer (fst md) (snd md) r) (combine ms l) (simple_new (Z.of_nat k)))).
  { apply offers_match.
    - exists []. split; [reflexivity|]. split; [apply inv_nil|intros i []].
    - intros m d J. apply in_combine_r in J. eapply all_draws_nonneg; eassumption. }
  rewrite app_nil_r in M. pose proof (simple_collect (Z.of_nat k) (rev (combine ms l)) []) as X. rewrite Nat2Z.id in X.
  specialize (X _ M). destruct (rcollect [] _) as [r es]. destruct X as [_ ->]. reflexivity.
Qed.
Lemma nodup_nth (l : list Z) i j : NoDup l -> (i < length l)%nat -> nth_error l i = nth_error l j -> i = j.
Proof. intros ND L E. now apply (proj1 (NoDup_nth_error l) ND). Qed.
Lemma sampled_surv ms l j m : NoDup (map me_value ms) -> In l (all_draws (length ms)) -> nth_error ms j = Some m ->
  In (me_value m) (sampled (Z.of_nat k) ms l) <-> surv j (rcomb ms l) = true.
Proof.
  intros ND I E. rewrite sampled_collected by assumption. pose proof (all_draws_length _ _ I) as L.
  assert (F : map fst (rev (rcomb ms l)) = ms).
  { unfold rcomb. rewrite rev_involutive. clear - L. revert l L. induction ms as [|x ms IH]; intros [|y l] L; try discriminate; [reflexivity|].
    cbn. f_equal. apply IH. now injection L. }
  rewrite surv_iff, in_map_iff. split.
  - intros (e & V & C). unfold collected in C. apply in_flat_map in C as (i & Hi & C). apply in_seq in Hi.
    pose proof (holder_posn pick (rcomb ms l) i) as H. destruct (holder i (slots pick (rcomb ms l))) as [m'|]; [|destruct C].
    destruct C as [<-|[]]. destruct (posn i (slots pick (rcomb ms l))) as [p|] eqn:P; [|destruct H].
    destruct H as [H _]. rewrite F in H. exists i. split; [lia|]. rewrite P. f_equal. cbn in V.
    apply (nodup_nth (map me_value ms)); [assumption| |].
    + rewrite map_length. apply nth_error_Some. congruence.
    + now rewrite (map_nth_error _ _ _ H), (map_nth_error _ _ _ E), V.
  - intros (i & Hi & P). pose proof (holder_posn pick (rcomb ms l) i) as H. rewrite P in H.
    destruct (holder i (slots pick (rcomb ms l))) as [m'|] eqn:Ho; [|destruct H]. destruct H as [H _]. rewrite F in H.
    assert (m' = m) by congruence. subst m'. eexists. split; [|unfold collected; apply in_flat_map; exists i; split; [apply in_seq; lia|rewrite Ho; now left]].
    reflexivity.
Qed.
Lemma ways_survivors ms j m : NoDup (map me_value ms) -> nth_error ms j = Some m ->
  ways_kept (Z.of_nat k) ms (me_value m) = Z.of_nat (survivors ms j).
Proof.
  intros ND E. unfold ways_kept, ways, survivors. f_equal. f_equal. apply filter_ext_in. intros l I.
  pose proof (sampled_surv ms l j m ND I E) as X. destruct (in_dec Z.eq_dec (me_value m) (sampled (Z.of_nat k) ms l)) as [Y|Y].
  - symmetry. tauto.
  - symmetry. apply Bool.not_true_iff_false. tauto.
Qed.
End Counting.

Lemma kept_all size ms j m : NoDup (map me_value ms) -> nth_error ms j = Some m -> Z.of_nat (length ms) < size ->
  ways_kept size ms (me_value m) = Z.of_nat (length (all_draws (length ms))).
Proof.
  intros ND E L. assert (J : (j < length ms)%nat) by (apply nth_error_Some; congruence).
  rewrite <- (Z2Nat.id size) by lia. rewrite (ways_survivors (Z.to_nat size) ltac:(lia) ms j m ND E).
  rewrite survivors_early by lia. now rewrite all_draws_count.
Qed.
Lemma kept_share size ms j m : NoDup (map me_value ms) -> nth_error ms j = Some m -> 1 <= size <= Z.of_nat (length ms) ->
  ways_kept size ms (me_value m) * Z.of_nat (length ms)
  = (if Z.of_nat j + 1 <? size then size - 1 else size) * Z.of_nat (length (all_draws (length ms))).
Proof.
  intros ND E L. assert (J : (j < length ms)%nat) by (apply nth_error_Some; congruence).
  rewrite <- (Z2Nat.id size) by lia. rewrite (ways_survivors (Z.to_nat size) ltac:(lia) ms j m ND E).
  pose proof (survivors_late (Z.to_nat size) ltac:(lia) ms j ltac:(lia) J) as X. rewrite all_draws_count.
  rewrite <- Nat2Z.inj_mul, X, Nat2Z.inj_mul. f_equal.
  destruct (Nat.ltb_spec (S j) (Z.to_nat size)), (Z.ltb_spec (Z.of_nat j + 1) (Z.of_nat (Z.to_nat size))); lia.
Qed.

Lemma should_sample_iff f m : filter_should_sample f m = lets_through f m.
Proof. destruct f; cbn; [reflexivity|reflexivity|]. now destruct (me_span m) as [[[s t] [|]]|]. Qed.
Lemma Forall2_impl_in {A B} (P Q : A -> B -> Prop) l l' : (forall x y, In x l -> P x y -> Q x y) -> Forall2 P l l' -> Forall2 Q l l'.
Proof.
  intros H F. induction F as [|x y l l' Pxy F IH]; constructor.
  - apply H; [now left|assumption].
  - apply IH. intros a b I. apply H. now right.
Qed.
Lemma intervals_filter f h : forall since, 
  intervals (filter (fun md => filter_should_sample f (fst md)) since) (filter (passes f) h)
  = map (fun iv => (filter (fun md => filter_should_sample f (fst md)) (fst iv), snd iv)) (intervals since h).
Proof.
  induction h as [|[m d|point] h IH]; intro since; [reflexivity| |].
  - cbn [filter passes intervals]. rewrite <- IH, filter_app. cbn [filter fst].
    destruct (filter_should_sample f m); [reflexivity|]. now rewrite app_nil_r.
  - cbn [filter passes intervals map fst snd]. f_equal. apply (IH []).
Qed.
Lemma Forall2_map_l {A B C} (P : B -> C -> Prop) (g : A -> B) l l' : Forall2 P (map g l) l' <-> Forall2 (fun x y => P (g x) y) l l'.
Proof.
  split.
  - revert l'. induction l as [|x l IH]; intros l' H; inversion H; subst; constructor; auto.
  - induction 1; constructor; auto.
Qed.
Lemma filtered_span (r0 : reservoir) (ok : list (meas * Z) -> Prop) f h :
  (forall h', (forall iv, In iv (intervals [] h') -> ok (fst iv)) ->
    Forall2 (fun iv es => taken_with (span_rule (map fst (fst iv))) (snd iv) (map fst (fst iv)) es)
      (intervals [] h') (snd (rrun r0 h'))) ->
  (forall iv, In iv (intervals [] h) -> ok (filter (fun md => lets_through f (fst md)) (fst iv))) ->
  Forall2 (fun iv es => let offered := filter (lets_through f) (map fst (fst iv)) in
       taken_with (span_rule offered) (snd iv) offered es)
    (intervals [] h) (snd (frun f r0 h)).
Proof.
  intros H D. unfold frun. rewrite frun_filter.
  pose proof (intervals_filter f h []) as E. cbn [filter] in E.
  specialize (H (filter (passes f) h)). rewrite E in H. rewrite Forall2_map_l in H.
  eapply Forall2_impl_in; [|apply H].
  - intros iv es _ T. cbn [fst snd] in T. cbn zeta.
    replace (filter (lets_through f) (map fst (fst iv)))
      with (map fst (filter (fun md : meas * Z => filter_should_sample f (fst md)) (fst iv))); [exact T|].
    clear. induction (fst iv) as [|[m d] l IH]; [reflexivity|]. cbn. rewrite should_sample_iff.
    destruct (lets_through f m); cbn; now rewrite IH.
  - intros iv I. apply in_map_iff in I as (iv0 & <- & I0). cbn [fst].
    rewrite (filter_ext _ (fun md => lets_through f (fst md))) by (intro; apply should_sample_iff). apply (D iv0 I0).
Qed.
Lemma trace_based size h :
  (forall iv, In iv (intervals [] h) -> draws_ok (filter (fun md => lets_through TraceBasedFilter (fst md)) (fst iv))) ->
  Forall2 (fun iv es => taken_with (fun m e => names_span m e /\ exists s t, me_span m = Some (s, t, true))
                          (snd iv) (filter (lets_through TraceBasedFilter) (map fst (fst iv))) es)
    (intervals [] h) (snd (frun TraceBasedFilter (simple_new size) h)).
Proof.
  intro D. eapply Forall2_impl_in; [|exact (filtered_span (simple_new size) draws_ok TraceBasedFilter h (simple_span size) D)].
  intros iv es _ (ps & ND & F). cbn zeta in F. exists ps. split; [exact ND|].
  eapply Forall2_impl_in; [|exact F]. intros i e _ (m & E & X & [R _]). exists m. split; [exact E|]. split; [exact X|].
  apply nth_error_In in E. apply filter_In in E as [_ E]. cbn in E.
  destruct (me_span m) as [[[s t] [|]]|] eqn:M; try discriminate. split; [|eauto]. apply R. left. congruence.
Qed.
Lemma always_off size h : Forall (fun es => es = []) (snd (frun AlwaysOffFilter (simple_new size) h)).
Proof.
  assert (D : forall iv, In iv (intervals [] h) -> draws_ok (filter (fun md : meas * Z => lets_through AlwaysOffFilter (fst md)) (fst iv))).
  { intros iv _ i m d E. apply nth_error_In, filter_In in E as [_ E]. discriminate. }
  pose proof (filtered_span (simple_new size) draws_ok AlwaysOffFilter h (simple_span size) D) as F.
  clear D. induction F as [|iv es l l' T F IH]; [constructor|]. constructor; [|exact IH].
  destruct T as (ps & _ & T). inversion T as [|i e ps' es' H]; subst; [reflexivity|]. exfalso.
  destruct H as (m & E & _). apply nth_error_In, filter_In in E as [_ E]. discriminate.
Qed.
