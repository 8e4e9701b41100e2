From Verif Require Export Spec_ErrorHandler.
From Coq Require Import Lia Sorted.
Local Open Scope nat_scope.
Section P.
Variable mro : nat -> list nat.
Notation loop := (handlers_loop mro).
Lemma issubclass_In c d : issubclass mro c d = true <-> In d (mro c).
Proof.
  unfold issubclass. rewrite existsb_exists. split; [intros (x & H & E); apply Nat.eqb_eq in E; subst; exact H|]. intros H. exists d. split; [exact H|apply Nat.eqb_refl].
Qed.
Lemma loop_i eps : forall i exc b l r, loop i eps exc b = (l, r) -> Forall (fun f => i <= place 0 f /\ f <> DefaultLogged) l /\ StronglySorted (fun f g => place 0 f < place 0 g) l.
Proof.
  induction eps as [|ep eps IH]; intros i exc b l r; cbn; [intros [= <- _]; split; constructor|].
  destruct ep as [c does|e]; [|intros [= <- _]; split; constructor].
  assert (W : forall l, Forall (fun f => S i <= place 0 f /\ f <> DefaultLogged) l -> Forall (fun f => i <= place 0 f /\ f <> DefaultLogged) l).
  { intros l0 H. eapply Forall_impl; [|exact H]. cbn. intros f [H1 H2]. split; [lia|exact H2]. }
  destruct (issubclass mro c exc).
  - destruct (does exc).
    + destruct (loop (S i) eps exc true) as [l' r'] eqn:E. intros [= <- _]. destruct (IH _ _ _ _ _ E) as [F S]. split; [constructor; [split; [cbn; lia|discriminate]|apply W, F]|].
      constructor; [exact S|]. eapply Forall_impl; [|exact F]. cbn. intros f [H _]. lia.
    + destruct (loop (S i) eps exc b) as [l' r'] eqn:E. intros [= <- _]. destruct (IH _ _ _ _ _ E) as [F S]. split; [constructor; [split; [cbn; lia|discriminate]|apply W, F]|].
      constructor; [exact S|]. eapply Forall_impl; [|exact F]. cbn. intros f [H _]. lia.
    + intros [= <- _]. split; constructor.
  - intros E. destruct (IH _ _ _ _ _ E) as [F S]. split; [apply W, F|exact S].
Qed.
Lemma takes_S ep eps exc i h : takes mro (ep :: eps) exc (S i) h <-> takes mro eps exc i h.
Proof. unfold takes. cbn. reflexivity. Qed.
Lemma loop_in eps : forall i exc b l x, loop i eps exc b = (l, inl x) ->
  (forall j, In (Handled j) l <-> i <= j /\ takes mro eps exc (j - i) HReturns) /\
  (forall j, In (FailureLogged j) l <-> i <= j /\ takes mro eps exc (j - i) HFails) /\
  (x = true <-> b = true \/ exists j, In (Handled j) l) /\ sound_handlers mro eps exc.
Proof.
  induction eps as [|ep eps IH]; intros i exc b l x; cbn.
  { intros [= <- <-]. split; [|split; [|split]].
    - intros j. split; [intros []|]. intros (_ & c & d & H & _). destruct (j - i); discriminate.
    - intros j. split; [intros []|]. intros (_ & c & d & H & _). destruct (j - i); discriminate.
    - split; [auto|]. intros [H|[j []]]; exact H.
    - intros ep []. }
  destruct ep as [c does|e]; [|discriminate].
  assert (T0 : forall j h, i <= j /\ takes mro (Handler c does :: eps) exc (j - i) h <-> (j = i /\ In exc (mro c) /\ does exc = h) \/ (S i <= j /\ takes mro eps exc (j - S i) h)).
  { intros j h. split.
    - intros [L T]. destruct (Nat.eq_dec j i) as [->|N].
      + left. split; [reflexivity|]. rewrite Nat.sub_diag in T. destruct T as (c' & d' & [= -> ->] & T1 & T2). auto.
      + right. split; [lia|]. replace (j - i) with (S (j - S i)) in T by lia. exact (proj1 (takes_S _ _ _ _ _) T).
    - intros [(-> & A & B)|(L & T)]; [split; [lia|]; rewrite Nat.sub_diag; exists c, does; auto|]. split; [lia|].
      replace (j - i) with (S (j - S i)) by lia. apply takes_S. exact T. }
  assert (S0 : (In exc (mro c) -> forall e, does exc <> HEscapes e) -> sound_handlers mro eps exc -> sound_handlers mro (Handler c does :: eps) exc).
  { intros A B ep [<-|H]; [exact A|apply (B ep H)]. }
  destruct (issubclass mro c exc) eqn:Q.
  - apply issubclass_In in Q. destruct (does exc) eqn:D; [| |discriminate].
    + destruct (loop (S i) eps exc true) as [l' r'] eqn:E. intros [= <- ->]. destruct (IH _ _ _ _ _ E) as (I1 & I2 & I3 & I4). split; [|split; [|split]].
      * intros j. rewrite T0. cbn [In]. rewrite I1. split; [intros [[= ->]|H]; auto|]. intros [(-> & _)|H]; auto.
      * intros j. rewrite T0. cbn [In]. rewrite I2. split; [intros [[=]|H]; auto|]. intros [(_ & _ & H)|H]; [discriminate|auto].
      * split; [intros _; right; exists i; left; reflexivity|]. intros _. apply I3. left. reflexivity.
      * apply S0; [congruence|exact I4].
    + destruct (loop (S i) eps exc b) as [l' r'] eqn:E. intros [= <- ->]. destruct (IH _ _ _ _ _ E) as (I1 & I2 & I3 & I4). split; [|split; [|split]].
      * intros j. rewrite T0. cbn [In]. rewrite I1. split; [intros [[=]|H]; auto|]. intros [(_ & _ & H)|H]; [discriminate|auto].
      * intros j. rewrite T0. cbn [In]. rewrite I2. split; [intros [[= ->]|H]; auto|]. intros [(-> & _)|H]; auto.
      * rewrite I3. cbn [In]. split; (intros [H|[j H]]; [left; exact H|right; exists j]); [right; exact H|destruct H as [[=]|H]; exact H].
      * apply S0; [congruence|exact I4].
  - assert (NQ : ~ In exc (mro c)) by (rewrite <- issubclass_In; congruence). intros E. destruct (IH _ _ _ _ _ E) as (I1 & I2 & I3 & I4). split; [|split; [|split]].
    + intros j. rewrite T0, I1. split; [auto|intros [(_ & H & _)|H]; [contradiction|exact H]].
    + intros j. rewrite T0, I2. split; [auto|intros [(_ & H & _)|H]; [contradiction|exact H]].
    + exact I3.
    + apply S0; [intros H; contradiction|exact I4].
Qed.
Lemma loop_sound eps : forall i exc b, sound_handlers mro eps exc -> exists l x, loop i eps exc b = (l, inl x).
Proof.
  induction eps as [|ep eps IH]; intros i exc b So; cbn; [eauto|].
  assert (S' : sound_handlers mro eps exc) by (intros e H; apply So; right; exact H). pose proof (So ep (or_introl eq_refl)) as Se.
  destruct ep as [c does|e]; [|destruct Se]. destruct (issubclass mro c exc) eqn:Q; [|apply IH, S'].
  apply issubclass_In in Q. destruct (does exc) eqn:D.
  - destruct (IH (S i) exc true S') as (l & x & ->). eauto.
  - destruct (IH (S i) exc b S') as (l & x & ->). eauto.
  - destruct (Se Q e). reflexivity.
Qed.
Lemma sorted_app {A} (R : A -> A -> Prop) l x : StronglySorted R l -> Forall (fun y => R y x) l -> StronglySorted R (l ++ [x]).
Proof.
  induction 1 as [|y l S IH F]; intros G; cbn; [repeat constructor|]. inversion G; subst. constructor; [apply IH; assumption|].
  apply Forall_app. split; [exact F|constructor; [assumption|constructor]].
Qed.
Lemma takes_lt eps exc i h : takes mro eps exc i h -> i < length eps.
Proof. intros (c & d & H & _). apply nth_error_Some. congruence. Qed.
Theorem handled_by eps exc : sound_handlers mro eps exc -> exists l, with_handler mro eps (Some exc) = (l, GoesOn) /\
  (forall i, In (Handled i) l <-> takes mro eps exc i HReturns) /\ (forall i, In (FailureLogged i) l <-> takes mro eps exc i HFails) /\
  (In DefaultLogged l <-> forall i, ~ takes mro eps exc i HReturns) /\ StronglySorted (fun f g => place (length eps) f < place (length eps) g) l.
Proof.
  intros S. cbn [with_handler]. destruct (loop_sound eps 0 exc false S) as (l & x & E). rewrite E.
  destruct (loop_in eps 0 exc false l x E) as (I1 & I2 & I3 & _). destruct (loop_i eps 0 exc false l (inl x) E) as [F So].
  assert (J1 : forall i, In (Handled i) l <-> takes mro eps exc i HReturns) by (intros i; rewrite I1, Nat.sub_0_r; split; [tauto|split; [lia|assumption]]).
  assert (J2 : forall i, In (FailureLogged i) l <-> takes mro eps exc i HFails) by (intros i; rewrite I2, Nat.sub_0_r; split; [tauto|split; [lia|assumption]]).
  assert (ND : ~ In DefaultLogged l) by (intros H; rewrite Forall_forall in F; apply F in H; destruct H as [_ H]; congruence).
  assert (So' : StronglySorted (fun f g => place (length eps) f < place (length eps) g) l).
  { clear -So ND. induction So as [|f l S IH G]; [constructor|]. constructor; [apply IH; intros H; apply ND; right; exact H|].
    rewrite Forall_forall in *. intros g Hg. specialize (G g Hg). destruct f, g; cbn in *; try lia; exfalso; apply ND; auto. }
  eexists. split; [reflexivity|]. split; [|split; [|split]].
  - intros i. rewrite in_app_iff, J1. split; [|auto]. intros [H|H]; [exact H|]. destruct x; [destruct H|destruct H as [[=]|[]]].
  - intros i. rewrite in_app_iff, J2. split; [|auto]. intros [H|H]; [exact H|]. destruct x; [destruct H|destruct H as [[=]|[]]].
  - rewrite in_app_iff. destruct x.
    + destruct (proj1 I3 eq_refl) as [[=]|[j H]]. split; [intros [K|[]]; contradiction|]. intros K. destruct (K j). apply J1, H.
    + split; [|right; left; reflexivity]. intros _ i H. apply J1 in H. assert (false = true) by (apply I3; right; exists i; exact H). discriminate.
  - destruct x; [rewrite app_nil_r; exact So'|]. apply sorted_app; [exact So'|]. rewrite Forall_forall. intros f Hf. cbn. destruct f; [| |contradiction]; cbn.
    + apply J1, takes_lt in Hf. exact Hf.
    + apply J2, takes_lt in Hf. exact Hf.
Qed.
Theorem raises_only eps exc : (exists l e, with_handler mro eps (Some exc) = (l, Raises_ e)) <-> ~ sound_handlers mro eps exc.
Proof.
  split.
  - intros (l & e & H) S. destruct (handled_by eps exc S) as (l' & H' & _). congruence.
  - intros N. cbn. destruct (loop 0 eps exc false) as [l [x|e]] eqn:E; [|eauto]. destruct N. apply (loop_in _ _ _ _ _ _ E).
Qed.
End P.
