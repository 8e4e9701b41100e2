(** Proofs about the locks of logging. *)
From Verif Require Import Spec_LogLocks.

Section P.
Variable resets logs : bool.

(** The locks a thread has, the last first, and what it may do: the handler's lock before a condition's; waiting without locks, or (if the
    program may reset logging) with the handler's; workers that log only if they may *)
Fixpoint fine (t : thread) (h : list lock) (p : list act) : Prop :=
  match p with
  | [] => h = []
  | Acq l :: p => (h = [] \/ h = [Handler] /\ l <> Handler) /\ (l = Handler -> forall j, t = Worker j -> logs = true) /\ fine t (l :: h) p
  | Rel l :: p => exists h', h = l :: h' /\ fine t h' p
  | Await _ _ :: p => (h = [] \/ h = [Handler] /\ resets = true) /\ (forall j, t <> Worker j) /\ fine t h p
  | Answer j _ :: p => t = Worker j /\ h = [] /\ fine t h p
  | Join _ :: p => h = [] /\ (forall j, t <> Worker j) /\ fine t h p
  | End j :: p => t = Worker j /\ h = [] /\ p = []
  end.
Definition inv (s : state) : Prop :=
  (forall t, exists h, fine t h (todo s t) /\ NoDup h /\ forall l, In l h <-> owner s l = Some t)
  /\ forall j, ended s j = true -> todo s (Worker j) = [].

(** [p] leaves the locks as they were *)
Lemma notify_fine t js p : forall h, h = [] \/ h = [Handler] -> fine t h p -> fine t h (notify_acts js ++ p).
Proof.
  induction js as [|j js IH]; intros h H F; [exact F|]. cbn. split; [destruct H as [->| ->]; [now left|right; split; [auto|discriminate]]|].
  split; [discriminate|]. exists h. split; [reflexivity|]. now apply IH.
Qed.
Lemma log_fine t js p : (forall j, t = Worker j -> logs = true) -> fine t [] p -> fine t [] (log_acts js ++ p).
Proof.
  intros W F. unfold log_acts. cbn. split; [now left|]. split; [auto|]. rewrite <- app_assoc. apply notify_fine; [now right|].
  cbn. exists []. now split.
Qed.
Lemma worker_fine j w l a e : (l <> [] -> logs = true) -> fine (Worker j) [] (worker_acts j w l a e).
Proof.
  intros L. unfold worker_acts. cbn. split; [now left|]. split; [discriminate|].
  assert (F : fine (Worker j) [Cond j] (Rel (Cond j) :: flat_map log_acts l ++ map (Answer j) a ++ (if e then [End j] else []))).
  { cbn. exists []. split; [reflexivity|]. induction l as [|x l IH]; cbn [flat_map].
    - cbn. clear. induction a; cbn; [destruct e; cbn; auto|auto].
    - rewrite <- app_assoc. apply log_fine; [intros _ _; apply L; discriminate|]. apply IH. intros _. apply L. discriminate. }
  destruct w; [|exact F]. cbn. exists []. split; [reflexivity|]. split; [now left|]. split; [discriminate|]. exact F.
Qed.

Lemma set_todo_same t p s : todo (set_todo t p s) t = p.
Proof. cbn. now destruct (thread_dec t t). Qed.
Lemma set_todo_other t u p s : u <> t -> todo (set_todo t p s) u = todo s u.
Proof. cbn. now destruct (thread_dec u t). Qed.

(** One thread's list changes, locks do not. *)
Lemma inv_todo t p s : inv s -> (forall h, fine t h (todo s t) -> (forall l, In l h <-> owner s l = Some t) -> fine t h p) ->
  (forall j, t = Worker j -> ended s j = true -> p = []) -> inv (set_todo t p s).
Proof.
  intros [I E] F W. split.
  - intro u. destruct (I u) as (h & Fu & N & O). exists h. cbn [owner set_todo]. split; [|auto].
    destruct (thread_dec u t) as [->|Ne]; [rewrite set_todo_same; auto|now rewrite set_todo_other].
  - intros j Ej. cbn [ended set_todo] in Ej. destruct (thread_dec (Worker j) t) as [<-|Ne]; [rewrite set_todo_same; eauto|rewrite set_todo_other; auto].
Qed.
Lemma not_ended t s a p : inv s -> todo s t = a :: p -> forall j, t = Worker j -> ended s j = true -> False.
Proof. intros [_ E] T j -> Ej. rewrite (E j Ej) in T. discriminate. Qed.

Lemma inv_step t s s' : inv s -> step resets logs t s s' -> inv s'.
Proof.
  intros I H. destruct H as [s l p T O|s l p T|s j e p T A|s j e p T|s j p T A|s j p T|s n js Et T|s n j e Et T|s n j Et T|s n j e Et T R|s j w l a e Et T E L]; try subst t.
  - (* Acq *) pose proof (not_ended t s _ p I T) as NE. destruct I as [I E]. split.
    + intro u. destruct (I u) as (h & Fu & N & Ow). destruct (thread_dec u t) as [->|Ne].
      * rewrite set_todo_same. rewrite T in Fu. destruct Fu as (Hh & _ & Fp). exists (l :: h). split; [exact Fp|]. split.
        { constructor; auto. rewrite Ow. congruence. }
        intro m. cbn. destruct (lock_dec m l) as [->|Nm]; [intuition|]. rewrite <- Ow. intuition congruence.
      * rewrite set_todo_other by auto. exists h. split; [exact Fu|]. split; [auto|]. intro m. cbn. destruct (lock_dec m l) as [->|Nm]; [|apply Ow].
        rewrite Ow, O. intuition congruence.
    + intros j Ej. destruct (thread_dec (Worker j) t) as [<-|Ne]; [destruct (NE j eq_refl Ej)|rewrite set_todo_other by auto; apply E, Ej].
  - (* Rel *) pose proof (not_ended t s _ p I T) as NE. destruct I as [I E]. split.
    + intro u. destruct (I u) as (h & Fu & N & Ow). destruct (thread_dec u t) as [->|Ne].
      * rewrite set_todo_same. rewrite T in Fu. destruct Fu as (h' & -> & Fp). inversion N as [|? ? Nl N']; subst. exists h'. split; [exact Fp|]. split; [auto|].
        intro m. cbn. destruct (lock_dec m l) as [->|Nm]; [intuition congruence|]. rewrite <- Ow. cbn. intuition congruence.
      * rewrite set_todo_other by auto. exists h. split; [exact Fu|]. split; [auto|]. intro m. cbn. destruct (lock_dec m l) as [->|Nm]; [|apply Ow].
        destruct (I t) as (ht & Ft & _ & Owt). rewrite T in Ft. destruct Ft as (h' & -> & _).
        assert (X : owner s l = Some t) by (apply Owt; now left). rewrite Ow, X. intuition congruence.
    + intros j Ej. destruct (thread_dec (Worker j) t) as [<-|Ne]; [destruct (NE j eq_refl Ej)|rewrite set_todo_other by auto; apply E, Ej].
  - apply inv_todo; auto; [|intros; exfalso; eapply not_ended; eauto]. intros h F _. rewrite T in F. apply F.
  - assert (I' : inv (St (todo s) (owner s) (fun i x => if Nat.eq_dec i j then if Nat.eq_dec x e then true else answered s i x else answered s i x) (ended s))) by exact I.
    apply inv_todo; auto; [|intros; exfalso; eapply (not_ended t s); eauto]. intros h F _. cbn in F. rewrite T in F. apply F.
  - apply inv_todo; auto; [|intros; exfalso; eapply not_ended; eauto]. intros h F _. rewrite T in F. apply F.
  - destruct I as [I E]. destruct (I t) as (h & F & N & O). rewrite T in F. cbn in F. destruct F as (-> & -> & ->). split.
    + intro u. destruct (I u) as (hu & Fu & Nu & Ou). exists hu. cbn [owner set_todo]. split; [|auto].
      destruct (thread_dec u (Worker j)) as [->|Ne]; [|rewrite set_todo_other by auto; exact Fu]. rewrite set_todo_same. cbn. cbn [todo] in *.
      rewrite T in Fu. now destruct Fu as (_ & -> & _).
    + intros i Ei. cbn [ended set_todo] in Ei. destruct (Nat.eq_dec i j) as [->|Ne]; [apply set_todo_same|].
      rewrite set_todo_other by congruence. cbn. now apply E.
  - apply inv_todo; auto; [|discriminate]. intros h F _. rewrite T in F. cbn in F. subst. rewrite <- (app_nil_r (log_acts js)). apply log_fine; [discriminate|reflexivity].
  - apply inv_todo; auto; [|discriminate]. intros h F _. rewrite T in F. cbn in F. subst. cbn. split; [now left|]. split; [discriminate|]. exists []. repeat split; auto; discriminate.
  - apply inv_todo; auto; [|discriminate]. intros h F _. rewrite T in F. cbn in F. subst. cbn. split; [now left|]. split; [discriminate|]. exists []. repeat split; auto; discriminate.
  - apply inv_todo; auto; [|discriminate]. intros h F _. rewrite T in F. cbn in F. subst. cbn. split; [now left|]. split; [discriminate|].
    split; [right; split; [auto|discriminate]|]. split; [discriminate|]. exists [Handler]. split; [reflexivity|]. split; [now right|]. split; [discriminate|].
    exists []. now split.
  - apply inv_todo; auto.
    + intros h F _. rewrite T in F. cbn in F. subst. now apply worker_fine.
    + intros i Ei Ei'. exfalso. congruence.
Qed.
Lemma inv_time t s s' : inv s -> time_out t s s' -> inv s'.
Proof.
  intros I H. destruct H as [s j e p js T O|s j e p js T O]; (apply inv_todo; auto; [|intros; exfalso; eapply not_ended; eauto]); intros h F Ow;
    rewrite T in F; cbn in F; destruct F as (Hh & W & F).
  - destruct Hh as [->|[-> _]]; [|exfalso; apply O, Ow; now left]. apply log_fine; [|exact F]. intros i Ei. destruct (W i Ei).
  - apply notify_fine; [|exact F]. destruct Hh as [->|[-> _]]; auto.
Qed.
Lemma inv_start : inv start.
Proof. split; [intro t; exists []; cbn; split; [auto|split; [constructor|]]; intro l; split; [tauto|discriminate]|reflexivity]. Qed.
Lemma inv_reach s s' : reaches resets logs s s' -> inv s -> inv s'.
Proof. induction 1; intros; eauto using inv_step, inv_time. Qed.

(** ** Progress *)
Hypothesis not_both : resets = false \/ logs = false.
Notation go := (can_go_on resets logs).
Notation waits s := (clos_refl_trans thread (waits_for s)).
Definition settles (s : state) (t : thread) : Prop := exists u, waits s t u /\ (go s u \/ waits_in_vain s u).
Lemma settles_step s t u : waits_for s t u -> settles s u -> settles s t.
Proof. intros W (v & Wv & G). exists v. split; [|exact G]. eapply rt_trans; [apply rt_step; exact W|exact Wv]. Qed.
Lemma settles_go s t : go s t -> settles s t.
Proof. intro G. exists t. split; [apply rt_refl|now left]. Qed.

Lemma cond_goes s u j : inv s -> owner s (Cond j) = Some u -> go s u.
Proof.
  intros [I _] O. destruct (I u) as (h & F & N & Ow). apply Ow in O.
  destruct (todo s u) as [|a p] eqn:T; [cbn in F; subst; destruct O|].
  destruct a as [l|l|i e|i e|i|i]; cbn in F.
  - destruct F as ([->|[-> _]] & _); [destruct O|destruct O as [O|[]]; discriminate].
  - eexists. eapply s_rel, T.
  - destruct F as ([->|[-> _]] & _); [destruct O|destruct O as [O|[]]; discriminate].
  - destruct F as (_ & -> & _). destruct O.
  - destruct F as [-> _]. destruct O.
  - destruct F as (_ & -> & _). destruct O.
Qed.
Lemma acq_cond s t j p : inv s -> todo s t = Acq (Cond j) :: p -> settles s t.
Proof.
  intros I T. destruct (owner s (Cond j)) as [u|] eqn:O.
  - apply (settles_step s t u); [left; eauto|]. apply settles_go. eapply cond_goes; eauto.
  - apply settles_go. eexists. eapply s_acq; eauto.
Qed.
(** A worker that does not log never wants the handler's lock. *)
Lemma worker_quiet s j : inv s -> logs = false -> ended s j = false -> settles s (Worker j).
Proof.
  intros I L E. destruct (proj1 I (Worker j)) as (h & F & N & Ow). destruct (todo s (Worker j)) as [|a p] eqn:T.
  - apply settles_go. eexists. apply (s_worker _ _ _ s j false [] [] false); auto; congruence.
  - destruct a as [[|i]|l|i e|i e|i|i]; cbn in F.
    + destruct F as (_ & X & _). specialize (X eq_refl j eq_refl). congruence.
    + eapply acq_cond; eauto.
    + apply settles_go. eexists. eapply s_rel, T.
    + destruct F as (_ & X & _). now destruct (X j).
    + apply settles_go. eexists. eapply s_answer, T.
    + destruct F as (_ & X & _). now destruct (X j).
    + apply settles_go. eexists. eapply s_end, T.
Qed.
Lemma handler_settles s u : inv s -> owner s Handler = Some u -> settles s u.
Proof.
  intros I O. pose proof (proj1 I u) as (h & F & N & Ow). apply Ow in O.
  destruct (todo s u) as [|a p] eqn:T; [cbn in F; subst; destruct O|].
  destruct a as [l|l|i e|i e|i|i]; cbn in F.
  - destruct F as ([->|[-> Nl]] & _); [destruct O|]. destruct l as [|i]; [congruence|]. eapply acq_cond; eauto.
  - apply settles_go. eexists. eapply s_rel, T.
  - destruct F as ([->|[-> R]] & _); [destruct O|]. destruct not_both as [X|L]; [congruence|].
    destruct (answered s i e) eqn:A; [apply settles_go; eexists; eapply s_await; eauto|].
    destruct (ended s i) eqn:E; [exists u; split; [apply rt_refl|right; unfold waits_in_vain; eauto 8]|].
    apply (settles_step s u (Worker i)); [right; left; eauto 9|]. now apply worker_quiet.
  - destruct F as (_ & -> & _). destruct O.
  - destruct F as [-> _]. destruct O.
  - destruct F as (_ & -> & _). destruct O.
Qed.
Lemma acq_settles s t l p : inv s -> todo s t = Acq l :: p -> settles s t.
Proof.
  intros I T. destruct l as [|j]; [|eapply acq_cond; eauto]. destruct (owner s Handler) as [u|] eqn:O.
  - apply (settles_step s t u); [left; eauto|]. now apply handler_settles.
  - apply settles_go. eexists. eapply s_acq; eauto.
Qed.
Lemma worker_settles s j : inv s -> ended s j = false -> settles s (Worker j).
Proof.
  intros I E. destruct (proj1 I (Worker j)) as (h & F & N & Ow). destruct (todo s (Worker j)) as [|a p] eqn:T.
  - apply settles_go. eexists. apply (s_worker _ _ _ s j false [] [] false); auto; congruence.
  - destruct a as [l|l|i e|i e|i|i]; cbn in F.
    + eapply acq_settles; eauto.
    + apply settles_go. eexists. eapply s_rel, T.
    + destruct F as (_ & X & _). now destruct (X j).
    + apply settles_go. eexists. eapply s_answer, T.
    + destruct F as (_ & X & _). now destruct (X j).
    + apply settles_go. eexists. eapply s_end, T.
Qed.
Lemma busy_settles s t : inv s -> busy s t -> settles s t.
Proof.
  intros I [B|(j & -> & E)]; [|now apply worker_settles]. destruct (todo s t) as [|a p] eqn:T; [congruence|].
  destruct a as [l|l|i e|i e|i|i].
  - eapply acq_settles; eauto.
  - apply settles_go. eexists. eapply s_rel, T.
  - destruct (answered s i e) eqn:A; [apply settles_go; eexists; eapply s_await; eauto|].
    destruct (ended s i) eqn:E; [exists t; split; [apply rt_refl|right; unfold waits_in_vain; eauto 8]|].
    apply (settles_step s t (Worker i)); [right; left; eauto 9|]. now apply worker_settles.
  - apply settles_go. eexists. eapply s_answer, T.
  - destruct (ended s i) eqn:E; [apply settles_go; eexists; eapply s_join; eauto|].
    apply (settles_step s t (Worker i)); [right; right; eauto 7|]. now apply worker_settles.
  - apply settles_go. eexists. eapply s_end, T.
Qed.
End P.
