(** C135: threads that log, flush and shut down, and the workers of the batch processors, do not block each other.
    [step], [time_out], [reaches]: the model; [waits_for], [can_go_on], [waits_in_vain]: Spec_LogLocks.v. *)
From Verif Require Import Spec_LogLocks Proof_LogLocks.

(** In every state that can be reached, with any number of threads and processors: whoever has something to do can go on, or waits for
    somebody who can, directly or through others, or for the answer of a worker that has ended, until the time for it is over.  This holds
    if the workers and exporters log, and if the program resets logging, but not with both. *)
Theorem C135_no_deadlock : forall resets logs s t, resets = false \/ logs = false -> reaches resets logs start s -> busy s t ->
  exists u, clos_refl_trans thread (waits_for s) t u /\ (can_go_on resets logs s u \/ waits_in_vain s u).
Proof. intros resets logs s t NB R B. apply busy_settles; auto. apply (inv_reach resets logs start s R). apply inv_start. Qed.
Print Assumptions C135_no_deadlock.
(** Nobody waits for themselves, not even through others. *)
Theorem C135_no_circle : forall resets logs s t, resets = false \/ logs = false -> reaches resets logs start s ->
  ~ clos_trans thread (waits_for s) t t.
Proof.
  intros resets logs s t NB R C.
  assert (I : inv resets logs s) by (apply (inv_reach resets logs start s R), inv_start).
  (* each thread waits for one other at most *)
  assert (One : forall a b c, waits_for s a b -> waits_for s a c -> b = c).
  { intros a b c [(l & p & T & O)|[(j & e & p & T & _ & _ & O)|(j & p & T & _ & O)]] [(l' & p' & T' & O')|[(j' & e' & p' & T' & _ & _ & O')|(j' & p' & T' & _ & O')]]; congruence. }
  assert (Stop : forall a b, waits_for s a b -> ~ (can_go_on resets logs s a \/ waits_in_vain s a)).
  { intros a b W [[s' G]|(j & e & p & T & A & E)].
    - destruct W as [(l & p & T & O)|[(j & e & p & T & A & E & O)|(j & p & T & E & O)]]; inversion G; congruence.
    - destruct W as [(l & p' & T' & O)|[(j' & e' & p' & T' & A' & E' & O)|(j' & p' & T' & E' & O)]]; congruence. }
  assert (B : busy s t).
  { apply clos_trans_t1n in C. left. assert (W : exists u, waits_for s t u) by (inversion C; eauto). destruct W as [u W]. destruct W as [(l & p & T & O)|[(j & e & p & T & _)|(j & p & T & _)]]; rewrite T; discriminate. }
  destruct (busy_settles resets logs NB s t I B) as (u & W & G).
  (* along the circle one never comes to u *)
  assert (On : forall v, clos_refl_trans thread (waits_for s) t v -> clos_trans thread (waits_for s) v v).
  { intros v V. apply clos_rt_rt1n in V. clear B W G. induction V as [x|x y z Wxy V IH]; [exact C|]. apply IH.
    apply clos_trans_t1n in C. inversion C as [k Wk|k k' Wk C']; subst; [assert (x = y) by eauto; subst; now apply t_step|].
    assert (k = y) by eauto. subst. eapply t_trans; [apply clos_t1n_trans; eassumption|now apply t_step]. }
  specialize (On u W). apply clos_trans_t1n in On. inversion On as [v Wv|v v' Wv C']; subst; exact (Stop _ _ Wv G).
Qed.
Print Assumptions C135_no_circle.
(** A thread that has returned from its call has no lock. *)
Theorem C135_released : forall resets logs s t l, reaches resets logs start s -> todo s t = [] -> owner s l <> Some t.
Proof.
  intros resets logs s t l R T O. assert (I : inv resets logs s) by (apply (inv_reach resets logs start s R), inv_start).
  destruct (proj1 I t) as (h & F & _ & Ow). rewrite T in F. cbn in F. subst. now apply Ow in O.
Qed.
Print Assumptions C135_released.

(** Refuted with both: a program that resets logging while a worker is about to log waits for the worker, and the worker for the program,
    until the time to wait is over, whatever the other threads do. *)
Theorem C135_reset_refuted : exists s, reaches true true start s
  /\ forall s', goes_on true true s s' -> waits_for s' (User 0) (Worker 0) /\ waits_for s' (Worker 0) (User 0)
     /\ ~ can_go_on true true s' (User 0) /\ ~ can_go_on true true s' (Worker 0).
Proof.
  set (stuck := fun s => inv true true s /\ todo s (User 0) = [Await 0 0; Rel Handler] /\ owner s Handler = Some (User 0) /\ answered s 0 0 = false
    /\ ended s 0 = false /\ exists p, todo s (Worker 0) = Acq Handler :: p).
  assert (K : forall s t s', stuck s -> step true true t s s' -> stuck s').
  { intros s t s' (I & T0 & O & A & E & p & TW) H.
    assert (NU : t <> User 0) by (intros ->; inversion H; congruence).
    assert (NW : t <> Worker 0) by (intros ->; inversion H; congruence).
    split; [eapply inv_step; eauto|]. destruct (proj1 I t) as (h & F & _ & Ow).
    assert (X : todo s' (User 0) = todo s (User 0) /\ todo s' (Worker 0) = todo s (Worker 0)).
    { inversion H; subst; cbn [todo set_todo set_owner]; destruct (thread_dec (User 0) _); destruct (thread_dec (Worker 0) _); try congruence; auto. }
    destruct X as [-> ->]. split; [exact T0|]. split; [|split; [|split; [|eauto]]].
    - inversion H; subst; cbn [owner set_todo set_owner]; try exact O; (destruct (lock_dec Handler l) as [<-|]; [|exact O]); [congruence|].
      match goal with T : todo s t = Rel Handler :: _ |- _ => rewrite T in F end. destruct F as (h' & -> & _).
      assert (owner s Handler = Some t) by (apply Ow; now left). congruence.
    - inversion H; subst; cbn [answered set_todo set_owner]; try exact A.
      match goal with T : todo s t = Answer _ _ :: _ |- _ => rewrite T in F end. destruct F as (-> & _).
      destruct (Nat.eq_dec 0 j); [congruence|exact A].
    - inversion H; subst; cbn [ended set_todo set_owner]; try exact E.
      match goal with T : todo s t = End _ :: _ |- _ => rewrite T in F end. destruct F as (-> & _).
      destruct (Nat.eq_dec 0 j); [congruence|exact E]. }
  assert (Done : forall s, stuck s -> waits_for s (User 0) (Worker 0) /\ waits_for s (Worker 0) (User 0)
     /\ ~ can_go_on true true s (User 0) /\ ~ can_go_on true true s (Worker 0)).
  { intros s (_ & T0 & O & A & E & p & TW). split; [right; left; eauto 9|]. split; [left; eauto|].
    split; intros [s' G]; inversion G; congruence. }
  assert (R : exists s, reaches true true start s /\ stuck s).
  { pose (s1 := set_todo (Worker 0) (worker_acts 0 false [[]] [0] false) start).
    pose (s2 := set_todo (Worker 0) (tl (worker_acts 0 false [[]] [0] false)) (set_owner (Cond 0) (Some (Worker 0)) s1)).
    pose (s3 := set_todo (Worker 0) (tl (tl (worker_acts 0 false [[]] [0] false))) (set_owner (Cond 0) None s2)).
    pose (s4 := set_todo (User 0) (reset_acts 0 0) s3).
    pose (s5 := set_todo (User 0) (tl (reset_acts 0 0)) (set_owner Handler (Some (User 0)) s4)).
    pose (s6 := set_todo (User 0) (tl (tl (reset_acts 0 0))) (set_owner (Cond 0) (Some (User 0)) s5)).
    pose (s7 := set_todo (User 0) (tl (tl (tl (reset_acts 0 0)))) (set_owner (Cond 0) None s6)).
    assert (Re : reaches true true start s7).
    { apply re_step with (s1 := s6) (t := User 0); [|apply s_rel; reflexivity].
      apply re_step with (s1 := s5) (t := User 0); [|apply s_acq; reflexivity].
      apply re_step with (s1 := s4) (t := User 0); [|apply s_acq; reflexivity].
      apply re_step with (s1 := s3) (t := User 0); [|apply (s_reset true true (User 0) s3 0); reflexivity].
      apply re_step with (s1 := s2) (t := Worker 0); [|apply s_rel; reflexivity].
      apply re_step with (s1 := s1) (t := Worker 0); [|apply s_acq; reflexivity].
      apply re_step with (s1 := start) (t := Worker 0); [apply re_here|]. apply s_worker; auto. }
    exists s7. split; [exact Re|]. split; [apply (inv_reach true true start _ Re), inv_start|]. split; [reflexivity|]. split; [reflexivity|]. split; [reflexivity|]. split; [reflexivity|]. eexists. reflexivity. }
  destruct R as (s & R & S). exists s. split; [exact R|]. intros s' G. apply Done. revert S. clear R. induction G; eauto.
Qed.
Print Assumptions C135_reset_refuted.

(** A state where a thread that logs waits for another one that logs, and this for a worker *)
Example C135_example : exists s, reaches false true start s /\ waits_for s (User 0) (User 1) /\ waits_for s (User 1) (Worker 0)
  /\ can_go_on false true s (Worker 0) /\ busy s (User 0).
Proof.
  pose (s1 := set_todo (User 1) (log_acts [0]) start).
  pose (s2 := set_todo (User 1) (tl (log_acts [0])) (set_owner Handler (Some (User 1)) s1)).
  pose (s3 := set_todo (User 0) (log_acts []) s2).
  pose (s4 := set_todo (Worker 0) (worker_acts 0 true [[]] [] true) s3).
  pose (s5 := set_todo (Worker 0) (tl (worker_acts 0 true [[]] [] true)) (set_owner (Cond 0) (Some (Worker 0)) s4)).
  exists s5. split.
  - apply re_step with (s1 := s4) (t := Worker 0); [|apply s_acq; reflexivity].
    apply re_step with (s1 := s3) (t := Worker 0); [|apply s_worker; auto].
    apply re_step with (s1 := s2) (t := User 0); [|apply (s_log false true (User 0) s2 0); reflexivity].
    apply re_step with (s1 := s1) (t := User 1); [|apply s_acq; reflexivity].
    apply re_step with (s1 := start) (t := User 1); [apply re_here|]. apply (s_log false true (User 1) start 1); reflexivity.
  - split; [left; exists Handler, [Rel Handler]; split; reflexivity|]. split; [left; exists (Cond 0), [Rel (Cond 0); Rel Handler]; split; reflexivity|].
    split; [eexists; eapply s_rel; reflexivity|]. left. discriminate.
Qed.
