(** C122: telemetry kept in memory. *)
From Verif Require Import Spec_Memory Proof_Memory.
From Coq Require Import Permutation.
Local Open Scope nat_scope.

(** However threads export, clear, read and shut down: each get_finished_spans returns whole batches, one after the other, of calls of
    export that have succeeded, each once, in an order that agrees with time; none that was cleared is missing or too many. *)
Theorem C122_reads : forall (A : Type) (h : list (mev A)) h1 h2, h = h1 ++ MGet :: h2 ->
  exists gets1 gets2 order, m_gets (mrun h m_init) = gets1 ++ concat (map (batch_of h1) order) :: gets2
    /\ length gets1 = length (filter (fun e => match e with MGet => true | _ => false end) h1)
    /\ shown h1 order.
Proof.
  intros A h h1 h2 ->. induction h2 as [|e h2 (g1 & g2 & o & E & L & S)] using rev_ind.
  - exists (m_gets (mrun h1 m_init)), [], (ord h1). rewrite mrun_snoc. cbn [mstep m_gets]. rewrite ord_items. split; [reflexivity|]. split; [|apply ord_shown].
    clear. induction h1 as [|e h IH] using rev_ind; [reflexivity|]. rewrite mrun_snoc, filter_app, app_length, <- IH.
    destruct e as [b|n| | |]; cbn [mstep m_gets filter length]; rewrite ?app_length; cbn [length]; try lia.
    destruct (nth_error (m_calls (mrun h m_init)) n) as [[b|b ok]|]; cbn [m_gets]; lia.
  - replace (h1 ++ MGet :: h2 ++ [e]) with ((h1 ++ MGet :: h2) ++ [e]) by (rewrite <- app_assoc; reflexivity). rewrite mrun_snoc.
    destruct e as [b|n| | |]; cbn [mstep m_gets]; try (now exists g1, g2, o).
    + destruct (nth_error (m_calls (mrun (h1 ++ MGet :: h2) m_init)) n) as [[b|b ok]|]; cbn [m_gets]; now exists g1, g2, o.
    + eexists g1, _, o. rewrite E, <- app_assoc. cbn [app]. split; [reflexivity|]. split; [exact L|exact S].
Qed.
Print Assumptions C122_reads.

(** An export gets its own batch, whatever others do; it fails if and only if shutdown was called before it. *)
Theorem C122_exports : forall (A : Type) (h : list (mev A)) b later,
  let n := length (m_calls (mrun h m_init)) in
  batch_of (h ++ MBegin b :: later) n = b
  /\ (result_of (h ++ MBegin b :: later) n = Some false <-> In MShutdown h).
Proof. intros A h b later. apply begin_result. Qed.
Print Assumptions C122_exports.

(** Call 0 is made before the shutdown and stores after it; call 1 is stored before call 0; the clear takes call 1 away. *)
Definition memory_case : list (mev nat) :=
  [MBegin [1; 2]; MBegin [3]; MStore 1; MGet; MStore 0; MGet; MClear; MBegin [4; 5]; MStore 2; MGet; MShutdown; MBegin [6]; MStore 3; MGet].
Example C122_case : m_gets (mrun memory_case m_init) = [[3]; [3; 1; 2]; [4; 5]; [4; 5]]
  /\ map (result_of memory_case) [0; 1; 2; 3; 4] = [Some true; Some true; Some true; Some false; None].
Proof. vm_compute. auto. Qed.

(** Finding.  After shutdown has returned the memory can still grow: the test of _stopped is not made under the lock. *)
Theorem C122_shutdown_refuted : exists (h1 h2 : list (mev nat)), last h1 MGet = MShutdown
  /\ (forall b, ~ In (MBegin b) h2)
  /\ m_gets (mrun (h1 ++ [MGet] ++ h2 ++ [MGet]) m_init) = [[]; [1]].
Proof.
  exists [MBegin [1]; MShutdown], [MStore 0]. split; [reflexivity|]. split; [|reflexivity]. intros b [H|[]]. discriminate H.
Qed.
Print Assumptions C122_shutdown_refuted.

(** The metric reader, with delta temporality.  Whatever else collects, no measurement is returned more often than it was made. *)
Theorem C122_reader_at_most_once : forall (A : Type) (h : list (qev A)),
  exists rest, Permutation (recorded h) (returned (q_gets (qrun h q_init)) ++ rest).
Proof.
  intros A h. destruct (accounted h) as [lost H]. unfold pool in H. rewrite <- !app_assoc in H. eexists. exact H.
Qed.
Print Assumptions C122_reader_at_most_once.

(** If nothing else collects, get_metrics_data returns every measurement exactly once, in order.
    Missing: collect and force_flush between two calls of get_metrics_data; see below. *)
Theorem C122_reader_partial : forall (A : Type) (h : list (qev A)),
  Forall (fun e => match e with QCollect | QReceive _ => False | _ => True end) h ->
  recorded h = returned (q_gets (qrun (h ++ [QGet]) q_init)).
Proof.
  intros A h F. destruct (only_gets (h ++ [QGet])) as (_ & _ & E).
  { apply Forall_app. split; [exact F|]. constructor; [exact I|constructor]. }
  rewrite recorded_snoc in E. rewrite app_nil_r in E. rewrite E, qrun_snoc. cbn [qstep q_new q_gets]. now rewrite app_nil_r.
Qed.
Print Assumptions C122_reader_partial.
Example C122_reader_case : q_gets (qrun [QRecord 1; QRecord 2; QGet; QGet; QRecord 3; QGet] q_init) = [Some [1; 2]; None; Some [3]].
Proof. reflexivity. Qed.

(** Finding.  What force_flush or collect has collected is overwritten by the next collection: it is never returned. *)
Theorem C122_reader_refuted : exists h1 : list (qev nat), In 1 (recorded h1) /\ ~ In QGet h1 /\
  forall h2, Forall (fun e => match e with QRecord a => a <> 1 | _ => True end) h2 ->
  ~ In 1 (returned (q_gets (qrun (h1 ++ h2) q_init))).
Proof.
  exists [QRecord 1; QCollect; QReceive 0; QRecord 2; QCollect; QReceive 1]. split; [now left|].
  split; [intros H; repeat (destruct H as [H|H]; [discriminate H|]); exact H|]. intros h2 F.
  assert (G : ~ In 1 (pool (qrun ([QRecord 1; QCollect; QReceive 0; QRecord 2; QCollect; QReceive 1] ++ h2) q_init))).
  { induction h2 as [|e h2 IH] using rev_ind; [intros H; vm_compute in H; destruct H as [H|[]]; discriminate H|].
    apply Forall_app in F as [F1 F2]. inversion F2 as [|? ? He _]; subst. specialize (IH F1). rewrite app_assoc, qrun_snoc.
    intros H. apply IH. revert H. generalize (qrun ([QRecord 1; QCollect; QReceive 0; QRecord 2; QCollect; QReceive 1] ++ h2) q_init).
    intros q. unfold pool. rewrite !in_app_iff. destruct e as [a| |n|]; cbn [qstep q_gets q_data q_flushes q_new].
    - rewrite in_app_iff. cbn [In]. intuition congruence.
    - rewrite returned_app, in_app_iff. change (returned [collect q]) with (held (collect q) ++ []). rewrite held_collect, app_nil_r. cbn [In]. tauto.
    - destruct (nth_error (q_flushes q) n) as [c|] eqn:E; [|tauto]. cbn [q_gets q_data q_flushes q_new].
      assert (K : forall x, In x (returned (q_flushes q)) <-> In x (held c) \/ In x (returned (firstn n (q_flushes q) ++ None :: skipn (S n) (q_flushes q)))).
      { intros x. rewrite <- in_app_iff. split; apply Permutation_in; [|apply Permutation_sym]; exact (take_nth _ _ _ E). }
      rewrite K. assert (R : In 1 (held (received c (q_data q))) -> In 1 (held c) \/ In 1 (held (q_data q))) by (destruct c; cbn [received held]; tauto).
      tauto.
    - rewrite returned_app, in_app_iff. change (returned [received (collect q) (q_data q)]) with (held (received (collect q) (q_data q)) ++ []).
      rewrite app_nil_r. assert (R : In 1 (held (received (collect q) (q_data q))) -> In 1 (q_new q) \/ In 1 (held (q_data q))).
      { rewrite <- (held_collect q). destruct (collect q); cbn [received held]; tauto. }
      cbn [held In]. tauto. }
  intros H. apply G. unfold pool. apply in_app_iff. now left.
Qed.
Print Assumptions C122_reader_refuted.
