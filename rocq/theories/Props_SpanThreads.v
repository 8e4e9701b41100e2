(** Property theorems C111: a span that several threads use.
    Vocabulary: Model_SpanThreads.v (threads, the span's lock, what happens inside it), Spec_SpanThreads.v (the order in which
    calls had the lock, what on_end got), Spec_Span.v (what a span with a history shows). *)
From Verif Require Import Spec_SpanThreads Proof_SpanThreads.
Local Open Scope nat_scope.

(** A span is made and started; then threads with any programs run in any order.  [warns] and [warned]: how many records are logged
    for an item or a call; [handler], [processor]: the calls on the span that logging handlers and on_end make. *)

(** Whenever no thread is inside a method, the span shows exactly what the calls left, one after the other in the order in which they
    had the lock, up to the first end(), and its end time is the one of that call.  on_end is called at most once, with a span that
    shows the same and has ended; if all threads have come to their end and somebody ended the span, it was called. *)
Theorem C111_threads :
  forall warns warned handler processor lim name ctx parent kind attrs links s0 t now programs schedule,
    limits_ok lim -> new_span lim name ctx parent kind attrs links = Ok s0 ->
    let m := fold_left (tmove warns warned handler processor) schedule (threads_init (start_locked t now s0) programs) in
    let acts := schedule_of (m_log m) in
    (m_lock m = None -> carries lim name ctx parent kind attrs links (at_time t now) (until_end acts) (m_span m) /\ sp_end (m_span m) = first_end acts)
    /\ length (handed_over (m_log m)) <= 1
    /\ (forall x, In x (handed_over (m_log m)) ->
          carries lim name ctx parent kind attrs links (at_time t now) (until_end acts) x /\ sp_end x = first_end acts /\ first_end acts <> None)
    /\ (finished m -> m_lock m = None /\ (first_end acts <> None -> length (handed_over (m_log m)) = 1)).
Proof. intros. eapply threads_result; eauto. Qed.
Print Assumptions C111_threads.

(** Each thread's calls have the lock in the order of its program, and all of them once the threads have come to their end (if the
    handlers and the processor add no calls of their own). *)
Theorem C111_order :
  forall warns warned handler processor s0 t now programs schedule,
    only_reads handler -> only_reads processor ->
    let m := fold_left (tmove warns warned handler processor) schedule (threads_init (start_locked t now s0) programs) in
    forall i p, nth_error programs i = Some p ->
      exists rest, method_calls p = done_by i (m_log m) ++ rest /\ (finished m -> rest = []).
Proof. intros. eapply threads_order; eauto. Qed.
Print Assumptions C111_order.

(** If logging handlers make no calls on the span, some thread can always go on until all have come to their end, and that happens
    after a bounded number of steps, whatever the schedule. *)
Theorem C111_no_deadlock_partial :
  forall warns warned handler processor lim name ctx parent kind attrs links s0 t now programs,
    limits_ok lim -> new_span lim name ctx parent kind attrs links = Ok s0 -> only_reads handler ->
    let m0 := threads_init (start_locked t now s0) programs in
    (forall schedule, let m := fold_left (tmove warns warned handler processor) schedule m0 in
       finished m \/ exists i m', tstep warns warned handler processor i m = Some m')
    /\ exists bound, forall schedule, steps_made warns warned handler processor schedule m0 <= bound.
Proof. intros. split; [intros; eapply threads_progress; eauto|eapply threads_bounded; eauto]. Qed.
Print Assumptions C111_no_deadlock_partial.
(** Missing: handlers that do make calls on the span, because of the next theorem. *)

(** Two programs, each with one thread, for which a handler that adds an event to the span for each record makes the thread wait for
    itself for ever: [span.set_attribute("k", None)], and a second [span.end()].  Both log while they hold the span's lock. *)
Definition plain_limits := SLimits (Some 128%Z) (Some 128%Z) (Some 128%Z) (Some 128%Z) (Some 128%Z) (Some 128%Z) None None.
Definition one_warning (kv : pyval * pyval) : nat := match snd kv with PNone => 1 | _ => 0 end.
Theorem C111_logging_refuted :
  forall program,
    program = [CCall (OSetAttributes [(PStr false (lit "k"), PNone)])] \/ program = [CCall (OEnd None 2); CCall (OEnd None 3)] ->
    exists s0 schedule, new_span plain_limits (lit "n") (SC 1 2 false 1 []) None 0 [] [] = Ok s0
      /\ let handler := [CCall (OAddEvent (lit "log") [] None 4)] in
         let m := fold_left (tmove one_warning (fun _ => 0) handler []) schedule (threads_init (start_locked None 1 s0) [program]) in
         ~ finished m /\ forall i, tstep one_warning (fun _ => 0) handler [] i m = None.
Proof.
  intros program [-> | ->].
  - eexists _, [0; 0; 0; 0; 0; 0]. split; [reflexivity|]. cbn zeta. split.
    + vm_compute. intros F. inversion F. discriminate.
    + intros [|[|i]]; vm_compute; reflexivity.
  - eexists _, [0; 0; 0; 0; 0; 0; 0; 0; 0; 0; 0]. split; [reflexivity|]. cbn zeta. split.
    + vm_compute. intros F. inversion F. discriminate.
    + intros [|[|i]]; vm_compute; reflexivity.
Qed.
Print Assumptions C111_logging_refuted.

(** Reading [span.attributes\[k\]] takes no lock: a key that was set before and is being set again can be missing in between. *)
Theorem C111_read_refuted :
  exists s0 schedule log,
    new_span plain_limits (lit "n") (SC 1 2 false 1 []) None 0 [(PStr false (lit "k"), PInt false 1)] [] = Ok s0
    /\ let m := fold_left (tmove one_warning (fun _ => 0) [] []) schedule
                  (threads_init (start_locked None 1 s0) [[CCall (OSetAttributes [(PStr false (lit "k"), PInt false 2)])]; [CGet (lit "k")]]) in
       log = m_log m /\ In (TGet 1 (lit "k") None) log /\ finished m.
Proof.
  eexists _, [0; 0; 0; 0; 1; 0; 0; 0; 0; 1], _. split; [reflexivity|]. cbn zeta. split; [reflexivity|]. split.
  - vm_compute. right. now left.
  - vm_compute. repeat constructor.
Qed.
Print Assumptions C111_read_refuted.

(** Two threads set, rename and end a span while the other does; a processor that reads an attribute. *)
Definition ex_programs : list (list scall) :=
  [ [CCall (OSetAttributes [(PStr false (lit "a"), PInt false 1); (PStr false (lit "b"), PInt false 2)]); CCall (OEnd None 9)];
    [CCall (OSetAttributes [(PStr false (lit "a"), PInt false 3)]); CCall (OUpdateName (lit "new")); CCall (OEnd None 8)] ].
Definition ex_schedule : list nat := [0; 0; 1; 0; 0; 0; 1; 0; 0; 0; 0; 0; 1; 1; 1; 1; 1; 1; 1; 1; 0; 0; 1; 0; 0; 1; 1; 0; 0; 0; 0; 0; 1; 1; 1; 1; 1; 1; 1; 1; 1; 0].
Example C111_example :
  exists s0, new_span plain_limits (lit "n") (SC 1 2 false 1 []) None 0 [] [] = Ok s0
    /\ let m := fold_left (tmove one_warning (fun _ => 0) [CGet (lit "a")] [CGet (lit "b")]) ex_schedule (threads_init (start_locked None 1 s0) ex_programs) in
       finished m /\ first_end (schedule_of (m_log m)) = Some 9%Z /\ length (handed_over (m_log m)) = 1
       /\ sp_name (m_span m) = lit "new" /\ ba_dict (sp_attrs (m_span m)) = [(lit "b", PInt false 2); (lit "a", PInt false 3)].
Proof.
  eexists. split; [reflexivity|]. vm_compute. repeat split; repeat constructor.
Qed.
Example C111_hypotheses : limits_ok plain_limits /\ only_reads [CGet (lit "a")].
Proof. split; [|reflexivity]. unfold limits_ok, not_negative. cbn. repeat split; intros z [= <-]; easy. Qed.
