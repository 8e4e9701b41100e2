(** Property theorems C112: spans and batch processors in programs that fork.
    Vocabulary: Model_Fork.v (processes, each with its copy of a batch processor), Spec_Fork.v (what they export), Spec_Processor.v;
    Model_SpanThreads.v and Spec_SpanThreads.v for a span that was open at a fork. *)
From Verif Require Import Spec_Fork Proof_Fork.
Local Open Scope nat_scope.

(** ** The batch processor (C34-C37 and C63 hold of each process as well: their [bsp_reach] includes forks) *)

(** Whatever the processes do and whenever they fork, no call of on_end leads to two exports, in whatever processes, and a process only exports
    the sampled spans that ended in it. *)
Theorem C112_once :
  forall (X : Type) (sampled : X -> bool) maxq maxb, 1 <= maxq -> 1 <= maxb ->
  forall es, let w := prun X sampled maxq maxb es (pworld_init X) in
  NoDup (map fst (all_exported w))
  /\ forall p s n x, nth_error (p_procs w) p = Some s -> In (n, x) (exported_by s) ->
       nth_error (p_calls w) n = Some (p, x) /\ sampled x = true.
Proof. intros X sampled maxq maxb Q1 B1 es w. pose proof (winv_start X sampled maxq maxb Q1 B1 es) as I. split; [exact (exported_once X sampled maxq maxb Q1 B1 w I)|]. intros p s n x N J. exact (exported_where X sampled maxq maxb Q1 B1 w p s n x I N J). Qed.
Print Assumptions C112_once.

(** And nothing is lost: when a force_flush (that returned True) or a shutdown has returned in a process that was not shut down, each sampled span
    that had ended in it, with its on_end past the queue, has been exported by this process, unless its full queue dropped it, which does not happen before
    more than [maxq] spans have ended in it. *)
Theorem C112_settled :
  forall (X : Type) (sampled : X -> bool) maxq maxb, 1 <= maxq -> 1 <= maxb ->
  forall before later p t e s0 s,
  let w0 := prun X sampled maxq maxb before (pworld_init X) in
  let w := prun X sampled maxq maxb (before ++ (p, e) :: later) (pworld_init X) in
  nth_error (p_procs w0) p = Some s0 -> in_no_call (nat * X) (b_thr s0 t) = true -> b_done s0 = false ->
  makes_no_call p t later -> nth_error (p_procs w) p = Some s ->
  (e = PFlush t /\ (exists n0, b_thr s t = TFlushRet n0 false true)) \/ (e = PShutdown t /\ (exists n0 first, b_thr s t = TShutRet n0 first)) ->
  forall n x, nth_error (p_calls w0) n = Some (p, x) -> sampled x = true -> ~ on_its_way s0 (n, x) ->
  (In (n, x) (exported_by s) \/ dropped_by s (n, x)) /\ (length (b_acc s) <= maxq -> In (n, x) (exported_by s)).
Proof. intros X sampled maxq maxb Q1 B1 before later p t e s0 s w0 w N0 C D M N1 CASE. exact (call_exports X sampled maxq maxb Q1 B1 before later p t s0 s e N0 C D M N1 CASE). Qed.
Print Assumptions C112_settled.

(** A fork leaves the other processes alone; the child has nothing in its queue, has accepted nothing, is in no call, and is shut down iff its parent
    is.  In each process a thread in a call, or the worker, can always go on. *)
Theorem C112_child :
  forall (X : Type) (sampled : X -> bool) maxq maxb, 1 <= maxq -> 1 <= maxb ->
  forall es, let w := prun X sampled maxq maxb es (pworld_init X) in
  (forall p t s, nth_error (p_procs w) p = Some s -> in_no_call (nat * X) (b_thr s t) = true ->
     exists child, let w' := pstep X sampled maxq maxb w (p, PFork t) in
       p_procs w' = p_procs w ++ [child] /\ p_calls w' = p_calls w
       /\ b_queue child = [] /\ exported_by child = [] /\ b_acc child = [] /\ b_done child = b_done s /\ forall t', b_thr child t' = TIdle)
  /\ (forall p t s, nth_error (p_procs w) p = Some s -> in_no_call (nat * X) (b_thr s t) = false ->
        exists s', bsp_step (nat * X) (call_sampled X sampled) maxq maxb s EWork = Some s'
                \/ bsp_step (nat * X) (call_sampled X sampled) maxq maxb s (EStep t) = Some s'
                \/ bsp_step (nat * X) (call_sampled X sampled) maxq maxb s (ETimeout t) = Some s').
Proof.
  intros X sampled maxq maxb Q1 B1 es w. split.
  - intros p t s N C. exists (bsp_fork (nat * X) s). cbn zeta. rewrite (fork_child X sampled maxq maxb w p s t N C). repeat split.
  - intros p t s N C. exact (process_progress X sampled maxq maxb Q1 B1 es p s t N C).
Qed.
Print Assumptions C112_child.

(** Process 0 ends span 7; forks while its worker has span 7 on the way; the child ends 8, the parent 9; both flush. *)
Definition fork_schedule : list (nat * pev nat) :=
  [(0, POnEnd 0 7); (0, PStep 0); (0, PStep 0); (0, PStep 0); (0, PFork 0); (1, POnEnd 3 8); (1, PStep 3); (1, PStep 3); (1, PStep 3);
   (0, POnEnd 0 9); (0, PStep 0); (0, PStep 0); (0, PStep 0);
   (1, PFlush 3); (1, PStep 3); (1, PStep 3)]
  ++ repeat (1, PWork) 20 ++ [(1, PStep 3); (0, PFlush 0); (0, PStep 0); (0, PStep 0)] ++ repeat (0, PWork) 30 ++ [(0, PStep 0)].
Example C112_example :
  let w := prun nat (fun _ => true) 4 2 fork_schedule (pworld_init nat) in
  map exported_by (p_procs w) = [[(0, 7); (2, 9)]; [(1, 8)]] /\ p_calls w = [(0, 7); (1, 8); (0, 9)]
  /\ map (fun s => (b_thr s 0, b_thr s 3)) (p_procs w) = [(TFlushRet 2 false true, TIdle); (TIdle, TFlushRet 1 false true)].
Proof. vm_compute. repeat split. Qed.

(** But a span that is open at a fork and that both processes end is exported by both. *)
Theorem C112_open_span_refuted :
  exists es, let w := prun nat (fun _ => true) 4 2 es (pworld_init nat) in
  In (0, PFork 0) es /\ map (fun s => map snd (exported_by s)) (p_procs w) = [[7]; [7]].
Proof.
  exists ([(0, PFork 0)] ++ concat (map (fun p => [(p, POnEnd 0 7); (p, PStep 0); (p, PStep 0); (p, PStep 0); (p, PShutdown 0); (p, PStep 0)] ++ repeat (p, PWork) 10) [0; 1])).
  cbn zeta. split; [now left|]. vm_compute. reflexivity.
Qed.
Print Assumptions C112_open_span_refuted.

(** ** A span that was open at a fork *)
From Verif Require Import Spec_SpanThreads Proof_SpanThreads.

(** If no thread was inside a method of the span, the child's copy goes on as the span was: it shows what was recorded before the fork and by the child
    after it, up to the first end(); on_end is called for it in the child at most once, not at all if the span had ended before the fork, and it is called if the child
    ended it; and no thread of the child waits for ever (if logging handlers make no calls on the span). *)
Theorem C112_span_partial :
  forall warns warned handler processor lim name ctx parent kind attrs links s0 t0 now programs schedule1 t schedule2,
    limits_ok lim -> new_span lim name ctx parent kind attrs links = Ok s0 ->
    let m1 := fold_left (tmove warns warned handler processor) schedule1 (threads_init (start_locked t0 now s0) programs) in
    let m2 := fold_left (tmove warns warned handler processor) schedule2 (span_fork t m1) in
    let acts := schedule_of (m_log m1) ++ schedule_of (m_log m2) in
    may_fork t m1 = true -> m_lock m1 = None ->
    (m_lock m2 = None -> carries lim name ctx parent kind attrs links (at_time t0 now) (until_end acts) (m_span m2) /\ sp_end (m_span m2) = first_end acts)
    /\ length (handed_over (m_log m2)) <= (match first_end (schedule_of (m_log m1)) with Some _ => 0 | None => 1 end)
    /\ (forall x, In x (handed_over (m_log m2)) ->
          carries lim name ctx parent kind attrs links (at_time t0 now) (until_end acts) x /\ sp_end x = first_end acts)
    /\ (finished m2 -> first_end (schedule_of (m_log m1)) = None -> first_end acts <> None -> length (handed_over (m_log m2)) = 1)
    /\ (only_reads handler -> finished m2 \/ exists i m', tstep warns warned handler processor i m2 = Some m').
Proof. intros. eapply child_result; eauto. Qed.
Print Assumptions C112_span_partial.
(** Missing: forks while another thread is inside a method of the span, because of the next theorem. *)

(** If another thread was inside a method of the span, its lock is never given back in the child: the first method that the child calls on the span never returns. *)
Definition fork_limits := SLimits (Some 128%Z) (Some 128%Z) (Some 128%Z) (Some 128%Z) (Some 128%Z) (Some 128%Z) None None.
Theorem C112_span_lock_refuted :
  exists s0 schedule1, new_span fork_limits (lit "n") (SC 1 2 false 1 []) None 0 [] [] = Ok s0
    /\ let move := tmove (fun _ => 0) (fun _ => 0) [] [] in
       let m1 := fold_left move schedule1 (threads_init (start_locked None 1 s0)
                   [[CCall (OUpdateName (lit "a"))]; [CCall (OSetAttributes [(PStr false (lit "k"), PInt false 1)])]]) in
       may_fork 0 m1 = true
       /\ forall schedule2, let m2 := fold_left move schedule2 (span_fork 0 m1) in done_by 0 (m_log m2) = [] /\ ~ finished m2.
Proof.
  eexists _, [1; 1]. split; [reflexivity|]. cbn zeta. split; [reflexivity|].
  set (a := span_fork 0 _). set (b := tmove (fun _ => 0) (fun _ => 0) [] [] a 0).
  assert (H : forall sch m, m = a \/ m = b -> let m2 := fold_left (tmove (fun _ => 0) (fun _ => 0) [] []) sch m in m2 = a \/ m2 = b).
  { induction sch as [|i sch IH]; intros m D; [exact D|]. cbn [fold_left]. apply IH. destruct D as [-> | ->].
    - destruct i as [|[|i]]; [right; reflexivity|left; reflexivity|left; unfold a; destruct i; reflexivity].
    - right. destruct i as [|[|i]]; [reflexivity|reflexivity|destruct i; reflexivity]. }
  intros schedule2. cbn zeta. destruct (H schedule2 a (or_introl eq_refl)) as [-> | ->]; (split; [reflexivity|]); vm_compute; intros F; inversion F; discriminate.
Qed.
Print Assumptions C112_span_lock_refuted.

(** The first thread forks between two calls of the other; the child renames and ends its copy. *)
Example C112_span_example :
  exists s0, new_span fork_limits (lit "n") (SC 1 2 false 1 []) None 0 [] [] = Ok s0
    /\ let m1 := fold_left (tmove (fun _ => 0) (fun _ => 0) [] []) [1; 1; 1; 1; 1; 1; 1; 1] (threads_init (start_locked None 1 s0)
                   [[CCall (OUpdateName (lit "a")); CCall (OEnd None 9)]; [CCall (OSetAttributes [(PStr false (lit "k"), PInt false 1)]); CCall (OEnd None 8)]]) in
       may_fork 0 m1 = true /\ m_lock m1 = None
       /\ let m2 := fold_left (tmove (fun _ => 0) (fun _ => 0) [] []) (repeat 0 14) (span_fork 0 m1) in
          finished m2 /\ map sp_name (handed_over (m_log m2)) = [lit "a"] /\ map sp_end (handed_over (m_log m2)) = [Some 9%Z]
          /\ ba_dict (sp_attrs (m_span m2)) = [(lit "k", PInt false 1)].
Proof. eexists. split; [reflexivity|]. vm_compute. repeat split; repeat constructor. Qed.
