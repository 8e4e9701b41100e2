(** Property theorems C32-C37 and C63: span processors.
    Vocabulary: Model_Processor.v (transition systems: events, program counters, [bsp_reach]),
    Spec_Processor.v ([registered], [deliveries], [flushed_in_time], [settled], [handed_over]). *)
From Verif Require Import Spec_Processor Proof_Processor Proof_Fanout.
Local Open Scope nat_scope.

(** C32: in every history of registrations and calls from any number of threads, a call that has
    returned has reached exactly the processors registered before it, each once, in order; a call in
    progress an initial part of them. *)
Theorem C32_fan_out_partial :
  forall (E : Type) (before later : list (mev E)) (t : nat) (e : E),
  m_pc (fold_left mstep before msp_init) t = MNew ->
  let s := fold_left mstep (before ++ MCall t e :: later) msp_init in
  exists ps,
    deliveries t s = map (fun p => (e, p)) ps
    /\ initial_part ps (registered before)
    /\ (m_pc s t = MRet -> ps = registered before)
    /\ ((forall raises, In (MNext t raises) later -> raises = false) -> m_pc s t <> MExc).
Proof. exact (fun E before later t e => fan_out E before t e later). Qed.
Print Assumptions C32_fan_out_partial.

Example C32_example :
  let s := fold_left mstep
    [MAdd 10; MAdd 11; MCall 0 true; MNext 0 false; MAdd 12; MCall 1 false; MNext 1 false;
     MNext 0 false; MNext 0 false; MNext 1 false] msp_init in
  m_pc s 0 = MRet /\ deliveries 0 s = [(true, 10); (true, 11)]
  /\ deliveries 1 s = [(false, 10); (false, 11)] /\ m_pc s 1 = MRun false [12].
Proof. vm_compute. repeat split. Qed.

(** ... but a processor that raises keeps the event from the processors after it. *)
Theorem C32_raising_processor_refuted :
  exists (es : list (mev bool)),
    let s := fold_left mstep es msp_init in
    registered es = [10; 11] /\ m_pc s 0 = MExc /\ deliveries 0 s = [(true, 10)]
    /\ forall later, deliveries 0 (fold_left mstep later s) = [(true, 10)].
Proof.
  exists [MAdd 10; MAdd 11; MCall 0 true; MNext 0 true].
  intros s. split; [reflexivity|]. split; [reflexivity|]. split; [reflexivity|].
  assert (H : forall later s', m_pc s' 0 = MExc -> deliveries 0 s' = [(true, 10)] ->
            deliveries 0 (fold_left mstep later s') = [(true, 10)]).
  { induction later as [|[p|t e|t r] later IH]; intros s' H1 H2; [exact H2| | |];
      cbn [fold_left]; apply IH; cbn [mstep].
    - exact H1.
    - exact H2.
    - destruct t; [rewrite H1; exact H1|]. destruct (m_pc s' (S t)); exact H1.
    - destruct t; [rewrite H1; exact H2|]. destruct (m_pc s' (S t)); exact H2.
    - destruct t; [rewrite H1; exact H1|]. destruct (m_pc s' (S t)) as [|? [|? ?]| |]; exact H1.
    - destruct t; [rewrite H1; exact H2|]. destruct (m_pc s' (S t)) as [|? [|? ?]| |]; try exact H2.
      rewrite deliveries_snoc. cbn [fst snd Nat.eqb]. rewrite app_nil_r. exact H2. }
  intros later. apply H; reflexivity.
Qed.
Print Assumptions C32_raising_processor_refuted.

(** force_flush: True iff every processor had its turn before the deadline and answered True; exactly
    the processors up to the first failure are asked, each with the time that is left. *)
Theorem C32_force_flush :
  forall clock flush n timeout,
  let r := sync_force_flush clock flush n timeout in
  let deadline := (clock O + timeout * 1000000)%Z in
  (fst r = true <-> forall i, i < n -> flushed_in_time clock flush timeout i)
  /\ (forall i, i < length (snd r) <->
        i < n /\ (forall j, j < i -> flushed_in_time clock flush timeout j) /\ (clock (S i) < deadline)%Z)
  /\ (forall i ms, nth_error (snd r) i = Some ms -> ms = ((deadline - clock (S i)) / 1000000)%Z).
Proof. exact sync_flush. Qed.
Print Assumptions C32_force_flush.

Example C32_force_flush_example :
  let clock := fun i => (Z.of_nat i * 3000000)%Z in
  sync_force_flush clock (fun i _ => negb (Nat.eqb i 7)) 3 10 = (true, [7; 4; 1]%Z)
  /\ sync_force_flush clock (fun i _ => negb (Nat.eqb i 1)) 3 10 = (false, [7; 4]%Z)
  /\ sync_force_flush clock (fun _ _ => true) 5 10 = (false, [7; 4; 1]%Z).
Proof. vm_compute. repeat split. Qed.

(** The concurrent multi processor: whatever the pool's order, a call that returns has reached every
    processor exactly once, and one that raises keeps the event from nobody (every task has run or
    still can). *)
Theorem C32_concurrent_fan_out :
  forall n es,
  let s := fold_left cstep es (cm_init n) in
  NoDup (c_calls s) /\ (forall i, In i (c_calls s) -> i < n)
  /\ (c_pc s = CRet -> forall i, i < n -> In i (c_calls s))
  /\ (c_pc s = CExc -> forall i, i < n ->
        In i (c_calls s) \/ In i (c_calls (cstep s (CPool i false)))).
Proof. exact conc_fan_out. Qed.
Print Assumptions C32_concurrent_fan_out.
Theorem C32_concurrent_force_flush :
  forall fs, conc_force_flush fs = true <-> forall f, In f fs -> f = Some true.
Proof. exact conc_flush. Qed.
Print Assumptions C32_concurrent_force_flush.

Example C32_concurrent_example :
  let run es := fold_left cstep es (cm_init 2) in
  c_calls (run [CMain; CMain; CMain; CPool 1 false; CPool 0 false; CMain; CMain; CMain]) = [1; 0]
  /\ c_pc (run [CMain; CMain; CMain; CPool 1 false; CPool 0 false; CMain; CMain; CMain]) = CRet
  /\ c_pc (run [CMain; CMain; CMain; CPool 0 true; CMain]) = CExc.
Proof. vm_compute. repeat split. Qed.

(** C33: an unsampled span changes nothing; for a sampled one the exporter is called once, with that
    span, while suppression is on; exceptions (of class Exception) do not escape and the context
    is restored. *)
Theorem C33_simple_unsampled :
  forall X item sampled export u x s st,
  sampled x = false -> simple_on_end X item sampled export u x s st = (s, st, Returned).
Proof. exact simple_unsampled. Qed.
Print Assumptions C33_simple_unsampled.

Theorem C33_simple_sampled :
  forall (X item : Type) (sampled : item -> bool)
    (export : list item -> runtime -> X -> runtime * X * outcome) u x s st,
  sampled x = true ->
  let s1 := fst (attach u (set_value SUPPRESS_KEY OTrue (get_current u s)) s) in
  let tok := snd (attach u (set_value SUPPRESS_KEY OTrue (get_current u s)) s) in
  let '(s2, st2, out2) := export [x] s1 st in
  let '(s', st', out) := simple_on_end X item sampled export u x s st in
  get_value SUPPRESS_KEY (get_current u s1) = OTrue
  /\ (forall k, k <> SUPPRESS_KEY -> get_value k (get_current u s1) = get_value k (get_current u s))
  /\ st' = st2
  /\ (out = Returned <-> forall e, out2 = Raised e -> ex_error e = true)
  /\ (out = Returned -> (exists ops, s2 = fold_left rt_step ops s1 /\ ~ In (RDetach u tok) ops) ->
        get_current u s' = get_current u s).
Proof. exact simple_sampled. Qed.
Print Assumptions C33_simple_sampled.

(** ... and over any sequence of spans, with an exporter that may raise any Exception at any time but
    logs what it is given, the log is the sampled spans, one call each, in order.
    Missing: exporters that raise other BaseExceptions (C33_base_exception_refuted). *)
Theorem C33_simple_sequence_partial :
  forall item (sampled : item -> bool) export u,
  (forall b s log, snd (fst (export b s log)) = log ++ [b]) ->
  (forall b s log e, snd (export b s log) = Raised e -> ex_error e = true) ->
  forall xs s log,
    snd (fst (simple_run (list (list item)) item sampled export u xs s log))
      = log ++ map (fun x => [x]) (filter sampled xs)
    /\ snd (simple_run (list (list item)) item sampled export u xs s log) = Returned.
Proof. exact simple_sequence. Qed.
Print Assumptions C33_simple_sequence_partial.

Definition flaky_export (b : list nat) (s : runtime) (log : list (list nat)) :
  runtime * list (list nat) * outcome :=
  (s, log ++ [b], if Nat.even (length log) then Raised (Exc true (lit "IOError") [] 1) else Returned).
Example C33_example :
  simple_run _ _ (fun x => negb (Nat.eqb x 2)) flaky_export 0 [1; 2; 3; 4] rt_init []
  = let '(s, log, out) := simple_run _ _ (fun x => negb (Nat.eqb x 2)) flaky_export 0 [1; 2; 3; 4] rt_init [] in
    (s, [[1]; [3]; [4]], Returned).
Proof. vm_compute. reflexivity. Qed.

(** A BaseException (KeyboardInterrupt) from the exporter leaves suppression switched on. *)
Theorem C33_base_exception_refuted :
  exists (export : list nat -> runtime -> nat -> runtime * nat * outcome) e,
    ex_error e = false
    /\ let '(s', _, out) := simple_on_end nat nat (fun _ => true) export 0 5 rt_init 0 in
       out = Raised e
       /\ get_value SUPPRESS_KEY (get_current 0 rt_init) = ONone
       /\ get_value SUPPRESS_KEY (get_current 0 s') = OTrue.
Proof.
  exists (fun _ s n => (s, n, Raised (Exc false (lit "KeyboardInterrupt") [] 1))),
    (Exc false (lit "KeyboardInterrupt") [] 1).
  vm_compute. repeat split.
Qed.
Print Assumptions C33_base_exception_refuted.

(** ** The batch processor, under every interleaving of any number of threads *)

(** C34: the accepted items are, in order, those that have left the queue and those in it.  Of those
    that have left, the ones not evicted are, in order, what the exporter was given and the batch
    being assembled; those whose export has not returned are the worker's current batch.  Only
    sampled items are accepted; one that on_end refused was unsampled or came after shutdown. *)
Theorem C34_conservation :
  forall (item : Type) (sampled : item -> bool) (maxq maxb : nat), 1 <= maxq -> 1 <= maxb ->
  forall s, bsp_reach item sampled maxq maxb s ->
  b_acc s = map fst (b_gone s) ++ b_queue s
  /\ handed_over (b_log s) ++ assembling (b_wpc s)
     = map fst (filter (fun p => was_taken (snd p)) (b_gone s))
  /\ map fst (filter (fun p => in_flight (snd p)) (b_gone s)) = current_batch (b_wpc s)
  /\ (forall x, In x (b_acc s) -> sampled x = true)
  /\ (forall t x taken, b_thr s t = TOnEndRet x taken ->
        if taken then In x (b_acc s) else sampled x = false \/ b_done s = true).
Proof. exact c34_conservation. Qed.
Print Assumptions C34_conservation.

(** ... and the history is only ever extended: a step accepts at most one item, and what has become
    of an item changes only from "in flight" to "exported".  C35: only a full queue evicts, and it
    evicts its oldest item. *)
Theorem C35_steps :
  forall (item : Type) (sampled : item -> bool) (maxq maxb : nat), 1 <= maxq -> 1 <= maxb ->
  forall s e s', bsp_reach item sampled maxq maxb s -> bsp_step item sampled maxq maxb s e = Some s' ->
  (b_acc s' = b_acc s \/ exists t x, e = EStep t /\ b_thr s t = TAppend x /\ b_acc s' = b_acc s ++ [x])
  /\ (b_gone s' = b_gone s
      \/ (e = EWork /\ b_gone s' = map (fun p => (fst p, landed (snd p))) (b_gone s)
          /\ exists k b, b_wpc s = WSend k b)
      \/ (e = EWork /\ exists x q, b_queue s = x :: q /\ b_queue s' = q
            /\ b_gone s' = b_gone s ++ [(x, InFlight)])
      \/ (exists t x y q, e = EStep t /\ b_thr s t = TAppend x /\ b_queue s = y :: q
            /\ length (b_queue s) = maxq /\ b_queue s' = q ++ [x]
            /\ b_gone s' = b_gone s ++ [(y, Evicted)])).
Proof. exact step_history. Qed.
Print Assumptions C35_steps.

(** C35: the bounds. *)
Theorem C35_bounds :
  forall (item : Type) (sampled : item -> bool) (maxq maxb : nat), 1 <= maxq -> 1 <= maxb ->
  forall s, bsp_reach item sampled maxq maxb s ->
  length (b_queue s) <= maxq
  /\ forall b, In (XExport b) (b_log s) -> 1 <= length b <= maxb.
Proof. exact c35_bounds. Qed.
Print Assumptions C35_bounds.

(** C36: when force_flush has returned True, and did not find the processor shut down, the [n0]
    items accepted before the call have been exported or evicted. *)
Theorem C36_force_flush_partial :
  forall (item : Type) (sampled : item -> bool) (maxq maxb : nat), 1 <= maxq -> 1 <= maxb ->
  forall s t n0, bsp_reach item sampled maxq maxb s ->
  b_thr s t = TFlushRet n0 false true -> settled n0 s.
Proof. exact c36_flush. Qed.
Print Assumptions C36_force_flush_partial.

(** ... and it does not wait in vain: as long as nobody shuts the processor down, the worker, left
    to itself, sets the event a flusher waits for. *)
Theorem C36_flush_is_served :
  forall (item : Type) (sampled : item -> bool) (maxq maxb : nat), 1 <= maxq -> 1 <= maxb ->
  forall s t r n0, bsp_reach item sampled maxq maxb s -> b_done s = false ->
  b_thr s t = TFlushWait r n0 ->
  exists n, In r (b_set (bsp_run item sampled maxq maxb (repeat EWork n) s)).
Proof. exact flush_served. Qed.
Print Assumptions C36_flush_is_served.

(** C37: when a shutdown that was called on a processor not yet shut down has returned, the items
    accepted before the call have been exported or evicted and the worker has ended. *)
Theorem C37_shutdown_drains_partial :
  forall (item : Type) (sampled : item -> bool) (maxq maxb : nat), 1 <= maxq -> 1 <= maxb ->
  forall s t n0 first, bsp_reach item sampled maxq maxb s ->
  b_thr s t = TShutRet n0 first ->
  b_wpc s = WEnd /\ (first = true -> settled n0 s).
Proof. exact c37_shutdown. Qed.
Print Assumptions C37_shutdown_drains_partial.

(** ... the exporter is shut down only after its last export ... *)
Theorem C37_exporter_calls :
  forall (item : Type) (sampled : item -> bool) (maxq maxb : nat), 1 <= maxq -> 1 <= maxb ->
  forall s, bsp_reach item sampled maxq maxb s ->
  exists batches n, b_log s = map XExport batches ++ repeat XShutdown n.
Proof. exact c37_log. Qed.
Print Assumptions C37_exporter_calls.

(** ... and the worker, left to itself, ends once shutdown was called. *)
Theorem C37_worker_ends :
  forall (item : Type) (sampled : item -> bool) (maxq maxb : nat), 1 <= maxq -> 1 <= maxb ->
  forall s, bsp_reach item sampled maxq maxb s -> b_done s = true ->
  exists n, b_wpc (bsp_run item sampled maxq maxb (repeat EWork n) s) = WEnd.
Proof. exact worker_ends. Qed.
Print Assumptions C37_worker_ends.

(** C63: no deadlock: whatever call a thread is in, that thread or the worker can make a step. *)
Theorem C63_no_deadlock :
  forall (item : Type) (sampled : item -> bool) (maxq maxb : nat), 1 <= maxq -> 1 <= maxb ->
  forall s t, bsp_reach item sampled maxq maxb s -> in_no_call item (b_thr s t) = false ->
  exists s', bsp_step item sampled maxq maxb s EWork = Some s'
          \/ bsp_step item sampled maxq maxb s (EStep t) = Some s'
          \/ bsp_step item sampled maxq maxb s (ETimeout t) = Some s'.
Proof. exact progress. Qed.
Print Assumptions C63_no_deadlock.

(** *** Concrete runs: queue of 2, batches of 1 *)
Lemma run_reach {item sampled maxq maxb} es : forall s, bsp_reach item sampled maxq maxb s ->
  bsp_reach item sampled maxq maxb (bsp_run item sampled maxq maxb es s).
Proof.
  induction es as [|e es IH]; intros s H; [exact H|]. cbn [bsp_run].
  destruct (bsp_step item sampled maxq maxb s e) as [s'|] eqn:E; [|auto].
  apply IH. eapply br_step; eauto.
Qed.
Definition put (t x : nat) : list (bev nat) := [ECall t (COnEnd x); EStep t; EStep t; EStep t].
Definition ok5 (x : nat) : bool := negb (Nat.eqb x 5).
Definition toy (es : list (bev nat)) : bsp nat := bsp_run nat ok5 2 1 es (bsp_init nat false false).

(** Three items into a queue of two, one unsampled, a flush in which the worker exports, shutdown. *)
Definition toy_schedule : list (bev nat) :=
  put 0 1 ++ put 1 5 ++ put 1 2 ++ put 0 3
  ++ [ECall 2 CFlush; EStep 2; EStep 2] ++ repeat EWork 30 ++ [EStep 2]
  ++ put 0 4 ++ [ECall 3 CShutdown; EStep 3; EStep 3] ++ repeat EWork 40 ++ [EStep 3; EStep 3; EStep 3].
Example C34_example :
  bsp_reach nat ok5 2 1 (toy toy_schedule)
  /\ b_acc (toy toy_schedule) = [1; 2; 3; 4]
  /\ b_gone (toy toy_schedule) = [(1, Evicted); (2, Exported); (3, Exported); (4, Exported)]
  /\ b_log (toy toy_schedule) = [XExport [2]; XExport [3]; XExport [4]; XShutdown]
  /\ b_thr (toy toy_schedule) 2 = TFlushRet 3 false true
  /\ b_thr (toy toy_schedule) 3 = TShutRet 4 true
  /\ b_thr (toy toy_schedule) 1 = TOnEndRet 2 true.
Proof. split; [apply run_reach, br_init|]. vm_compute. repeat split. Qed.

(** C36 in full is false: force_flush called while shutdown drains returns True at once. *)
Theorem C36_after_shutdown_refuted :
  exists s t n0, bsp_reach nat ok5 2 1 s /\ b_thr s t = TFlushRet n0 true true /\ ~ settled n0 s.
Proof.
  exists (toy (put 0 1 ++ [ECall 3 CShutdown; EStep 3; ECall 2 CFlush; EStep 2])), 2, 1.
  split; [apply run_reach, br_init|]. split; [reflexivity|].
  intros H. specialize (H 0 1 ltac:(lia) eq_refl). vm_compute in H. destruct H; discriminate.
Qed.
Print Assumptions C36_after_shutdown_refuted.

(** C37 in full is false: an on_end that has tested [done] before shutdown and appends after the
    drain leaves its item in the queue for good; a second shutdown does not export it. *)
Theorem C37_late_span_refuted :
  exists s t n0, bsp_reach nat ok5 2 1 s
    /\ b_thr s 0 = TOnEndRet 1 true /\ b_thr s t = TShutRet n0 false
    /\ b_queue s = [1] /\ b_wpc s = WEnd /\ ~ settled n0 s.
Proof.
  exists (toy ([ECall 0 (COnEnd 1); EStep 0; ECall 3 CShutdown; EStep 3; EStep 3] ++ repeat EWork 30
               ++ [EStep 3; EStep 3; EStep 0; EStep 0; ECall 3 CShutdown; EStep 3; EStep 3; EStep 3; EStep 3])),
    3, 1.
  split; [apply run_reach, br_init|]. split; [reflexivity|]. split; [reflexivity|].
  split; [reflexivity|]. split; [reflexivity|].
  intros H. specialize (H 0 1 ltac:(lia) eq_refl). vm_compute in H. destruct H; discriminate.
Qed.
Print Assumptions C37_late_span_refuted.

(** A state in which C63, C36_flush_is_served and C37_worker_ends have something to say. *)
Example C63_example :
  let s := toy (put 0 1 ++ [ECall 2 CFlush; EStep 2; EStep 2]) in
  in_no_call nat (b_thr s 2) = false /\ b_thr s 2 = TFlushWait 1 1 /\ b_done s = false
  /\ In 1 (b_set (bsp_run nat ok5 2 1 (repeat EWork 25) s))
  /\ b_done (toy (put 0 1 ++ [ECall 3 CShutdown; EStep 3])) = true.
Proof. vm_compute. repeat split; auto. Qed.
