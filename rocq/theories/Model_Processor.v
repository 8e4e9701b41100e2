(** Span processors: the multi processors, SimpleSpanProcessor and the batch processor.

    Sources: opentelemetry-sdk/src/opentelemetry/sdk/trace/__init__.py ("trace"),
    opentelemetry-sdk/src/opentelemetry/sdk/trace/export/__init__.py ("export"),
    opentelemetry-sdk/src/opentelemetry/sdk/_logs/_internal/export/__init__.py ("logs export").
    Processors are numbers; what they do when called is a parameter. *)
From Verif Require Export Model_Runtime.
Local Open Scope nat_scope.

(** ** SynchronousMultiSpanProcessor *)

(** A call of on_start/on_end/shutdown [t] on the multi processor. *)
Inductive mpc (E : Type) :=
| MNew
| MRun (e : E) (todo : list nat)   (* iterating over the tuple it has read *)
| MRet                             (* returned *)
| MExc.                            (* the exception of a processor propagated *)
Arguments MNew {E}. Arguments MRun {E}. Arguments MRet {E}. Arguments MExc {E}.
Record msp (E : Type) := MSP {
  m_procs : list nat;                (* _span_processors *)
  m_pc : nat -> mpc E;               (* the calls *)
  m_log : list (nat * E * nat)       (* observation: call, event, processor that was called *)
}.
Arguments MSP {E}. Arguments m_procs {E}. Arguments m_pc {E}. Arguments m_log {E}.
Inductive mev (E : Type) :=
| MAdd (p : nat)                     (* add_span_processor *)
| MCall (t : nat) (e : E)            (* a call begins: the tuple is read *)
| MNext (t : nat) (raises : bool).   (* the next processor is called; whether it raises *)
Arguments MAdd {E}. Arguments MCall {E}. Arguments MNext {E}.
Definition msp_init {E} : msp E := MSP [] (fun _ => MNew) [].
Definition mgoto {E} (t : nat) (p : mpc E) (f : nat -> mpc E) : nat -> mpc E :=
  fun t' => if Nat.eqb t' t then p else f t'.
(** trace 153-181: registration replaces the tuple (under a lock, hence atomic); a call iterates over
    the tuple it has read first.  Steps that are not possible leave the state as it is. *)
Definition mstep {E} (s : msp E) (ev : mev E) : msp E :=
  match ev with
  | MAdd p => MSP (m_procs s ++ [p]) (m_pc s) (m_log s)
  | MCall t e =>
      match m_pc s t with
      | MNew => MSP (m_procs s) (mgoto t (MRun e (m_procs s)) (m_pc s)) (m_log s)
      | _ => s
      end
  | MNext t raises =>
      match m_pc s t with
      | MRun e (p :: todo) =>
          MSP (m_procs s) (mgoto t (if raises then MExc else MRun e todo) (m_pc s))
            (m_log s ++ [(t, e, p)])
      | MRun e [] => MSP (m_procs s) (mgoto t MRet (m_pc s)) (m_log s)
      | _ => s
      end
  end.

(** trace 183-205 [force_flush].  [clock i] is the i-th reading of time_ns(); [flush i ms] what the
    i-th processor answers for the timeout it is given.  Also returned: the timeouts given, one for
    each processor called. *)
Fixpoint sync_flush_loop (clock : nat -> Z) (flush : nat -> Z -> bool) (deadline : Z) (i n : nat)
  : bool * list Z :=
  match n with
  | O => (true, [])
  | S n' =>
      let now := clock (S i) in
      if Z.leb deadline now then (false, [])
      else
        let ms := Z.div (deadline - now) 1000000 in
        if flush i ms
        then let '(r, calls) := sync_flush_loop clock flush deadline (S i) n' in (r, ms :: calls)
        else (false, [ms])
  end.
Definition sync_force_flush (clock : nat -> Z) (flush : nat -> Z -> bool) (n : nat) (timeout_millis : Z)
  : bool * list Z :=
  sync_flush_loop clock flush (clock O + timeout_millis * 1000000)%Z O n.

(** ** ConcurrentMultiSpanProcessor *)

(** One call on a tuple of [n] processors: tasks are submitted in order, run by the pool in any
    order, and awaited in order.  A task is not yet submitted, waiting, or has run (and raised). *)
Inductive task := TNot | TWaiting | TRan (raised : bool).
Inductive cpc := CSubmit (i : nat) | CAwait (i : nat) | CRet | CExc.
Record cmsp := CMSP { c_tasks : list task; c_pc : cpc; c_calls : list nat }.
Inductive cev := CMain | CPool (i : nat) (raises : bool).
Definition cm_init (n : nat) : cmsp := CMSP (repeat TNot n) (CSubmit 0) [].
Fixpoint set_nth {A} (i : nat) (x : A) (l : list A) : list A :=
  match l, i with
  | [], _ => []
  | _ :: l', O => x :: l'
  | y :: l', S i' => y :: set_nth i' x l'
  end.
(** trace 235-246 [_submit_and_await], and what the thread pool does with the submitted tasks. *)
Definition cstep (s : cmsp) (ev : cev) : cmsp :=
  match ev with
  | CMain =>
      match c_pc s with
      | CSubmit i =>
          if Nat.ltb i (length (c_tasks s))
          then CMSP (set_nth i TWaiting (c_tasks s)) (CSubmit (S i)) (c_calls s)
          else CMSP (c_tasks s) (CAwait 0) (c_calls s)
      | CAwait i =>
          match nth_error (c_tasks s) i with
          | None => CMSP (c_tasks s) CRet (c_calls s)
          | Some (TRan false) => CMSP (c_tasks s) (CAwait (S i)) (c_calls s)
          | Some (TRan true) => CMSP (c_tasks s) CExc (c_calls s)
          | Some _ => s                                  (* future.result() blocks *)
          end
      | _ => s
      end
  | CPool i raises =>
      match nth_error (c_tasks s) i with
      | Some TWaiting => CMSP (set_nth i (TRan raises) (c_tasks s)) (c_pc s) (c_calls s ++ [i])
      | _ => s
      end
  end.
(** trace 262-291 [force_flush]: the state of each future when [wait] returns: None is not done,
    Some r is the answer. *)
Definition conc_force_flush (fs : list (option bool)) : bool :=
  if existsb (fun f => match f with None => true | _ => false end) fs then false
  else forallb (fun f => match f with Some r => r | None => true end) fs.

(** ** SimpleSpanProcessor *)

(** context/__init__.py 163: the key (create_key appends a random uuid; any fixed string will do). *)
Definition SUPPRESS_KEY : str := lit "suppress_instrumentation".
(** The Python object True. *)
Definition OTrue : obj := OOther 1.

Section Simple.
(** Any exporter: its state, and what a call of export does to it and to the runtime context. *)
Variable X item : Type.
Variable sampled : item -> bool.
Variable export : list item -> runtime -> X -> runtime * X * outcome.

(** export 108-117 [SimpleSpanProcessor.on_end] in execution unit [u].  (logs export 122-131
    [SimpleLogRecordProcessor.emit] before shutdown is the same with [sampled] always true.) *)
Definition simple_on_end (u : nat) (x : item) (s : runtime) (st : X) : runtime * X * outcome :=
  if negb (sampled x) then (s, st, Returned)
  else
    let (s1, tok) := attach u (set_value SUPPRESS_KEY OTrue (get_current u s)) s in
    let '(s2, st2, out) := export [x] s1 st in
    match out with
    | Raised e => if ex_error e then (detach u tok s2, st2, Returned) else (s2, st2, Raised e)
    | Returned => (detach u tok s2, st2, Returned)
    end.
(** A sequence of on_end calls; it ends with the first exception that escapes. *)
Fixpoint simple_run (u : nat) (xs : list item) (s : runtime) (st : X) : runtime * X * outcome :=
  match xs with
  | [] => (s, st, Returned)
  | x :: xs' =>
      match simple_on_end u x s st with
      | (s1, st1, Returned) => simple_run u xs' s1 st1
      | r => r
      end
  end.
End Simple.

(** ** BatchSpanProcessor and BatchLogRecordProcessor *)

Section Batch.
Variable item : Type.
(** span.context.trace_flags.sampled (always true for log records) *)
Variable sampled : item -> bool.
(** max_queue_size and max_export_batch_size (export 506-: positive, the latter not the larger) *)
Variable maxq maxb : nat.

(** A flush request taken by the worker, with its num_spans. *)
Definition freq := option (nat * nat).

(** Where [_export_batch] returns to. *)
Inductive cont :=
| KOnce                          (* _export without a request (export 334-336) *)
| KFlush (r num : nat)           (* the loop of _export (export 339-344); num_spans left *)
| KDrain (fr sfr : freq).        (* _drain_queue (export 376-377) *)

(** The worker thread: where it is in [worker] (export 243-286; logs export 231-276) or in a function
    it calls.  The lock is held in WCheck .. WTest and WGet2 .. WCheck2. *)
Inductive wpc :=
| WTop                           (* 246: while not self.done *)
| WAcquire                       (* 247: with self.condition *)
| WCheck                         (* 248: if self.done *)
| WGet                           (* 251: _get_and_unset_flush_request() *)
| WTest (fr : freq)              (* 252-255 *)
| WWait                          (* 256: condition.wait: lock released *)
| WGet2                          (* 257, after the lock was taken again *)
| WEmpty (fr : freq)             (* 258: if not self.queue *)
| WCheck2 (fr : freq)            (* 264: if self.done *)
| WExport (fr : freq)            (* 270: _export(flush_request), 334 *)
| WLoop (r num : nat)            (* 339: while self.queue *)
| WPop (k : cont) (b : list item)   (* 353: while idx < max_export_batch_size and self.queue *)
| WSend (k : cont) (b : list item)  (* 360: inside span_exporter.export(b) *)
| WNotify (fr : freq)            (* 275 *)
| WFinal (fr : freq)             (* 280: with self.condition *)
| WDrain (fr sfr : freq)         (* 376: while self.queue *)
| WFin1 (fr sfr : freq)          (* 285 *)
| WFin2 (sfr : freq)             (* 286 *)
| WEnd.                          (* the thread has ended *)

(** The other threads: each makes calls one after the other.  [n0]: observation, how many items had
    been accepted when the call began. *)
Inductive tpc :=
| TIdle
| TOnEnd (x : item)              (* 212: if self.done ... *)
| TAppend (x : item)             (* 225: self.queue.appendleft(span) *)
| TPoke (x : item)               (* 227-229 *)
| TOnEndRet (x : item) (taken : bool)
| TFlush (n0 : nat)              (* 383: if self.done *)
| TFlushReq (n0 : nat)           (* 387: with self.condition *)
| TFlushWait (r n0 : nat)        (* 393: event.wait *)
| TFlushRet (n0 : nat) (was_done res : bool)
| TShut (n0 : nat) (first : bool)      (* 400; [first]: self.done was false when the call began *)
| TShutPoke (n0 : nat) (first : bool)  (* 401 *)
| TShutJoin (n0 : nat) (first : bool)  (* 403 *)
| TShutExp (n0 : nat) (first : bool)   (* 404 *)
| TShutRet (n0 : nat) (first : bool).

(** Calls the exporter gets. *)
Inductive xev := XExport (b : list item) | XShutdown.
(** What has become of an item that has left the queue: dropped by the full deque, taken for an
    export call that has not returned, or that call has returned (or raised). *)
Inductive fate := Evicted | InFlight | Exported.

Record bsp := BSP {
  b_queue : list item;             (* the deque, right end (oldest) first *)
  b_done : bool;
  b_lock : bool;                   (* held by the worker; the other critical sections are atomic *)
  b_req : option nat;              (* _flush_request *)
  b_next : nat;                    (* the next request object *)
  b_set : list nat;                (* requests whose event is set *)
  b_wpc : wpc;
  b_thr : nat -> tpc;
  (* observations; no step depends on them *)
  b_log : list xev;                (* calls the exporter got *)
  b_acc : list item;               (* items appended to the queue, oldest first *)
  b_gone : list (item * fate)      (* items that have left the queue, oldest first *)
}.

(** export 181-204; [d], [pend]: already shut down, a flush request pending (false for a new processor). *)
Definition bsp_init (d pend : bool) : bsp :=
  BSP [] d false (if pend then Some 0 else None) 1 [] WTop (fun _ => TIdle) [] [] [].

(** export 231-241 [_at_fork_reinit] (logs export 222-231), in the child of a fork by a thread that is in no call of the processor:
    the other threads are gone and the calls they were in with them; the condition and its lock are new, the queue is cleared, a new worker
    starts; [done], [_flush_request] and the events are the parent's.  The observations begin anew. *)
Definition bsp_fork (s : bsp) : bsp :=
  BSP [] (b_done s) false (b_req s) (b_next s) (b_set s) WTop (fun _ => TIdle) [] [] [].

Definition wgoto (p : wpc) (s : bsp) : bsp :=
  BSP (b_queue s) (b_done s) (b_lock s) (b_req s) (b_next s) (b_set s) p (b_thr s)
    (b_log s) (b_acc s) (b_gone s).
Definition wlock (l : bool) (s : bsp) : bsp :=
  BSP (b_queue s) (b_done s) l (b_req s) (b_next s) (b_set s) (b_wpc s) (b_thr s)
    (b_log s) (b_acc s) (b_gone s).
Definition tset (t : nat) (p : tpc) (f : nat -> tpc) : nat -> tpc :=
  fun t' => if Nat.eqb t' t then p else f t'.
Definition tgoto (t : nat) (p : tpc) (s : bsp) : bsp :=
  BSP (b_queue s) (b_done s) (b_lock s) (b_req s) (b_next s) (b_set s) (b_wpc s) (tset t p (b_thr s))
    (b_log s) (b_acc s) (b_gone s).
(** export 288-298 [_get_and_unset_flush_request] *)
Definition take_req (s : bsp) : freq * bsp :=
  (match b_req s with None => None | Some r => Some (r, length (b_queue s)) end,
   BSP (b_queue s) (b_done s) (b_lock s) None (b_next s) (b_set s) (b_wpc s) (b_thr s)
     (b_log s) (b_acc s) (b_gone s)).
(** export 300-308 [_notify_flush_request_finished] *)
Definition notify (fr : freq) (s : bsp) : bsp :=
  match fr with
  | None => s
  | Some (r, _) =>
      BSP (b_queue s) (b_done s) (b_lock s) (b_req s) (b_next s) (r :: b_set s) (b_wpc s) (b_thr s)
        (b_log s) (b_acc s) (b_gone s)
  end.
(** [deque.appendleft] on a deque with a maximal length: a full one drops the item at the right end. *)
Definition push (x : item) (s : bsp) : bsp :=
  match b_queue s with
  | y :: q =>
      if Nat.leb maxq (length (b_queue s))
      then BSP (q ++ [x]) (b_done s) (b_lock s) (b_req s) (b_next s) (b_set s) (b_wpc s) (b_thr s)
             (b_log s) (b_acc s ++ [x]) (b_gone s ++ [(y, Evicted)])
      else BSP (y :: q ++ [x]) (b_done s) (b_lock s) (b_req s) (b_next s) (b_set s) (b_wpc s) (b_thr s)
             (b_log s) (b_acc s ++ [x]) (b_gone s)
  | [] =>
      BSP [x] (b_done s) (b_lock s) (b_req s) (b_next s) (b_set s) (b_wpc s) (b_thr s)
        (b_log s) (b_acc s ++ [x]) (b_gone s)
  end.
(** [deque.pop] (export 354) *)
Definition pop (s : bsp) : bsp :=
  match b_queue s with
  | y :: q =>
      BSP q (b_done s) (b_lock s) (b_req s) (b_next s) (b_set s) (b_wpc s) (b_thr s)
        (b_log s) (b_acc s) (b_gone s ++ [(y, InFlight)])
  | [] => s
  end.
Definition call_export (b : list item) (s : bsp) : bsp :=
  BSP (b_queue s) (b_done s) (b_lock s) (b_req s) (b_next s) (b_set s) (b_wpc s) (b_thr s)
    (b_log s ++ [XExport b]) (b_acc s) (b_gone s).
Definition landed (f : fate) : fate := match f with InFlight => Exported | f => f end.
Definition export_returned (s : bsp) : bsp :=
  BSP (b_queue s) (b_done s) (b_lock s) (b_req s) (b_next s) (b_set s) (b_wpc s) (b_thr s)
    (b_log s) (b_acc s) (map (fun p => (fst p, landed (snd p))) (b_gone s)).

Definition is_nil {A} (l : list A) : bool := match l with [] => true | _ => false end.

(** One step of the worker (export 243-286, 325-377); None: it waits for the lock, or has ended.
    [condition.wait] may return at any time (notified, timed out or spuriously).  Whether
    span_exporter.export returns or raises makes no difference (361: every Exception is caught; a
    BaseException would end the thread and is not modelled).  num_spans is a Python int that may
    become negative; it is only compared with 0, so natural numbers do. *)
Definition worker_step (s : bsp) : option bsp :=
  match b_wpc s with
  | WTop => Some (wgoto (if b_done s then WFinal None else WAcquire) s)
  | WAcquire => if b_lock s then None else Some (wgoto WCheck (wlock true s))
  | WCheck => Some (if b_done s then wgoto (WFinal None) (wlock false s) else wgoto WGet s)
  | WGet => let (fr, s') := take_req s in Some (wgoto (WTest fr) s')
  | WTest fr =>
      Some (wgoto (match fr with
                   | None => if Nat.ltb (length (b_queue s)) maxb then WWait else WExport None
                   | Some _ => WExport fr
                   end) (wlock false s))
  | WWait => if b_lock s then None else Some (wgoto WGet2 (wlock true s))
  | WGet2 => let (fr, s') := take_req s in Some (wgoto (WEmpty fr) s')
  | WEmpty fr =>
      Some (if is_nil (b_queue s) then wgoto WTop (wlock false (notify fr s)) else wgoto (WCheck2 fr) s)
  | WCheck2 fr => Some (wgoto (if b_done s then WFinal fr else WExport fr) (wlock false s))
  | WExport fr =>
      Some (wgoto (match fr with None => WPop KOnce [] | Some (r, n) => WLoop r n end) s)
  | WLoop r n =>
      Some (wgoto (if is_nil (b_queue s) then WNotify (Some (r, n)) else WPop (KFlush r n) []) s)
  | WPop k b =>
      if Nat.ltb (length b) maxb && negb (is_nil (b_queue s))
      then Some (wgoto (WPop k (b ++ firstn 1 (b_queue s))) (pop s))
      else Some (wgoto (WSend k b) (call_export b s))
  | WSend k b =>
      Some (wgoto (match k with
                   | KOnce => WNotify None
                   | KFlush r n =>
                       if Nat.leb (n - length b) 0 then WNotify (Some (r, n))
                       else WLoop r (n - length b)
                   | KDrain fr sfr => WDrain fr sfr
                   end) (export_returned s))
  | WNotify fr => Some (wgoto WTop (notify fr s))
  | WFinal fr =>
      if b_lock s then None
      else let (sfr, s') := take_req s in Some (wgoto (WDrain fr sfr) s')
  | WDrain fr sfr =>
      Some (wgoto (if is_nil (b_queue s) then WFin1 fr sfr else WPop (KDrain fr sfr) []) s)
  | WFin1 fr sfr => Some (wgoto (WFin2 sfr) (notify fr s))
  | WFin2 sfr => Some (wgoto WEnd (notify sfr s))
  | WEnd => None
  end.

(** One step of thread [t] inside on_end (export 211-229; logs export 337-350), force_flush (379-396)
    or shutdown (398-404); None: it is blocked or in no call.  The test whether the queue is full (220-223) only logs;
    the process id test (217) is left out.  The notifications have no effect of their own, as
    [condition.wait] may return at any time anyway. *)
Definition thread_step (t : nat) (s : bsp) : option bsp :=
  match b_thr s t with
  | TOnEnd x =>
      Some (tgoto t (if b_done s then TOnEndRet x false
                     else if sampled x then TAppend x else TOnEndRet x false) s)
  | TAppend x => Some (tgoto t (TPoke x) (push x s))
  | TPoke x =>
      if Nat.leb maxb (length (b_queue s)) && b_lock s then None
      else Some (tgoto t (TOnEndRet x true) s)
  | TFlush n0 => Some (tgoto t (if b_done s then TFlushRet n0 true true else TFlushReq n0) s)
  | TFlushReq n0 =>
      if b_lock s then None
      else match b_req s with
           | Some r => Some (tgoto t (TFlushWait r n0) s)
           | None =>
               Some (tgoto t (TFlushWait (b_next s) n0)
                 (BSP (b_queue s) (b_done s) (b_lock s) (Some (b_next s)) (S (b_next s)) (b_set s)
                    (b_wpc s) (b_thr s) (b_log s) (b_acc s) (b_gone s)))
           end
  | TFlushWait r n0 =>
      if existsb (Nat.eqb r) (b_set s) then Some (tgoto t (TFlushRet n0 false true) s) else None
  | TShut n0 first =>
      Some (tgoto t (TShutPoke n0 first)
        (BSP (b_queue s) true (b_lock s) (b_req s) (b_next s) (b_set s)
           (b_wpc s) (b_thr s) (b_log s) (b_acc s) (b_gone s)))
  | TShutPoke n0 first => if b_lock s then None else Some (tgoto t (TShutJoin n0 first) s)
  | TShutJoin n0 first =>
      match b_wpc s with WEnd => Some (tgoto t (TShutExp n0 first) s) | _ => None end
  | TShutExp n0 first =>
      Some (tgoto t (TShutRet n0 first)
        (BSP (b_queue s) (b_done s) (b_lock s) (b_req s) (b_next s) (b_set s)
           (b_wpc s) (b_thr s) (b_log s ++ [XShutdown]) (b_acc s) (b_gone s)))
  | TIdle | TOnEndRet _ _ | TFlushRet _ _ _ | TShutRet _ _ => None
  end.

Inductive bcall := COnEnd (x : item) | CFlush | CShutdown.
Inductive bev :=
| EWork                          (* the worker makes a step *)
| ECall (t : nat) (c : bcall)    (* thread t, in no call, begins one *)
| EStep (t : nat)                (* thread t makes a step in its call *)
| ETimeout (t : nat).            (* event.wait of thread t times out *)
Definition in_no_call (p : tpc) : bool :=
  match p with TIdle | TOnEndRet _ _ | TFlushRet _ _ _ | TShutRet _ _ => true | _ => false end.
Definition bsp_step (s : bsp) (e : bev) : option bsp :=
  match e with
  | EWork => worker_step s
  | EStep t => thread_step t s
  | ETimeout t =>
      match b_thr s t with
      | TFlushWait _ n0 => Some (tgoto t (TFlushRet n0 false false) s)
      | _ => None
      end
  | ECall t c =>
      if in_no_call (b_thr s t)
      then Some (tgoto t (match c with
                          | COnEnd x => TOnEnd x
                          | CFlush => TFlush (length (b_acc s))
                          | CShutdown => TShut (length (b_acc s)) (negb (b_done s))
                          end) s)
      else None
  end.

(** Every interleaving of any number of threads and the worker, in a process or one forked from it. *)
Inductive bsp_reach : bsp -> Prop :=
| br_init d pend : bsp_reach (bsp_init d pend)
| br_step s e s' : bsp_reach s -> bsp_step s e = Some s' -> bsp_reach s'
| br_fork s : bsp_reach s -> bsp_reach (bsp_fork s).

(** A schedule; disabled steps are skipped. *)
Fixpoint bsp_run (es : list bev) (s : bsp) : bsp :=
  match es with
  | [] => s
  | e :: es' => bsp_run es' (match bsp_step s e with Some s' => s' | None => s end)
  end.
End Batch.
Arguments TIdle {item}. Arguments XShutdown {item}.
Arguments EWork {item}. Arguments EStep {item}. Arguments ETimeout {item}. Arguments ECall {item}.
Arguments CFlush {item}. Arguments CShutdown {item}. Arguments COnEnd {item}.
Arguments b_queue {item}. Arguments b_done {item}. Arguments b_lock {item}. Arguments b_req {item}.
Arguments b_next {item}. Arguments b_set {item}. Arguments b_wpc {item}. Arguments b_thr {item}.
Arguments b_log {item}. Arguments b_acc {item}. Arguments b_gone {item}.
Arguments BSP {item}.
Arguments WTop {item}. Arguments WAcquire {item}. Arguments WCheck {item}. Arguments WGet {item}.
Arguments WTest {item}. Arguments WWait {item}. Arguments WGet2 {item}. Arguments WEmpty {item}.
Arguments WCheck2 {item}. Arguments WExport {item}. Arguments WLoop {item}. Arguments WPop {item}.
Arguments WSend {item}. Arguments WNotify {item}. Arguments WFinal {item}. Arguments WDrain {item}.
Arguments WFin1 {item}. Arguments WFin2 {item}. Arguments WEnd {item}.
Arguments TOnEnd {item}. Arguments TAppend {item}. Arguments TPoke {item}. Arguments TOnEndRet {item}.
Arguments TFlush {item}. Arguments TFlushReq {item}. Arguments TFlushWait {item}.
Arguments TFlushRet {item}. Arguments TShut {item}. Arguments TShutPoke {item}.
Arguments TShutJoin {item}. Arguments TShutExp {item}. Arguments TShutRet {item}.
Arguments XExport {item}.
