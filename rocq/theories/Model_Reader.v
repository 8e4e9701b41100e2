(** The periodic metric reader: its ticker thread, the calls of the program's threads, and the exporter.

    Source: opentelemetry-sdk/src/opentelemetry/sdk/metrics/_internal/export/__init__.py ("export"),
    opentelemetry-api/src/opentelemetry/util/_once.py ("once"). *)
From Verif Require Export Model_Dict.
From Verif Require Import Model_Proxy.

(** [export_interval_millis]: only its sign and finiteness are looked at.  Simplification: finite values are whole
    numbers. *)
Inductive interval := IFin (millis : Z) | IInf | INan.
(** export 478-509: a thread is started for a positive finite interval, a negative or zero one raises ValueError,
    infinity and NaN give a reader without a thread. *)
Definition start_ticker (i : interval) : option bool :=
  match i with
  | IFin z => if Z.ltb 0 z then Some true else None
  | IInf | INan => Some false
  end.

Section Reader.
(** A measurement as it reaches this reader's storage (measurements dropped by views never do). *)
Variable M : Type.

(** What the program can call on a reader. *)
Inductive rop := OpCollect | OpFlush | OpShutdown.
(** Why a collection runs: a tick, the last one of the ticker, [collect], [force_flush]. *)
Inductive why := WTick | WLast | WCollect | WFlush.
(** How the collection of the storage goes (it runs in one piece, under the measurement consumer's lock,
    metrics/_internal/measurement_consumer.py 103-147): [obs] is what the callbacks observe in it. *)
Inductive coll :=
| CollOk (obs : list M) (none : bool)  (* [none]: no metric at all, possible only if nothing was measured *)
| CollTimeout (obs : list M)           (* MetricsTimeoutError *)
| CollRaise (obs : list M).            (* any other exception; simplification: everything gathered so far is lost *)
(** How a call of the exporter goes: returns (a failure result is a return too), raises an Exception, or raises a
    BaseException such as KeyboardInterrupt. *)
Inductive xres := XOk | XExc | XBase.
Record choice := Ch { ch_coll : coll; ch_exp : xres; ch_late : bool }.

(** Where a thread is. *)
Inductive rpc :=
| PIdle                             (* a program thread outside any call *)
| PWait                             (* the ticker, in _shutdown_event.wait *)
| PDead                             (* the ticker, ended or never started *)
| PCollect (w : why)                (* about to run self._collect *)
| PAttach (w : why) (b : list M)    (* in _receive_metrics, before attach *)
| PLock (w : why) (b : list M)      (* acquiring _export_lock *)
| PExport (w : why) (b : list M)    (* inside exporter.export *)
| PDetach (w : why)                 (* before detach *)
| PExpFlush                         (* before exporter.force_flush *)
| PFast                             (* shutdown: before the unlocked read of Once._done *)
| POnce                             (* before Once's critical section *)
| PSet                              (* before _shutdown_event.set *)
| PJoin                             (* in _daemon_thread.join *)
| PExpShut.                         (* before exporter.shutdown *)
(** [th_sup]: suppress-instrumentation in the thread's current context; [th_tok]: the same in the context its token
    restores. *)
Record thread := Th { th_pc : rpc; th_sup : bool; th_tok : bool }.

(** What can be observed. *)
Inductive rev_ :=
| ERec (m : M)                              (* a measurement is recorded *)
| ECall (t : nat) (op : rop)
| ERet (t : nat) (op : rop) (ok : bool)     (* the call returns, or raises *)
| EXBegin (t : nat) (b : list M) (sup : bool)  (* exporter.export is called *)
| EXEnd (t : nat) (b : list M) (r : xres)      (* exporter.export is over *)
| EXFlush (t : nat)
| EXShut (t : nat)
| ETimeout (t : nat)                        (* a collection timed out *)
| EBroken (t : nat) (b : list M)            (* a collection raised, losing [b] *)
| ELate (t : nat).                          (* shutdown stopped waiting for the ticker *)

Record rstate := RS {
  rs_reg : bool;               (* registered with a provider: _collect is set *)
  rs_pending : list M;         (* measured since the last collection *)
  rs_lock : option nat;        (* holder of _export_lock *)
  rs_event : bool;             (* _shutdown_event *)
  rs_done : bool;              (* _shutdown_once._done *)
  rs_threads : list thread;    (* thread 0 is the ticker *)
  rs_trace : list rev_ }.

Inductive ract :=
| ARegister                    (* MeterProvider.__init__ calls _set_collect_callback *)
| ARec (m : M)
| ACall (t : nat) (op : rop)
| ARun (t : nat) (c : choice).

(** A new reader with [n] program threads around. *)
Definition rs_init (ticking : bool) (n : nat) : rstate :=
  RS false [] None false false (Th (if ticking then PWait else PDead) false false :: repeat (Th PIdle false false) n) [].

Definition goto (t : nat) (p : rpc) (s : rstate) : rstate :=
  RS (rs_reg s) (rs_pending s) (rs_lock s) (rs_event s) (rs_done s)
     (upd_nth t (fun th => Th p (th_sup th) (th_tok th)) (rs_threads s)) (rs_trace s).
Definition emit (e : list rev_) (s : rstate) : rstate :=
  RS (rs_reg s) (rs_pending s) (rs_lock s) (rs_event s) (rs_done s) (rs_threads s) (rs_trace s ++ e).
Definition set_pending (p : list M) (s : rstate) : rstate :=
  RS (rs_reg s) p (rs_lock s) (rs_event s) (rs_done s) (rs_threads s) (rs_trace s).
Definition set_lock (l : option nat) (s : rstate) : rstate :=
  RS (rs_reg s) (rs_pending s) l (rs_event s) (rs_done s) (rs_threads s) (rs_trace s).
(** contextvars attach and detach of the suppression (export 546, 555). *)
Definition set_ctx (t : nat) (f : thread -> bool * bool) (s : rstate) : rstate :=
  RS (rs_reg s) (rs_pending s) (rs_lock s) (rs_event s) (rs_done s)
     (upd_nth t (fun th => Th (th_pc th) (fst (f th)) (snd (f th))) (rs_threads s)) (rs_trace s).

Definition op_of (w : why) : rop := match w with WFlush => OpFlush | _ => OpCollect end.
(** The collection and the export it led to are over (export 336-345 returns; then 524-525, 533, 371-373, 573-576). *)
Definition finish (t : nat) (w : why) (s : rstate) : rstate :=
  match w with
  | WTick => goto t PWait s
  | WLast => goto t PDead s
  | WCollect => emit [ERet t OpCollect true] (goto t PIdle s)
  | WFlush => goto t PExpFlush s
  end.
(** An exception leaves [collect]: the ticker catches MetricsTimeoutError only (export 526, 534), so any other one
    ends its thread; a program thread gets it from its call. *)
Definition throw (t : nat) (w : why) (timeout : bool) (s : rstate) : rstate :=
  match w with
  | WTick => goto t (if timeout then PWait else PDead) s
  | WLast => goto t PDead s
  | WCollect | WFlush => emit [ERet t (op_of w) false] (goto t PIdle s)
  end.

Definition get_pc (t : nat) (s : rstate) : rpc := match nth_error (rs_threads s) t with Some th => th_pc th | None => PIdle end.
Definition get_sup (t : nat) (s : rstate) : bool := match nth_error (rs_threads s) t with Some th => th_sup th | None => false end.

Definition run (t : nat) (c : choice) (s : rstate) : rstate :=
  match get_pc t s with
  | PIdle | PDead => s
  | PWait => goto t (PCollect (if rs_event s then WLast else WTick)) s  (* 522, 531-533 *)
  | PCollect w =>                                                      (* 322-345 *)
      if negb (rs_reg s) then finish t w s                             (* 334-338 *)
      else match ch_coll c with
      | CollOk obs none =>
          let s1 := emit (map ERec obs) (set_pending [] s) in
          let b := rs_pending s ++ obs in
          match b, none with
          | [], true => finish t w s1
          | _, _ => goto t (PAttach w b) s1
          end
      | CollTimeout obs => throw t w true (emit (map ERec obs ++ [ETimeout t]) (set_pending (rs_pending s ++ obs) s))
      | CollRaise obs => throw t w false (emit (map ERec obs ++ [EBroken t (rs_pending s ++ obs)]) (set_pending [] s))
      end
  | PAttach w b => goto t (PLock w b) (set_ctx t (fun th => (true, th_sup th)) s)  (* 546 *)
  | PLock w b =>                                                       (* 549 *)
      match rs_lock s with
      | Some _ => s
      | None => emit [EXBegin t b (get_sup t s)] (goto t (PExport w b) (set_lock (Some t) s))
      end
  | PExport w b =>                                                     (* 550-554 *)
      let s1 := emit [EXEnd t b (ch_exp c)] (set_lock None s) in
      match ch_exp c with
      | XOk | XExc => goto t (PDetach w) s1
      | XBase => throw t w false s1
      end
  | PDetach w => finish t w (set_ctx t (fun th => (th_tok th, th_tok th)) s)  (* 555 *)
  | PExpFlush =>                                                       (* 575-576 *)
      emit [EXFlush t; ERet t OpFlush (match ch_exp c with XOk => true | _ => false end)] (goto t PIdle s)
  | PFast => if rs_done s then emit [ERet t OpShutdown true] (goto t PIdle s) else goto t POnce s  (* once 39-40; export 564-566 *)
  | POnce =>                                                           (* once 42-47; the lock makes this one piece *)
      if rs_done s then emit [ERet t OpShutdown true] (goto t PIdle s)
      else goto t PSet (RS (rs_reg s) (rs_pending s) (rs_lock s) (rs_event s) true (rs_threads s) (rs_trace s))
  | PSet =>                                                            (* 568 *)
      goto t PJoin (RS (rs_reg s) (rs_pending s) (rs_lock s) true (rs_done s) (rs_threads s) (rs_trace s))
  | PJoin =>                                                           (* 569-570 *)
      match get_pc 0 s with
      | PDead => goto t PExpShut s
      | _ => if ch_late c then goto t PExpShut (emit [ELate t] s) else s
      end
  | PExpShut =>                                                        (* 571 *)
      emit [EXShut t; ERet t OpShutdown (match ch_exp c with XOk => true | _ => false end)] (goto t PIdle s)
  end.

Definition rstep (s : rstate) (a : ract) : rstate :=
  match a with
  | ARegister => RS true (rs_pending s) (rs_lock s) (rs_event s) (rs_done s) (rs_threads s) (rs_trace s)
  | ARec m => if rs_reg s then emit [ERec m] (set_pending (rs_pending s ++ [m]) s) else s
  | ACall t op =>
      match nth_error (rs_threads s) t with
      | Some (Th PIdle _ _) =>
          emit [ECall t op] (goto t (match op with OpCollect => PCollect WCollect | OpFlush => PCollect WFlush | OpShutdown => PFast end) s)
      | _ => s
      end
  | ARun t c => run t c s
  end.
Definition rrun (s : rstate) (l : list ract) : rstate := fold_left rstep l s.
End Reader.

Arguments CollOk {M}. Arguments CollTimeout {M}. Arguments CollRaise {M}. Arguments Ch {M}. Arguments ch_coll {M}.
Arguments ch_exp {M}. Arguments ch_late {M}.
Arguments PIdle {M}. Arguments PWait {M}. Arguments PDead {M}. Arguments PCollect {M}. Arguments PAttach {M}.
Arguments PLock {M}. Arguments PExport {M}. Arguments PDetach {M}. Arguments PExpFlush {M}. Arguments PFast {M}.
Arguments POnce {M}. Arguments PSet {M}. Arguments PJoin {M}. Arguments PExpShut {M}.
Arguments Th {M}. Arguments th_pc {M}. Arguments th_sup {M}. Arguments th_tok {M}.
Arguments ERec {M}. Arguments ECall {M}. Arguments ERet {M}. Arguments EXBegin {M}. Arguments EXEnd {M}.
Arguments EXFlush {M}. Arguments EXShut {M}. Arguments ETimeout {M}. Arguments EBroken {M}. Arguments ELate {M}.
Arguments RS {M}. Arguments rs_reg {M}. Arguments rs_pending {M}. Arguments rs_lock {M}. Arguments rs_event {M}.
Arguments rs_done {M}. Arguments rs_threads {M}. Arguments rs_trace {M}.
Arguments ARegister {M}. Arguments ARec {M}. Arguments ACall {M}. Arguments ARun {M}.
Arguments rs_init {M}. Arguments goto {M}. Arguments emit {M}. Arguments set_pending {M}. Arguments set_lock {M}.
Arguments set_ctx {M}. Arguments finish {M}. Arguments throw {M}. Arguments get_pc {M}. Arguments get_sup {M}.
Arguments run {M}. Arguments rstep {M}. Arguments rrun {M}.
