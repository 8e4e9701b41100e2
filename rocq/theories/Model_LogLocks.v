(** The locks of logging: the lock of the SDK's handler on the root logger, and of each batch processor the condition's lock.

    Sources: opentelemetry-sdk/src/opentelemetry/sdk/_logs/_internal/export/__init__.py ("export"), …/__init__.py ("logs"), and Python's
    Lib/logging/__init__.py of version 3.11 ("logging").  A call of the program is the list of what it does to locks and of what it waits
    for.  Simplified: how full queues are is not followed, so that a processor may be notified or not by any record; the time-outs of waits
    may occur at any time; all records pass all levels and filters; processors are batch processors; no forks. *)
From Coq Require Export List Arith Bool.
Export ListNotations.

Inductive lock := Handler | Cond (j : nat).
(** The threads of the program, and the worker of each processor *)
Inductive thread := User (n : nat) | Worker (j : nat).
(** [Await j e]: for processor [j]'s answer to the request to flush [e]; [Answer j e]: its event is set; [Join j]: for the end of a worker;
    [End j]: the worker ends *)
Inductive act := Acq (l : lock) | Rel (l : lock) | Await (j e : nat) | Answer (j e : nat) | Join (j : nat) | End (j : nat).

(** export 345-357: of the processors [js] the emit notifies the worker *)
Definition notify_acts (js : list nat) : list act := flat_map (fun j => [Acq (Cond j); Rel (Cond j)]) js.
(** A logging call: logging [Handler.handle] around logs 551-559 *)
Definition log_acts (js : list nat) : list act :=
  Acq Handler :: notify_acts js ++ [Rel Handler].
(** export 366-381 [force_flush] *)
Definition flush_acts (j e : nat) : list act := [Acq (Cond j); Rel (Cond j); Await j e].
(** export 359-364 [shutdown] *)
Definition shutdown_acts (j : nat) : list act := [Acq (Cond j); Rel (Cond j); Join j].
(** logging [shutdown], which the functions of logging.config call, too: [flush] (logs 561-568) of the handler with its lock *)
Definition reset_acts (j e : nat) : list act := Acq Handler :: flush_acts j e ++ [Rel Handler].
(** export 233-276 [worker], once around its loop, or to its end: it waits for the condition or not ([w]), exports, with log messages of
    its own or of the exporter, and answers requests *)
Definition worker_acts (j : nat) (w : bool) (logs : list (list nat)) (answers : list nat) (end_ : bool) : list act :=
  [Acq (Cond j)] ++ (if w then [Rel (Cond j); Acq (Cond j)] else []) ++ [Rel (Cond j)] ++ flat_map log_acts logs ++ map (Answer j) answers
  ++ (if end_ then [End j] else []).

(** What each thread has yet to do in its call (or once around its loop), who has each lock, the requests answered, the workers that ended *)
Record state := St { todo : thread -> list act; owner : lock -> option thread; answered : nat -> nat -> bool; ended : nat -> bool }.
Definition lock_dec (a b : lock) : {a = b} + {a <> b}.
Proof. decide equality. apply Nat.eq_dec. Defined.
Definition thread_dec (a b : thread) : {a = b} + {a <> b}.
Proof. decide equality; apply Nat.eq_dec. Defined.
Definition start : state := St (fun _ => []) (fun _ => None) (fun _ _ => false) (fun _ => false).
Definition set_todo (t : thread) (p : list act) (s : state) : state :=
  St (fun u => if thread_dec u t then p else todo s u) (owner s) (answered s) (ended s).
Definition set_owner (l : lock) (o : option thread) (s : state) : state :=
  St (todo s) (fun m => if lock_dec m l then o else owner s m) (answered s) (ended s).

(** A step of a thread; [resets]: the program may reset logging; [logs]: the workers and exporters may log *)
Inductive step (resets logs : bool) (t : thread) : state -> state -> Prop :=
| s_acq s l p : todo s t = Acq l :: p -> owner s l = None -> step resets logs t s (set_todo t p (set_owner l (Some t) s))
| s_rel s l p : todo s t = Rel l :: p -> step resets logs t s (set_todo t p (set_owner l None s))
| s_await s j e p : todo s t = Await j e :: p -> answered s j e = true -> step resets logs t s (set_todo t p s)
| s_answer s j e p : todo s t = Answer j e :: p ->
    step resets logs t s (set_todo t p (St (todo s) (owner s) (fun i x => if Nat.eq_dec i j then if Nat.eq_dec x e then true else answered s i x else answered s i x) (ended s)))
| s_join s j p : todo s t = Join j :: p -> ended s j = true -> step resets logs t s (set_todo t p s)
| s_end s j p : todo s t = End j :: p ->
    step resets logs t s (set_todo t p (St (todo s) (owner s) (answered s) (fun x => if Nat.eq_dec x j then true else ended s x)))
| s_log s n js : t = User n -> todo s t = [] -> step resets logs t s (set_todo t (log_acts js) s)
| s_flush s n j e : t = User n -> todo s t = [] -> step resets logs t s (set_todo t (flush_acts j e) s)
| s_shutdown s n j : t = User n -> todo s t = [] -> step resets logs t s (set_todo t (shutdown_acts j) s)
| s_reset s n j e : t = User n -> todo s t = [] -> resets = true -> step resets logs t s (set_todo t (reset_acts j e) s)
| s_worker s j w l a e : t = Worker j -> todo s t = [] -> ended s j = false -> (l <> [] -> logs = true) ->
    step resets logs t s (set_todo t (worker_acts j w l a e) s).
(** The time to wait for an answer is over: export 379-380 logs a warning.  A thread that has the handler's lock need not wait for it
    (threading.RLock). *)
Inductive time_out (t : thread) : state -> state -> Prop :=
| t_out s j e p js : todo s t = Await j e :: p -> owner s Handler <> Some t -> time_out t s (set_todo t (log_acts js ++ p) s)
| t_out_locked s j e p js : todo s t = Await j e :: p -> owner s Handler = Some t -> time_out t s (set_todo t (notify_acts js ++ p) s).
Inductive reaches (resets logs : bool) : state -> state -> Prop :=
| re_here s : reaches resets logs s s
| re_step s s1 s2 t : reaches resets logs s s1 -> step resets logs t s1 s2 -> reaches resets logs s s2
| re_time s s1 s2 t : reaches resets logs s s1 -> time_out t s1 s2 -> reaches resets logs s s2.
