(** The SDK's log messages, when the SDK's logging handler is attached to Python's root logger (as the configurator does): what the log
    processors and exporters log comes back to them.

    Sources, in opentelemetry-sdk/src/opentelemetry/sdk/_logs/_internal/: __init__.py ("logs"), export/__init__.py ("export").
    Simplified: a record is its message; the handler's and all loggers' levels let everything pass; a Python logging call inside a logging
    call goes one level deeper, and raises RecursionError where the interpreter's limit of levels, which is any number, is reached (in
    Python the limit is one of frames, and may also be reached within an exporter); one thread at a time. *)
From Coq Require Export List Arith.
Export ListNotations.

(** What is logged: by the program; by export 126; by export 132 and 337; by an exporter *)
Inductive msg := User (n : nat) | Ignoring | Failed | Said (n : nat).
(** [SimpleLogRecordProcessor]: whether it is shut down; [BatchLogRecordProcessor]: also max_export_batch_size, max_queue_size, and the
    queue with the oldest record first *)
Inductive proc := Simple (down : bool) | Batch (down : bool) (size cap : nat) (queue : list msg).
(** The processors of the provider; the calls of export, of which processor's exporter and with what; the number of [attach] calls
    (which suppress instrumentation) that the context of the thread stems from: [detach] goes back to the context before its [attach] *)
Record world := World { procs : list proc; out : list (nat * list msg); attached : nat }.
Inductive result := Returned | RecursionError.
Definition then_ (r : result * world) (f : world -> result * world) : result * world :=
  match r with (Returned, w) => f w | _ => r end.
Fixpoint in_turn {A} (f : A -> world -> result * world) (l : list A) (w : world) : result * world :=
  match l with [] => (Returned, w) | a :: l => then_ (f a w) (in_turn f l) end.
Fixpoint set_nth {A} (i : nat) (x : A) (l : list A) : list A :=
  match l, i with [], _ => [] | _ :: l, 0 => x :: l | y :: l, S i => y :: set_nth i x l end.

Section Exporters.
(** What the [i]-th processor's exporter does in a call, given the calls before and the records: what it logs, and whether it raises then *)
Variable exporter : nat -> list (nat * list msg) -> list msg -> list msg * bool.

(** export 128-134 and 306-311; [log]: a logging call one level deeper *)
Definition export_with (log : msg -> world -> result * world) (i : nat) (b : list msg) (w : world) : result * world :=
  let '(said, raises) := exporter i (out w) b in
  let detach w' := (Returned, World (procs w') (out w') (attached w)) in
  match in_turn log said (World (procs w) (out w ++ [(i, b)]) (S (attached w))) with
  | (Returned, w') => if raises then then_ (log Failed w') detach else detach w'
  | (RecursionError, w') => then_ (log Failed w') detach
  end.
(** [collections.deque(maxlen).appendleft]: a full queue loses its oldest record *)
Definition push (cap : nat) (q : list msg) (m : msg) : list msg :=
  skipn (S (length q) - cap) (q ++ [m]).
(** export 124-134; 345-357 without the notification and the case of a fork *)
Definition emit_one (log : msg -> world -> result * world) (m : msg) (i : nat) (w : world) : result * world :=
  match nth_error (procs w) i with
  | Some (Simple true) => log Ignoring w
  | Some (Simple false) => export_with log i [m] w
  | Some (Batch true _ _ _) => (Returned, w)
  | Some (Batch false size cap q) => (Returned, World (set_nth i (Batch false size cap (push cap q m)) (procs w)) (out w) (attached w))
  | None => (Returned, w)
  end.
(** A logging call: logs 551-559 [LoggingHandler.emit], 595-600 [Logger.emit], 323-325 [SynchronousMultiLogRecordProcessor.emit], with
    [d] levels left *)
Fixpoint log_call (d : nat) (m : msg) (w : world) : result * world :=
  match d with
  | 0 => (RecursionError, w)
  | S d => in_turn (emit_one (log_call d) m) (seq 0 (length (procs w))) w
  end.

(** ** The worker of the [i]-th processor, a batch processor, whose thread has [d] levels *)
Definition queue (i : nat) (w : world) : list msg :=
  match nth_error (procs w) i with Some (Batch _ _ _ q) => q | _ => [] end.
(** export 297-315 [_export_batch]: the number of records exported as well *)
Definition export_batch (d i : nat) (w : world) : nat * (result * world) :=
  match nth_error (procs w) i with
  | Some (Batch down size cap q) =>
      (length (firstn size q),
       export_with (log_call d) i (firstn size q) (World (set_nth i (Batch down size cap (skipn size q)) (procs w)) (out w) (attached w)))
  | _ => (0, (Returned, w))
  end.
(** export 236-266: one turn of the worker in which nobody asks it to flush; with an empty queue it goes on waiting *)
Definition turn (d i : nat) (w : world) : result * world :=
  match queue i w with [] => (Returned, w) | _ => snd (export_batch d i w) end.
Fixpoint turns (n d i : nat) (w : world) : result * world :=
  match n with 0 => (Returned, w) | S n => then_ (turn d i w) (turns n d i) end.
(** export 289-295, the loop of [_export] with [num] records to go: [n] turns of it lead to [r] and the world [w'] *)
Inductive flushes (d i : nat) : nat -> world -> nat -> result -> world -> Prop :=
| fl_empty num w : queue i w = [] -> flushes d i num w 0 Returned w
| fl_raised num w k w' : queue i w <> [] -> export_batch d i w = (k, (RecursionError, w')) -> flushes d i num w 1 RecursionError w'
| fl_last num w k w' : queue i w <> [] -> export_batch d i w = (k, (Returned, w')) -> num <= k -> flushes d i num w 1 Returned w'
| fl_more num w k w' n r w'' : queue i w <> [] -> export_batch d i w = (k, (Returned, w')) -> k < num ->
    flushes d i (num - k) w' n r w'' -> flushes d i num w (S n) r w''.
(** export 317-324, the loop of [_drain_queue] *)
Inductive drains (d i : nat) : world -> nat -> result -> world -> Prop :=
| dr_empty w : queue i w = [] -> drains d i w 0 Returned w
| dr_raised w k w' : queue i w <> [] -> export_batch d i w = (k, (RecursionError, w')) -> drains d i w 1 RecursionError w'
| dr_more w k w' n r w'' : queue i w <> [] -> export_batch d i w = (k, (Returned, w')) -> drains d i w' n r w'' ->
    drains d i w (S n) r w''.
End Exporters.
