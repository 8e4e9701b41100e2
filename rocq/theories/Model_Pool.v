(** The concurrent multi processors: threads that start and end spans, or log, and the thread pool that calls the processors.

    Sources: opentelemetry-sdk/src/opentelemetry/sdk/trace/__init__.py 206-262 [ConcurrentMultiSpanProcessor] ("trace"),
    opentelemetry-sdk/src/opentelemetry/sdk/_logs/_internal/__init__.py 356-402 [ConcurrentMultiLogRecordProcessor] ("logs"), and of Python
    concurrent/futures/thread.py ("pool": tasks wait in a queue, first in first out, for one of [max_workers] threads) and logging's
    [Handler.handle], which calls [LoggingHandler.emit] with the handler's lock.  Simplified: what processors do is seen only as far as they
    make calls themselves; their exceptions end the call that waits for them, and the caller goes on; [force_flush], whose waits time out,
    is left out, as is the end of the interpreter (C123). *)
From Coq Require Export List Arith Bool.
Export ListNotations.

(** What one processor does in one call: it makes calls itself, one after the other, and then raises or not.  A call starts or ends a span
    or emits a log record: it goes to all processors, and has the handler's lock meanwhile if it comes from the program's logging
    ([locked]). *)
Inductive work := Work (raises : bool) (inner : list call) with call := Call (locked : bool) (to : list work).
Definition w_raises (w : work) : bool := let 'Work r _ := w in r.
Definition w_inner (w : work) : list call := let 'Work _ l := w in l.

(** Who makes calls: the threads of the program, and tasks that the pool runs, numbered as submitted *)
Inductive agent := User (n : nat) | Task (i : nat).
Definition agent_dec (a b : agent) : {a = b} + {a <> b}.
Proof. decide equality; apply Nat.eq_dec. Defined.
(** A call in progress: processors it is yet to be submitted for; futures to be waited for, in order *)
Record doing := Doing { d_locked : bool; d_submit : list work; d_await : list nat }.
(** Calls to be made, the call in progress, for each call that ended whether it raised *)
Record frame := Frame { f_rest : list call; f_now : option doing; f_out : list bool }.
Definition begin_frame (l : list call) : frame := Frame l None [].
Inductive place := Queued | Running (f : frame) | Done.
(** A task: which call of whom submitted it *)
Record task := TaskOf { t_by : agent; t_call : nat; t_work : work; t_place : place }.
(** [s_next]: the first task that is still in the queue *)
Record state := St { s_users : list frame; s_tasks : list task; s_next : nat; s_lock : option agent }.
Definition start (programs : list (list call)) : state := St (map begin_frame programs) [] 0 None.

Fixpoint set_nth {A} (n : nat) (x : A) (l : list A) : list A :=
  match l, n with [], _ => [] | _ :: l', O => x :: l' | y :: l', S n' => y :: set_nth n' x l' end.
Definition with_place (p : place) (t : task) : task := TaskOf (t_by t) (t_call t) (t_work t) p.
Definition set_place (i : nat) (p : place) (l : list task) : list task :=
  match nth_error l i with Some t => set_nth i (with_place p t) l | None => l end.
Definition frame_of (s : state) (a : agent) : option frame :=
  match a with
  | User n => nth_error (s_users s) n
  | Task i => match nth_error (s_tasks s) i with Some (TaskOf _ _ _ (Running f)) => Some f | _ => None end
  end.
Definition set_frame (a : agent) (f : frame) (s : state) : state :=
  match a with
  | User n => St (set_nth n f (s_users s)) (s_tasks s) (s_next s) (s_lock s)
  | Task i => St (s_users s) (set_place i (Running f) (s_tasks s)) (s_next s) (s_lock s)
  end.
Definition set_lock (o : option agent) (s : state) : state := St (s_users s) (s_tasks s) (s_next s) o.
Definition add_task (t : task) (s : state) : state := St (s_users s) (s_tasks s ++ [t]) (s_next s) (s_lock s).
Definition is_done (s : state) (i : nat) : option bool :=
  match nth_error (s_tasks s) i with Some (TaskOf _ _ w Done) => Some (w_raises w) | _ => None end.
Definition is_running (t : task) : bool := match t_place t with Running _ => true | _ => false end.
(** The number of the pool's threads that are at work *)
Definition at_work (s : state) : nat := length (filter is_running (s_tasks s)).

(** A step, with [k] threads in the pool *)
Inductive step (k : nat) : state -> state -> Prop :=
(* the next call; a logging call takes the handler's lock *)
| p_begin s a l ws r o : frame_of s a = Some (Frame (Call l ws :: r) None o) -> (l = true -> s_lock s = None) ->
    step k s (set_frame a (Frame r (Some (Doing l ws [])) o) (if l then set_lock (Some a) s else s))
(* trace 236-239, logs 390-393 *)
| p_submit s a l w ws is r o : frame_of s a = Some (Frame r (Some (Doing l (w :: ws) is)) o) ->
    step k s (set_frame a (Frame r (Some (Doing l ws (is ++ [length (s_tasks s)]))) o) (add_task (TaskOf a (length o) w Queued) s))
(* trace 240-241, logs 394-395: the result is there *)
| p_await s a l i is r o : frame_of s a = Some (Frame r (Some (Doing l [] (i :: is))) o) -> is_done s i = Some false ->
    step k s (set_frame a (Frame r (Some (Doing l [] is)) o) s)
(* ... or raises the exception of the processor *)
| p_raise s a l i is r o : frame_of s a = Some (Frame r (Some (Doing l [] (i :: is))) o) -> is_done s i = Some true ->
    step k s (set_frame a (Frame r None (o ++ [true])) (if l then set_lock None s else s))
| p_return s a l r o : frame_of s a = Some (Frame r (Some (Doing l [] [])) o) ->
    step k s (set_frame a (Frame r None (o ++ [false])) (if l then set_lock None s else s))
(* a thread of the pool that is free takes the first task of the queue *)
| p_take s t : nth_error (s_tasks s) (s_next s) = Some t -> at_work s < k ->
    step k s (St (s_users s) (set_place (s_next s) (Running (begin_frame (w_inner (t_work t)))) (s_tasks s)) (S (s_next s)) (s_lock s))
| p_finish s i o : frame_of s (Task i) = Some (Frame [] None o) ->
    step k s (St (s_users s) (set_place i Done (s_tasks s)) (s_next s) (s_lock s)).
Inductive reaches (k : nat) : state -> state -> Prop :=
| re_here s : reaches k s s
| re_step s s1 s2 : reaches k s s1 -> step k s1 s2 -> reaches k s s2.
