(** Retrying of OTLP exports.

    Source: exporter/opentelemetry-exporter-otlp-proto-common/src/opentelemetry/exporter/otlp/proto/common/_internal/__init__.py
    179-211; exporter/opentelemetry-exporter-otlp-proto-http/src/opentelemetry/exporter/otlp/proto/http/ trace_exporter
    141-197, _log_exporter 144-198, metric_exporter 186-229; exporter/opentelemetry-exporter-otlp-proto-grpc/src/opentelemetry/exporter/otlp/proto/grpc/exporter.py
    270-363. *)
From Coq Require Export List ZArith Bool.
Export ListNotations.
Local Open Scope Z_scope.

(** 210-211: the i-th value of [_create_exp_backoff_generator] *)
Definition backoff (max_value : Z) (i : nat) : Z :=
  let out := 2 ^ Z.of_nat i in if Z.eqb max_value 0 then out else Z.min out max_value.

Inductive export_result := SUCCESS | FAILURE.
(** How a call ends: with a result or with an exception *)
Inductive ended := Returned (r : export_result) | Raised.
(** A call: how it ended, the number of requests it sent and how long it slept after each of them *)
Record call := Call { c_end : ended; c_attempts : nat; c_waits : list Z }.

(** ** HTTP *)

(** [_session.post]: a status code or an exception (no connection, timeout) *)
Inductive http_answer := HStatus (code : Z) | HException.
(** [requests.Response.ok]: [raise_for_status] raises for the codes from 400 to 599 *)
Definition resp_ok (code : Z) : bool := negb ((400 <=? code) && (code <? 600)).
(** trace_exporter 142-148 [_retryable] *)
Definition retryable (code : Z) : bool := (code =? 408) || ((code >=? 500) && (code <=? 599)).
Definition MAX_RETRY_TIMEOUT : Z := 64.
(** trace_exporter 152-178 [_export_serialized_spans], the same loop in the log and metric exporters.  [answers i] is
    the server's answer to the i-th request; the generator is endless, [fuel] bounds the rounds and running out of it
    gives None. *)
Fixpoint http_loop (answers : nat -> http_answer) (fuel i : nat) (waits : list Z) : option call :=
  match fuel with
  | O => None
  | S fuel' =>
      let delay := backoff MAX_RETRY_TIMEOUT i in
      if Z.eqb delay MAX_RETRY_TIMEOUT then Some (Call (Returned FAILURE) i waits)
      else match answers i with
           | HException => Some (Call Raised (S i) waits)
           | HStatus code =>
               if resp_ok code then Some (Call (Returned SUCCESS) (S i) waits)
               else if retryable code then http_loop answers fuel' (S i) (waits ++ [delay])
               else Some (Call (Returned FAILURE) (S i) waits)
           end
  end.
(** trace_exporter 180-189 and _log_exporter: [export]; the encoding is Model_Otlp's *)
Definition http_export (shutdown : bool) (answers : nat -> http_answer) (fuel : nat) : option call :=
  if shutdown then Some (Call (Returned FAILURE) 0 []) else http_loop answers fuel 0 [].
(** metric_exporter 194-229: no test of the flag, and [shutdown] does nothing *)
Definition http_metric_export (shutdown : bool) (answers : nat -> http_answer) (fuel : nat) : option call := http_loop answers fuel 0 [].
(** The calls made one after the other on an exporter: [shutdown] (trace_exporter 191-196) sets the flag; a second one
    logs a warning *)
Inductive http_op := HExport (answers : nat -> http_answer) | HShutdown.
Fixpoint http_history (export : bool -> (nat -> http_answer) -> nat -> option call) (fuel : nat) (shutdown : bool) (ops : list http_op) : list (option call) :=
  match ops with
  | [] => []
  | HExport answers :: ops' => export shutdown answers fuel :: http_history export fuel shutdown ops'
  | HShutdown :: ops' => http_history export fuel true ops'
  end.

(** ** gRPC *)

(** [_client.Export]: success, an RpcError with its code and the delay that the server asks for in its metadata (in
    nanoseconds here; [Some None] if what it says there is no RetryInfo), or another exception (as from encoding, or from
    a closed channel) *)
Inductive grpc_answer := GOk | GError (code : Z) (retry_info : option (option Z)) | GException.
(** 307-315: CANCELLED 1, DEADLINE_EXCEEDED 4, RESOURCE_EXHAUSTED 8, ABORTED 10, OUT_OF_RANGE 11, UNAVAILABLE 14,
    DATA_LOSS 15 *)
Definition transient (code : Z) : bool := existsb (Z.eqb code) [1; 4; 8; 10; 11; 14; 15].
(** Python's [time.sleep]: a negative time is a ValueError, one of 2^63 nanoseconds an OverflowError *)
Definition can_sleep (d : Z) : bool := (0 <=? d) && (d <? 2 ^ 63).
(** 316-325 and 337: how long to sleep, in nanoseconds, or an exception from [ParseFromString] or [sleep].  Simplified: the
    sum of the seconds and nanoseconds is exact. *)
Definition grpc_delay (delay : Z) (retry_info : option (option Z)) : option Z :=
  match retry_info with
  | None => Some (delay * 1000000000)
  | Some None => None
  | Some (Some d) => if can_sleep d then Some d else None
  end.

(** ** Threads that export and shut down one gRPC exporter *)

(** Where a call of [_export] is: at its first test, at the test of the loop, waiting for the lock, in the critical
    section before the request, sleeping in it, at its end (releasing the lock), done.  [i] counts the requests sent. *)
Inductive xpc :=
| XCheck | XLoop (i : nat) | XWant (i : nat) | XIn (i : nat) | XSleep (i : nat) (delay : Z)
| XLeave (i : nat) (next : option ended) | XDone (i : nat) (e : ended)
(** A call of [shutdown]: at its test, waiting for the lock with a timeout, before setting the flag, before releasing *)
| SCheck | SWant | SSet | SRelease | SDone | SRaised.
Record gstate := GS { g_shut : bool; g_lock : bool; g_threads : list xpc }.
(** What can be seen from outside *)
Inductive gevent := EAttempt (t : nat) (a : grpc_answer) | ESleep (t : nat) (delay : Z) | EShut (t : nat) | EReturn (t : nat).
(** What the environment decides in a step: the answer of the server, and whether the wait for the lock in [shutdown]
    times out. *)
Record gchoice := GC { gc_thread : nat; gc_answer : grpc_answer; gc_timeout : bool }.

Fixpoint set_nth {A} (n : nat) (x : A) (l : list A) : list A :=
  match l, n with [], _ => [] | _ :: l', O => x :: l' | y :: l', S n' => y :: set_nth n' x l' end.
(** One step of a thread: its next place, the flag, the lock, and an event.  A thread that has to wait stays. *)
Definition pc_step (t : nat) (p : xpc) (c : gchoice) (shut lock : bool) : xpc * bool * bool * list gevent :=
  match p with
  (* 273-277 *)
  | XCheck => if shut then (XDone 0 (Returned FAILURE), shut, lock, [EReturn t]) else (XLoop 0, shut, lock, [])
  (* 292-294 *)
  | XLoop i => if Z.eqb (backoff 64 i) 64 || shut then (XDone i (Returned FAILURE), shut, lock, [EReturn t]) else (XWant i, shut, lock, [])
  (* 296 *)
  | XWant i => if lock then (p, shut, lock, []) else (XIn i, shut, true, [])
  (* 297-351 *)
  | XIn i =>
      (match gc_answer c with
       | GOk => XLeave (S i) (Some (Returned SUCCESS))
       | GException => XLeave (S i) (Some Raised)
       | GError code info =>
           if transient code then
             match grpc_delay (backoff 64 i) info with Some d => XSleep (S i) d | None => XLeave (S i) (Some Raised) end
           else if Z.eqb code 0 then XLeave (S i) (Some (Returned SUCCESS))
           else XLeave (S i) (Some (Returned FAILURE))
       end, shut, lock, [EAttempt t (gc_answer c)])
  (* 337: the lock is held while sleeping *)
  | XSleep i d => (XLeave i None, shut, lock, [ESleep t d])
  (* the end of the with statement; releasing a lock that is not held is a RuntimeError *)
  | XLeave i next =>
      if lock then match next with
                   | None => (XLoop i, shut, false, [])
                   | Some e => (XDone i e, shut, false, [EReturn t])
                   end
      else (XDone i Raised, shut, lock, [EReturn t])
  | XDone _ _ => (p, shut, lock, [])
  (* 356-358 *)
  | SCheck => if shut then (SDone, shut, lock, [EReturn t]) else (SWant, shut, lock, [])
  (* 360: with the timeout the lock may not be ours *)
  | SWant => if lock then (if gc_timeout c then SSet else p, shut, lock, []) else (SSet, shut, true, [])
  (* 361-362 *)
  | SSet => (SRelease, true, lock, [EShut t])
  (* 363 *)
  | SRelease => if lock then (SDone, shut, false, [EReturn t]) else (SRaised, shut, lock, [EReturn t])
  | SDone | SRaised => (p, shut, lock, [])
  end.
Definition g_step (s : gstate) (c : gchoice) : gstate * list gevent :=
  match nth_error (g_threads s) (gc_thread c) with
  | None => (s, [])
  | Some p =>
      let '(p', shut, lock, ev) := pc_step (gc_thread c) p c (g_shut s) (g_lock s) in
      (GS shut lock (set_nth (gc_thread c) p' (g_threads s)), ev)
  end.
(** A run: the final state and the events, oldest first *)
Fixpoint g_run (s : gstate) (cs : list gchoice) : gstate * list gevent :=
  match cs with
  | [] => (s, [])
  | c :: cs' => let '(s1, e1) := g_step s c in let '(s2, e2) := g_run s1 cs' in (s2, e1 ++ e2)
  end.
(** Any number of exports and shutdowns that begin *)
Definition g_start (calls : list bool) : gstate := GS false false (map (fun is_export => if is_export : bool then XCheck else SCheck) calls).
