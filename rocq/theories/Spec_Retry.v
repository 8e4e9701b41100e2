(** What retrying should do. *)
From Verif Require Export Model_Retry.
Local Open Scope Z_scope.

(** ** HTTP: after a timeout of the server or one of its errors the request is sent again. *)
Definition http_again (a : http_answer) : Prop := exists code, a = HStatus code /\ (code = 408 \/ 500 <= code <= 599).
Definition http_success (a : http_answer) : Prop := exists code, a = HStatus code /\ ~ 400 <= code <= 599.
Definition http_failure (a : http_answer) : Prop := exists code, a = HStatus code /\ 400 <= code <= 499 /\ code <> 408.
(** How the call ends if [a] is the first answer that is not "again" *)
Definition http_verdict (a : http_answer) (e : ended) : Prop :=
  (http_success a /\ e = Returned SUCCESS) \/ (http_failure a /\ e = Returned FAILURE) \/ (a = HException /\ e = Raised).
(** Either the first conclusive answer is among the first six, and is the last one asked for, or there are six
    requests; in between it waits for 1, 2, 4, 8, 16 and 32 seconds. *)
Definition seconds : list Z := [1; 2; 4; 8; 16; 32].
Definition retried (answers : nat -> http_answer) (c : call) : Prop :=
  (exists n, (n < 6)%nat /\ (forall i, (i < n)%nat -> http_again (answers i)) /\ ~ http_again (answers n)
     /\ http_verdict (answers n) (c_end c) /\ c_attempts c = S n /\ c_waits c = firstn n seconds)
  \/ ((forall i, (i < 6)%nat -> http_again (answers i)) /\ c_end c = Returned FAILURE /\ c_attempts c = 6%nat /\ c_waits c = seconds).

(** ** gRPC *)
(** CANCELLED, DEADLINE_EXCEEDED, RESOURCE_EXHAUSTED, ABORTED, OUT_OF_RANGE, UNAVAILABLE, DATA_LOSS *)
Definition passing (code : Z) : Prop := code = 1 \/ code = 4 \/ code = 8 \/ code = 10 \/ code = 11 \/ code = 14 \/ code = 15.
(** The server says nothing about when to try again, or a time that one can wait for *)
Definition usable (info : option (option Z)) : Prop := info = None \/ exists d, info = Some (Some d) /\ 0 <= d < 2 ^ 63.
(** Errors after which the request is sent again *)
Definition grpc_again (a : grpc_answer) : Prop := exists code info, a = GError code info /\ passing code /\ usable info.
Definition grpc_success (a : grpc_answer) : Prop := a = GOk \/ exists info, a = GError 0 info.
Definition grpc_verdict (a : grpc_answer) (e : ended) : Prop :=
  (grpc_success a /\ e = Returned SUCCESS)
  \/ (a = GException /\ e = Raised)
  \/ ((exists code info, a = GError code info /\ passing code /\ ~ usable info) /\ e = Raised)
  \/ ((exists code info, a = GError code info /\ ~ passing code) /\ ~ grpc_success a /\ e = Returned FAILURE).
(** What thread [t] asked and how long it slept, in the events of a run *)
Definition attempts_of (t : nat) (ev : list gevent) : list grpc_answer :=
  flat_map (fun e => match e with EAttempt t' a => if Nat.eqb t' t then [a] else [] | _ => [] end) ev.
Definition sleeps_of (t : nat) (ev : list gevent) : list Z :=
  flat_map (fun e => match e with ESleep t' d => if Nat.eqb t' t then [d] else [] | _ => [] end) ev.
(** The waits, in nanoseconds: what the server asks for or 1, 2, 4, ... seconds *)
Fixpoint waits_after (secs : Z) (answers : list grpc_answer) : list Z :=
  match answers with
  | [] => []
  | a :: l => (match a with GError _ (Some (Some d)) => d | _ => secs * 1000000000 end) :: waits_after (2 * secs) l
  end.
Definition no_timeouts (cs : list gchoice) : Prop := Forall (fun c => gc_timeout c = false) cs.
(** A thread that has not begun to export *)
Definition not_begun (s : gstate) (t : nat) : Prop := nth_error (g_threads s) t = Some XCheck.
(** Threads between taking and releasing the lock *)
Definition inside (p : xpc) : bool := match p with XIn _ | XSleep _ _ | XLeave _ _ | SSet | SRelease => true | _ => false end.
