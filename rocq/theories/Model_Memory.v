(** The exporters and the reader that keep telemetry in memory.

    Sources: opentelemetry-sdk/src/opentelemetry/sdk/trace/export/in_memory_span_exporter.py 22-62 ("span"),
    sdk/_logs/_internal/export/in_memory_log_exporter.py 20-51 (the same code for logs) and sdk/metrics/_internal/export/__init__.py 322-346,
    371-373 and 389-433 ("metrics").  [A] is what is exported: spans or log records; or what is measured. *)
From Verif Require Export Model_Str.
Local Open Scope nat_scope.

Section Memory.
Context {A : Type}.

(** ** InMemorySpanExporter, InMemoryLogExporter *)

(** A call of [export] with its batch: it has passed the test of [_stopped] and not yet the lock; or it has returned SUCCESS (true) or
    FAILURE (false). *)
Inductive call := Running (batch : list A) | Done (batch : list A) (ok : bool).
Definition call_batch (c : call) : list A := match c with Running b | Done b _ => b end.
(** [m_calls]: the calls of export in the order of their starts; [m_gets]: what get_finished_spans returned, in order *)
Record memory := Mem { m_items : list A; m_stopped : bool; m_calls : list call; m_gets : list (list A) }.
(** span 30-33 *)
Definition m_init : memory := Mem [] false [] [].

(** What threads do, in the order in which it happens.  What is done under [_lock] is one step. *)
Inductive mev :=
| MBegin (batch : list A)       (* export is called, and tests _stopped *)
| MStore (n : nat)              (* the n-th call of export gets the lock, extends the list and returns *)
| MClear                        (* clear() *)
| MGet                          (* get_finished_spans() *)
| MShutdown.                    (* shutdown() *)
Definition set_call (n : nat) (c : call) (l : list call) : list call := firstn n l ++ c :: skipn (S n) l.
Definition mstep (m : memory) (e : mev) : memory :=
  match e with
  | MBegin b =>                                                  (* span 47-48 *)
      Mem (m_items m) (m_stopped m) (m_calls m ++ [if m_stopped m then Done b false else Running b]) (m_gets m)
  | MStore n =>                                                  (* span 49-51 *)
      match nth_error (m_calls m) n with
      | Some (Running b) => Mem (m_items m ++ b) (m_stopped m) (set_call n (Done b true) (m_calls m)) (m_gets m)
      | _ => m
      end
  | MClear => Mem [] (m_stopped m) (m_calls m) (m_gets m)        (* span 35-38 *)
  | MGet => Mem (m_items m) (m_stopped m) (m_calls m) (m_gets m ++ [m_items m])       (* span 40-43 *)
  | MShutdown => Mem (m_items m) true (m_calls m) (m_gets m)     (* span 53-58 *)
  end.
Definition mrun (h : list mev) (m : memory) : memory := fold_left mstep h m.

(** ** InMemoryMetricReader *)

(** The metrics are seen as the measurements they stand for, with delta temporality: a collection takes those that were recorded since
    the last one (C38, C89), and is None if there are none.  [q_flushes]: the collections of calls of collect or force_flush that have
    not been received yet. *)
Record reader := Rd { q_new : list A; q_flushes : list (option (list A)); q_data : option (list A); q_gets : list (option (list A)) }.
Definition q_init : reader := Rd [] [] None [].
Inductive qev :=
| QRecord (a : A)          (* a measurement *)
| QCollect                 (* collect or force_flush calls _collect: metrics 340 *)
| QReceive (n : nat)       (* the n-th of them calls _receive_metrics: metrics 342-346, 423-430 *)
| QGet.                    (* get_metrics_data(): metrics 413-421.  It holds the lock from the start, so no other call can receive while it
                              collects and takes the data: one step. *)
Definition collect (q : reader) : option (list A) := match q_new q with [] => None | l => Some l end.
Definition received (c d : option (list A)) : option (list A) := match c with Some _ => c | None => d end.
Definition qstep (q : reader) (e : qev) : reader :=
  match e with
  | QRecord a => Rd (q_new q ++ [a]) (q_flushes q) (q_data q) (q_gets q)
  | QCollect => Rd [] (q_flushes q ++ [collect q]) (q_data q) (q_gets q)
  | QReceive n =>
      match nth_error (q_flushes q) n with
      | Some c => Rd (q_new q) (firstn n (q_flushes q) ++ None :: skipn (S n) (q_flushes q)) (received c (q_data q)) (q_gets q)
      | None => q
      end
  | QGet => Rd [] (q_flushes q) None (q_gets q ++ [received (collect q) (q_data q)])
  end.
Definition qrun (h : list qev) (q : reader) : reader := fold_left qstep h q.
End Memory.
Arguments call : clear implicits.
Arguments memory : clear implicits.
Arguments mev : clear implicits.
Arguments reader : clear implicits.
Arguments qev : clear implicits.
