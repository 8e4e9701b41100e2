(** Specification vocabulary for the metrics SDK with threads and the aggregations of the SDK. *)
From Verif Require Export Spec_View Spec_MetricThreads Model_MetricSdk.
Local Open Scope Z_scope.

(** A history of a stream as a history of an aggregation that is used by one thread (Model_Metrics.v), and what its collections gave. *)
Definition op_of (e : @entry point) : mop :=
  match e_act e with AMeasure v => Model_Metrics.Measure v | ACollect now _ => Model_Metrics.Collect now end.
Definition given (h : list (@entry point)) : list (option point) :=
  flat_map (fun e => match e_act e with AMeasure _ => [] | ACollect _ p => [p] end) h.
(** The values that the call which began at [b] is to add to a stream. *)
Definition adds {V T K D} (keq : K -> K -> bool) (key_of : V -> T -> option K) (log : list (@lev T D)) (r : nat) (i : N) (w : V) (k : K) (b : nat) : list Z :=
  match nth_error log b with Some (LBegin _ c) => work keq key_of r i w k c | _ => [] end.
(** A sum of a synchronous instrument *)
Definition is_sum (w : sview) : Prop :=
  (sv_aggregation w = Default \/ sv_aggregation w = Sum) /\ (sv_kind w = ICounter \/ sv_kind w = IUpDownCounter).
