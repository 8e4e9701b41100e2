(** Specification for tracing from the calls of a program to the OTLP requests (C90). *)
From Verif Require Export Spec_Sampling Spec_Otlp Spec_Processor Model_Tracing.
Local Open Scope nat_scope.

(** How many spans a history has started: the number of the next span. *)
Fixpoint starts (h : list tev) : nat :=
  match h with
  | [] => 0
  | VStart _ _ _ _ _ _ _ _ _ :: r => S (starts r)
  | _ :: r => starts r
  end.
(** The calls on span [n], in the order in which they got its lock. *)
Fixpoint calls_on (n : nat) (h : list tev) : list sop :=
  match h with
  | [] => []
  | VCall m o :: r => if Nat.eqb m n then o :: calls_on n r else calls_on n r
  | _ :: r => calls_on n r
  end.
(** Those of them that came before the first end(), and the end time that this one gave. *)
Definition recorded_on (n : nat) (h : list tev) : list sop := until_end (map ACall (calls_on n h)).
Definition end_of (n : nat) (h : list tev) : option Z := first_end (map ACall (calls_on n h)).

(** The arguments of a start_span call. *)
Record start_call := StartCall {
  c_scope : option scope; c_place : place; c_name : str; c_kind : Z; c_attrs : pairs; c_links : link_args;
  c_start : option Z; c_now : Z
}.
(** In [h], span [n] was started by the call [a], and [later] came after it. *)
Definition started_by (h : list tev) (n : nat) (a : start_call) (later : list tev) : Prop :=
  exists before explicit,
    h = before ++ VStart (c_scope a) explicit (c_place a) (c_name a) (c_kind a) (c_attrs a) (c_links a) (c_start a) (c_now a)
          :: later
    /\ starts before = n.

Section World.
Context {G : Type}.
(** The span context of a span of the program: span.get_span_context(). *)
Definition context_of (w : tworld (G := G)) (n : nat) : option span_context :=
  option_map (fun s => started_context (fst s)) (nth_error (tw_spans w) n).
(** The parent of span [n]: the span it was started in, or the one in the context it was started in, if that is valid. *)
Definition span_in (c : context) : option span_context :=
  if sc_is_valid (current_span_context c) then Some (current_span_context c) else None.
Definition parent_of (w : tworld (G := G)) (n : nat) (p : place) : option span_context :=
  match p with
  | InSpan m base => if Nat.ltb m n then context_of w m else span_in base
  | InContext c => span_in c
  end.

(** [x] is span [n] of the program, as it was ended: with its own and its parent's context, the arguments of its
    start, what the calls before its end recorded, and its end time; under the scope of its tracer and the resource
    of the provider. *)
Definition is_span (lim : slimits) (res : resource) (w : tworld (G := G)) (h : list tev) (n : nat) (x : rspan) : Prop :=
  exists a later ctx,
    started_by h n a later /\ context_of w n = Some ctx
    /\ carries lim (c_name a) ctx (parent_of w n (c_place a)) (c_kind a) (c_attrs a) (c_links a)
         (at_time (c_start a) (c_now a)) (recorded_on n later) (rs_span x)
    /\ sp_end (rs_span x) = end_of n later /\ end_of n later <> None
    /\ rs_scope x = c_scope a /\ rs_resource x = res.

(** No end() of span [n] is on its way to on_end, or in it before the span has been put into the queue. *)
Definition handed_in (w : tworld (G := G)) (n : nat) : Prop :=
  (forall sw sco, nth_error (tw_spans w) n = Some (Recording sw, sco) -> w_pending sw = 0)
  /\ forall t x, b_thr (tw_proc w) t <> TOnEnd (n, x) /\ b_thr (tw_proc w) t <> TAppend (n, x).
(** Thread [t] begins no other call of the processor. *)
Definition no_call_by (t : nat) (h : list tev) : Prop :=
  Forall (fun e => match e with
                   | VOnEnd _ t' | VProc (PFlush t') | VProc (PShutdown t') => t' <> t
                   | _ => True
                   end) h.
(** The spans that the exporter got, and those that a full queue dropped. *)
Definition exported (w : tworld (G := G)) : list item := handed_over (b_log (tw_proc w)).
Definition evicted (w : tworld (G := G)) (i : item) : Prop := In (i, Evicted) (b_gone (tw_proc w)).
End World.
