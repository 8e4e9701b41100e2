(** What the exporters and the reader that keep telemetry in memory promise. *)
From Verif Require Export Model_Memory.
Local Open Scope nat_scope.

Section Spec.
Context {A : Type}.
Notation run h := (mrun (A := A) h m_init).

(** What call n of export was given, and what it has returned, if it has. *)
Definition batch_of (h : list (mev A)) (n : nat) : list A := match nth_error (m_calls (run h)) n with Some c => call_batch c | None => [] end.
Definition result_of (h : list (mev A)) (n : nat) : option bool :=
  match nth_error (m_calls (run h)) n with Some (Done _ ok) => Some ok | _ => None end.
(** Call n of export has been made at the end of h. *)
Definition started (h : list (mev A)) (n : nat) : Prop := n < length (m_calls (run h)).

(** What get_finished_spans may return after h: the batches of some calls in an order that agrees with time.  A call is shown only if
    it has succeeded, and not if it had returned when the exporter was cleared; it is shown if it has succeeded and was not cleared
    after it was made. *)
Definition shown (h : list (mev A)) (order : list nat) : Prop :=
  NoDup order
  /\ (forall n, In n order -> result_of h n = Some true)
  /\ (forall n before after, h = before ++ MClear :: after -> result_of before n <> None -> ~ In n order)
  /\ (forall n before after, h = before ++ after -> ~ started before n -> ~ In MClear after -> result_of h n = Some true -> In n order)
  /\ (forall a m b n c before after, order = a ++ m :: b ++ n :: c -> h = before ++ after -> result_of before n = Some true -> started before m).

(** All measurements of a history, in order. *)
Definition recorded (h : list (qev A)) : list A := flat_map (fun e => match e with QRecord a => [a] | _ => [] end) h.
(** All that get_metrics_data has returned. *)
Definition returned (l : list (option (list A))) : list A := flat_map (fun o => match o with Some d => d | None => [] end) l.
End Spec.
