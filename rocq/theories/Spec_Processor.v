(** Specifications for the span processor properties (C32-C37). *)
From Verif Require Export Spec_Runtime Model_Processor.
Local Open Scope nat_scope.

(** ** Fan-out *)

(** The processors registered by a history, in order. *)
Fixpoint registered {E} (es : list (mev E)) : list nat :=
  match es with
  | [] => []
  | MAdd p :: es' => p :: registered es'
  | _ :: es' => registered es'
  end.
(** The processors called on behalf of call [t], in order, with the event they got. *)
Definition deliveries {E} (t : nat) (s : msp E) : list (E * nat) :=
  flat_map (fun l => if Nat.eqb (fst (fst l)) t then [(snd (fst l), snd l)] else []) (m_log s).
(** [l1] is an initial part of [l2]. *)
Definition initial_part {A} (l1 l2 : list A) : Prop := exists l, l2 = l1 ++ l.

(** Processor [i] gets its turn before the deadline and reports success. *)
Definition flushed_in_time (clock : nat -> Z) (flush : nat -> Z -> bool) (timeout : Z) (i : nat) : Prop :=
  let deadline := (clock O + timeout * 1000000)%Z in
  (clock (S i) < deadline)%Z /\ flush i ((deadline - clock (S i)) / 1000000)%Z = true.

(** ** The batch processor *)

(** The items handed to the exporter, in order. *)
Definition handed_over {item} (log : list (xev item)) : list item :=
  flat_map (fun e => match e with XExport b => b | XShutdown => [] end) log.
(** The batch that is being assembled, not yet handed over. *)
Definition assembling {item} (w : wpc item) : list item :=
  match w with WPop _ b => b | _ => [] end.
Definition was_taken (f : fate) : bool := match f with Evicted => false | _ => true end.
Definition in_flight (f : fate) : bool := match f with InFlight => true | _ => false end.
(** The batch taken from the queue whose export has not returned. *)
Definition current_batch {item} (w : wpc item) : list item :=
  match w with WPop _ b => b | WSend _ b => b | _ => [] end.

(** Each of the first [n] accepted items has been exported or evicted. *)
Definition settled {item} (n : nat) (s : bsp item) : Prop :=
  forall i x, i < n -> nth_error (b_acc s) i = Some x ->
    nth_error (b_gone s) i = Some (x, Exported) \/ nth_error (b_gone s) i = Some (x, Evicted).
