(** What a span should show although several threads use it. *)
From Verif Require Export Spec_Span Model_SpanThreads.
Local Open Scope nat_scope.

(** The calls in the order in which they had the lock, and the calls of on_end between them *)
Definition schedule_of (log : list tevent) : list act :=
  flat_map (fun e => match e with TDo _ o => [ACall o] | TOnEnd _ _ => [AOnEnd] | TGet _ _ _ => [] end) log.
(** What on_end got *)
Definition handed_over (log : list tevent) : list sdk_span :=
  flat_map (fun e => match e with TOnEnd _ s => [s] | _ => [] end) log.
(** The calls of one thread *)
Definition done_by (t : nat) (log : list tevent) : list sop :=
  flat_map (fun e => match e with TDo t' o => if Nat.eqb t t' then [o] else [] | _ => [] end) log.
Definition method_calls (l : list scall) : list sop := flat_map (fun c => match c with CCall o => [o] | CGet _ => [] end) l.
(** No thread is anywhere *)
Definition finished (m : machine) : Prop := Forall (fun st => st = []) (m_threads m).
Definition only_reads (l : list scall) : Prop := method_calls l = [].
(** How many of the steps of a schedule happen (the others find their thread finished or waiting) *)
Section Steps.
Variables (warns : pyval * pyval -> nat) (warned : sop -> nat) (handler processor : list scall).
Fixpoint steps_made (schedule : list nat) (m : machine) : nat :=
  match schedule with
  | [] => 0
  | t :: schedule' =>
      match tstep warns warned handler processor t m with
      | Some m' => S (steps_made schedule' m')
      | None => steps_made schedule' m
      end
  end.
End Steps.
