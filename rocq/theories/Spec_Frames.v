(** Specifications for blocks in coroutines and generators. *)
From Verif Require Export Model_Frames.
Local Open Scope nat_scope.

(** Blocks by the tasks in which they are open.  [pl_open u]: frames and spans, innermost first; [pl_from u]: the span in which the task was
    made; [pl_parents]: the parents of the spans by number; [pl_ended]: those that were ended. *)
Record places := Pl { pl_open : nat -> list (nat * nat); pl_from : nat -> option nat; pl_parents : list (option nat); pl_ended : list nat }.
Definition no_places : places := Pl (fun _ => []) (fun _ => None) [] [].
Definition upd {A} (k : nat) (x : A) (g : nat -> A) : nat -> A := fun y => if Nat.eqb y k then x else g y.
(** The span of the innermost open block of a task, or that in which it was made *)
Definition innermost (p : places) (u : nat) : option nat := match pl_open p u with (_, n) :: _ => Some n | [] => pl_from p u end.

(** Blocks are nested in each task: a frame only leaves the innermost open block of the task it runs in. *)
Inductive nests : places -> gev -> places -> Prop :=
| nests_enter p u f :
    nests p (GEnter u f) (Pl (upd u ((f, length (pl_parents p)) :: pl_open p u) (pl_open p)) (pl_from p) (pl_parents p ++ [innermost p u]) (pl_ended p))
| nests_leave p u f n r :
    pl_open p u = (f, n) :: r -> (forall v m, In (f, m) (pl_open p v) -> m <= n) ->
    nests p (GLeave u f) (Pl (upd u r (pl_open p)) (pl_from p) (pl_parents p) (pl_ended p ++ [n]))
| nests_none p u f : (forall v m, ~ In (f, m) (pl_open p v)) -> nests p (GLeave u f) p
| nests_task p u v :
    pl_open p v = [] -> nests p (GTask u v) (Pl (pl_open p) (upd v (innermost p u) (pl_from p)) (pl_parents p) (pl_ended p)).
Inductive nested_run : places -> list gev -> places -> Prop :=
| nr_nil p : nested_run p [] p
| nr_cons p e p1 l p2 : nests p e p1 -> nested_run p1 l p2 -> nested_run p (e :: l) p2.

(** Every task runs one frame only, and has not entered a block before it is made. *)
Definition own_frame (e : gev) : Prop := match e with GEnter u f | GLeave u f => f = u | GTask _ _ => True end.
Definition own_tasks (l : list gev) : Prop :=
  Forall own_frame l /\ forall pre u v post f, l = pre ++ GTask u v :: post -> ~ In (GEnter v f) pre.
(** Frame f does nothing. *)
Definition idle (f : nat) (e : gev) : Prop := match e with GEnter _ g | GLeave _ g => g <> f | GTask _ _ => True end.
