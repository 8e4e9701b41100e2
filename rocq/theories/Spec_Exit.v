(** What is exported when a program ends. *)
From Verif Require Export Model_Exit.
Local Open Scope nat_scope.

Section Spec.
Context {A : Type}.
(** The spans of provider p that end in a history, and in a callback of the program. *)
Definition ended_on (p : nat) (h : list (xev A)) : list A :=
  flat_map (fun e => match e with XEnd p' a => if Nat.eqb p' p then [a] else [] | _ => [] end) h.
Definition ended_in (p : nat) (body : list (uev A)) : list A :=
  flat_map (fun e => match e with UEnd p' a => if Nat.eqb p' p then [a] else [] | _ => [] end) body.
(** The callbacks that the program registers, in order. *)
Definition registered (h : list (xev A)) : list (list (uev A)) := flat_map (fun e => match e with XRegister b => [b] | _ => [] end) h.
Definition providers (h : list (xev A)) : nat := length (filter (fun e => match e with XProvider _ _ => true | _ => false end) h).
Definition processors (h : list (xev A)) : nat := length (filter (fun e => match e with XAdd _ _ => true | _ => false end) h).
Definition shutdowns (p : nat) (h : list (xev A)) : nat := length (filter (fun e => match e with XShutdown p' => Nat.eqb p' p | _ => false end) h).

(** Provider p has the concurrent multi processor. *)
Definition concurrent (p : nat) (h : list (xev A)) : Prop := exists h1 x h2, h = h1 ++ XProvider true x :: h2 /\ providers h1 = p.
(** The callbacks of the program only start and end spans, of providers with the default multi processor. *)
Definition plain_callbacks (h : list (xev A)) : Prop :=
  forall b e, In b (registered h) -> In e b -> exists p a, e = UEnd p a /\ ~ concurrent p h.
End Spec.
