(** Vocabulary for what users expect of tracers, loggers and instruments obtained before a provider is set. *)
From Verif Require Export Model_Proxy.

Section Tracers.
Context {A X : Type}.
(** The provider given to the first set call of a history. *)
Fixpoint first_set (l : list (pop A X)) : option nat :=
  match l with
  | [] => None
  | PSet p :: _ => Some p
  | _ :: l' => first_set l'
  end.
(** The arguments of its get calls, in order: the [h]-th one returned handle [h]. *)
Fixpoint gets (l : list (pop A X)) : list A :=
  match l with
  | [] => []
  | PGet a :: l' => a :: gets l'
  | _ :: l' => gets l'
  end.
(** How many calls it starts; how many steps the thread of call [c] takes. *)
Fixpoint calls_started (l : list (pop A X)) : nat :=
  match l with
  | [] => O
  | PCall _ _ :: l' => S (calls_started l')
  | _ :: l' => calls_started l'
  end.
Fixpoint steps_of (c : nat) (l : list (pop A X)) : nat :=
  match l with
  | [] => O
  | PRun c' :: l' => if Nat.eqb c c' then S (steps_of c l') else steps_of c l'
  | _ :: l' => steps_of c l'
  end.
(** Where call [c] ended up, once finished: [Some None] with the no-op, [Some (Some (p, a))] with the tracer that
    provider [p] gives for the arguments [a]. *)
Definition result_of (s : pstate A X) (c : nat) : option (option (nat * A)) :=
  match nth_error (ps_calls s) c with
  | Some (Call _ _ (CDone r)) => Some r
  | _ => None
  end.
End Tracers.

Section Meters.
Context {M T I X : Type}.
(** The instruments the real provider was asked to create: name, version, schema url of the meter and arguments of
    the instrument. *)
Fixpoint created (l : list (mevent M T I X)) : list (M * I) :=
  match l with
  | [] => []
  | ECreate (m, _) i :: l' => (m, i) :: created l'
  | EMeasure _ _ _ :: l' => created l'
  end.
(** A measurement on handle [h] in this state reaches the real instrument of that meter and arguments, as one call. *)
Definition reaches (bad : I -> bool) (s : mstate M T I X) (h : nat) (m : M * option T) (i : I) : Prop :=
  forall x, ms_log (mstep bad s (MMeasure h x)) = ms_log s ++ [EMeasure m i x].
(** It is dropped. *)
Definition dropped (bad : I -> bool) (s : mstate M T I X) (h : nat) : Prop :=
  forall x, ms_log (mstep bad s (MMeasure h x)) = ms_log s.
End Meters.
