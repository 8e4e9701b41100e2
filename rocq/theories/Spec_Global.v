(** What programs see of the global provider. *)
From Verif Require Export Model_Global.
Local Open Scope nat_scope.

(** The call of thread t ends with this. *)
Definition ends_call (t : nat) (r : gres) : bool :=
  match r with
  | RSet u _ _ | RProvider u _ | RNone u | RProxy u | RRaised u => Nat.eqb u t
  | _ => false
  end.
(** This shows that a provider is installed: a set has returned, or a get has returned a provider. *)
Definition shows_installed (r : gres) : bool := match r with RSet _ _ _ | RProvider _ _ => true | _ => false end.
(** p was offered: by a set, or by the environment. *)
Definition offered (p : nat) (l : list gres) : Prop := exists t, In (RStart t (CSet p)) l \/ In (RLoaded t p) l.
(** A thread is within a call. *)
Definition busy (w : gworld) (t : nat) : Prop := g_pc w t <> GIdle.
(** How many steps a call has at most before it. *)
Definition steps_left (c : gpc) : nat :=
  match c with
  | GIdle => 0 | GLast => 1 | SMark _ _ => 2 | SHook _ _ => 3 | SAssign _ _ => 4 | SCheck _ _ => 5 | SWait _ _ => 6 | SFast _ _ => 7
  | GLoad => 8 | GEnv => 9 | GTest => 10
  end.
(** Thread t neither starts nor ends a call in l. *)
Definition quiet (t : nat) (l : list gres) : bool :=
  forallb (fun r => match r with RStart u _ => negb (Nat.eqb u t) | _ => negb (ends_call t r) end) l.
(** In the log l, thread t makes the call c after [before], and the call ends with r. *)
Definition answered (l before : list gres) (t : nat) (c : gcall) (r : gres) : Prop :=
  exists l2 l3, l = before ++ RStart t c :: l2 ++ r :: l3 /\ quiet t l2 = true /\ ends_call t r = true.
(** The environment names a provider, and it loads. *)
Definition env_loads (e : gev) : Prop := match e with EStep _ present loads => present = true /\ loads <> None | _ => True end.
