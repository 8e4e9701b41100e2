(** What the concurrent multi processors are to do. *)
From Verif Require Export Model_Pool.

(** The tasks of the [c]-th call of [a], in the order of submission *)
Definition tasks_of (a : agent) (c : nat) (s : state) : list task :=
  filter (fun t => (if agent_dec (t_by t) a then true else false) && (t_call t =? c)) (s_tasks s).
(** The calls that [a] makes in all *)
Definition program_of (programs : list (list call)) (s : state) (a : agent) : option (list call) :=
  match a with
  | User n => nth_error programs n
  | Task i => option_map (fun t => w_inner (t_work t)) (nth_error (s_tasks s) i)
  end.
(** What became of the calls that [a] made: for each, in order, whether it raised *)
Definition outcomes (s : state) (a : agent) : list bool := match frame_of s a with Some f => f_out f | None => [] end.
Definition finished (t : task) : Prop := t_place t = Done.
(** All threads of the program have made all their calls. *)
Definition all_returned (s : state) : Prop := Forall (fun f => f_rest f = [] /\ f_now f = None) (s_users s).
(** How many of the pool's threads run processors that make calls themselves *)
Definition nesting (s : state) : nat := length (filter (fun t => is_running t && match w_inner (t_work t) with [] => false | _ => true end) (s_tasks s)).
(** No processor logs. *)
Fixpoint quiet (w : work) : Prop :=
  match w with Work _ inner => fold_right and True (map (fun c => match c with Call l ws => l = false /\ fold_right and True (map quiet ws) end) inner) end.
Definition all_quiet (programs : list (list call)) : Prop :=
  Forall (Forall (fun c => match c with Call _ ws => Forall quiet ws end)) programs.
(** No processor makes calls. *)
Definition flat (programs : list (list call)) : Prop :=
  Forall (Forall (fun c => match c with Call _ ws => Forall (fun w => w_inner w = []) ws end)) programs.
Definition stuck (k : nat) (s : state) : Prop := forall s', ~ step k s s'.
(** With the number of steps *)
Inductive reaches_in (k : nat) : nat -> state -> state -> Prop :=
| in_here s : reaches_in k 0 s s
| in_step n s s1 s2 : reaches_in k n s s1 -> step k s1 s2 -> reaches_in k (S n) s s2.
