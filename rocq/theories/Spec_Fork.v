(** What the processes of a program that forks export together. *)
From Verif Require Export Spec_Processor Model_Fork.
Local Open Scope nat_scope.

(** The spans that a process has handed to its exporter, with the numbers of the calls of on_end they came from *)
Definition exported_by {X} (s : bsp (nat * X)) : list (nat * X) := handed_over (b_log s).
Definition all_exported {X} (w : pworld X) : list (nat * X) := concat (map exported_by (p_procs w)).
(** Call [i] of on_end has not come past the queue yet. *)
Definition on_its_way {X} (s : bsp (nat * X)) (i : nat * X) : Prop := exists t, b_thr s t = TOnEnd i \/ b_thr s t = TAppend i.
(** The full queue of the process dropped it. *)
Definition dropped_by {X} (s : bsp (nat * X)) (i : nat * X) : Prop := In (i, Evicted) (b_gone s).
(** Thread [t] of process [p] begins no call in these steps. *)
Definition makes_no_call {X} (p t : nat) (es : list (nat * pev X)) : Prop :=
  (forall x, ~ In (p, POnEnd t x) es) /\ ~ In (p, PFlush t) es /\ ~ In (p, PShutdown t) es.
