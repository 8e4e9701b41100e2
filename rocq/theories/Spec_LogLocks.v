(** Who waits for whom. *)
From Verif Require Export Model_LogLocks.
From Coq Require Export Relations.

(** [t] cannot go on before [u] does something: it wants a lock that [u] has, or waits for an answer or the end of [u]. *)
Definition waits_for (s : state) (t u : thread) : Prop :=
  (exists l p, todo s t = Acq l :: p /\ owner s l = Some u)
  \/ (exists j e p, todo s t = Await j e :: p /\ answered s j e = false /\ ended s j = false /\ u = Worker j)
  \/ (exists j p, todo s t = Join j :: p /\ ended s j = false /\ u = Worker j).
(** [t] waits for an answer of a worker that has ended, until its time is over. *)
Definition waits_in_vain (s : state) (t : thread) : Prop :=
  exists j e p, todo s t = Await j e :: p /\ answered s j e = false /\ ended s j = true.
Definition can_go_on (resets logs : bool) (s : state) (t : thread) : Prop := exists s', step resets logs t s s'.
(** A worker that has not ended, or a thread in a call *)
Definition busy (s : state) (t : thread) : Prop := todo s t <> [] \/ exists j, t = Worker j /\ ended s j = false.
(** What can be reached while nobody's time is over *)
Inductive goes_on (resets logs : bool) : state -> state -> Prop :=
| g_here s : goes_on resets logs s s
| g_step s s1 s2 t : goes_on resets logs s s1 -> step resets logs t s1 s2 -> goes_on resets logs s s2.
