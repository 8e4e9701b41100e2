(** What logging through the SDK's handler should come to. *)
From Verif Require Export Model_SelfLog.

(** No processor that exports at once is shut down, and none has an exporter that logs or raises. *)
Definition calm (exporter : nat -> list (nat * list msg) -> list msg -> list msg * bool) (w : world) : Prop :=
  forall i down, nth_error (procs w) i = Some (Simple down) -> down = false /\ forall h b, exporter i h b = ([], false).
(** A processor after a record: a live queue has it as its newest, and holds its [cap] newest records. *)
Definition last_of (cap : nat) (l : list msg) : list msg := rev (firstn cap (rev l)).
Definition given (m : msg) (p : proc) : proc :=
  match p with Batch false size cap q => Batch false size cap (last_of cap (q ++ [m])) | _ => p end.
(** The exports of a record that processors [k], [k+1], … make at once: one for each that is not a batch processor *)
Fixpoint at_once (m : msg) (k : nat) (ps : list proc) : list (nat * list msg) :=
  match ps with
  | [] => []
  | Simple _ :: ps => (k, [m]) :: at_once m (S k) ps
  | Batch _ _ _ _ :: ps => at_once m (S k) ps
  end.
(** The records the [i]-th processor's exporter was given in those calls, in order *)
Definition exports_of (i : nat) (calls : list (nat * list msg)) : list (list msg) :=
  map snd (filter (fun c => fst c =? i) calls).
(** The exporter of [i] logs, with the message about its exception, no more than one message per record it is given. *)
Definition terse (exporter : nat -> list (nat * list msg) -> list msg -> list msg * bool) (i : nat) : Prop :=
  forall h b, b <> [] -> length (fst (exporter i h b)) + (if snd (exporter i h b) then 1 else 0) <= length b.
