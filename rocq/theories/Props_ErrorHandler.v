(** C125: the global error handler. *)
From Verif Require Export Proof_ErrorHandler.
From Coq Require Import Sorted.
Local Open Scope nat_scope.

(** C125.  An exception leaves the body of [with GlobalErrorHandler()].  If all registered handlers load and raise nothing but Exceptions: the
    handlers whose class inherits from the class of the exception take it, each once, in their order; what they raise is logged; the default
    handler logs the exception if and only if none of them has handled it; and the program goes on after the with statement. *)
Theorem C125_handled : forall mro eps exc, sound_handlers mro eps exc -> exists l, with_handler mro eps (Some exc) = (l, GoesOn) /\
  (forall i, In (Handled i) l <-> takes mro eps exc i HReturns) /\ (forall i, In (FailureLogged i) l <-> takes mro eps exc i HFails) /\
  (In DefaultLogged l <-> forall i, ~ takes mro eps exc i HReturns) /\ StronglySorted (fun f g => place (length eps) f < place (length eps) g) l.
Proof. exact handled_by. Qed.
Print Assumptions C125_handled.

(** C125.  The with statement raises if and only if an entry point does not load or a handler raises something that is no Exception; a body that
    raises nothing has no effect. *)
Theorem C125_raises : forall mro eps,
  (forall exc, (exists l e, with_handler mro eps (Some exc) = (l, Raises_ e)) <-> ~ sound_handlers mro eps exc) /\ with_handler mro eps None = ([], GoesOn).
Proof. intros mro eps. split; [intros exc; apply raises_only|reflexivity]. Qed.
Print Assumptions C125_raises.

(** Exception 0, LookupError 1 (inherits 0), KeyError 2, ZeroDivisionError 3, a program's own kind of KeyError 4; handlers 10 (for 3) and 11 (for 2), 12 (for 2) *)
Definition ex_mro (c : nat) : list nat :=
  match c with 1 => [1; 0] | 2 => [2; 1; 0] | 3 => [3; 0] | 4 => [4; 2; 1; 0] | 10 => [10; 3; 0] | 11 => [11; 2; 1; 0] | 12 => [12; 2; 1; 0] | _ => [c] end.
Definition ex_handlers : list entry_point := [Handler 10 (fun _ => HReturns); Handler 11 (fun _ => HFails); Handler 12 (fun _ => HReturns)].
Example C125_example : sound_handlers ex_mro ex_handlers 2 /\
  with_handler ex_mro ex_handlers (Some 2) = ([FailureLogged 1; Handled 2], GoesOn) /\
  with_handler ex_mro (firstn 2 ex_handlers) (Some 2) = ([FailureLogged 1; DefaultLogged], GoesOn) /\
  with_handler ex_mro ex_handlers (Some 1) = ([FailureLogged 1; Handled 2], GoesOn) /\
  with_handler ex_mro (Broken 8 :: ex_handlers) (Some 2) = ([], Raises_ 8).
Proof. split; [|repeat split]. intros ep [<-|[<-|[<-|[]]]]; intros _ e; discriminate. Qed.

(** C125, refuted: a handler for a class of exceptions takes every exception that is one of them.  An exception of a class derived from KeyError
    goes past a handler for KeyError; a handler for KeyError takes a LookupError, which is none. *)
Theorem C125_derived_refuted : ~ (forall mro eps exc i c does cls, nth_error eps i = Some (Handler c does) -> In cls (mro c) -> In cls (mro exc) -> does exc = HReturns ->
  sound_handlers mro eps exc -> In (Handled i) (fst (with_handler mro eps (Some exc)))).
Proof.
  intros H. specialize (H ex_mro [Handler 11 (fun _ => HReturns)] 4 0 11 (fun _ => HReturns) 2 eq_refl).
  destruct H as [H|[]]; [right; left; reflexivity|right; left; reflexivity|reflexivity| |discriminate].
  intros ep [<-|[]] _ e. discriminate.
Qed.
Print Assumptions C125_derived_refuted.

(** C125, refuted: what is no Exception (class 0 here: KeyboardInterrupt, SystemExit) passes the with statement.  It is logged and swallowed. *)
Theorem C125_interrupt_refuted : ~ (forall mro eps exc, ~ In 0 (mro exc) -> exists l e, with_handler mro eps (Some exc) = (l, Raises_ e)).
Proof.
  intros H. destruct (H ex_mro ex_handlers 7) as (l & e & E); [intros [[=]|[]]|discriminate].
Qed.
Print Assumptions C125_interrupt_refuted.
