(** What the global error handler is documented to do. *)
From Verif Require Export Model_ErrorHandler.
Local Open Scope nat_scope.
Section S.
Variable mro : nat -> list nat.
(** The entry point number i has a handler that inherits from the class of the exception, and this is how it takes it. *)
Definition takes (eps : list entry_point) (exc i : nat) (h : handling) : Prop :=
  exists c does, nth_error eps i = Some (Handler c does) /\ In exc (mro c) /\ does exc = h.
(** All entry points load, and no handler raises anything but Exceptions. *)
Definition sound_handlers (eps : list entry_point) (exc : nat) : Prop :=
  forall ep, In ep eps -> match ep with Broken _ => False | Handler c does => In exc (mro c) -> forall e, does exc <> HEscapes e end.
(** The place of an effect *)
Definition place (n : nat) (f : heffect) : nat := match f with Handled i | FailureLogged i => i | DefaultLogged => n end.
End S.
