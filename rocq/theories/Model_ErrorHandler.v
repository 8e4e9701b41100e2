(** The global error handler.

    Source: opentelemetry-sdk/src/opentelemetry/sdk/error_handler/__init__.py 76-147 ("eh"). *)
From Verif Require Export Model_Str.
Local Open Scope nat_scope.

Section ErrorHandler.
(** Classes are numbers; [mro c]: the class c and all it inherits from. *)
Variable mro : nat -> list nat.
(** Python's [issubclass] *)
Definition issubclass (c d : nat) : bool := existsb (Nat.eqb d) (mro c).

(** What [handler_class()._handle(error)] does: returns, raises an Exception, or raises another BaseException. *)
Inductive handling := HReturns | HFails | HEscapes (e : nat).
(** An entry point: the class that [load] gives and what it does with an exception of a class; or the exception that [load] (or [issubclass],
    when the loaded object is no class) raises. *)
Inductive entry_point := Handler (cls : nat) (does : nat -> handling) | Broken (e : nat).
(** What is seen: the handler of entry point i has handled the exception, or has failed and that was logged; the default handler has logged it. *)
Inductive heffect := Handled (i : nat) | FailureLogged (i : nat) | DefaultLogged.
(** How the with statement ends. *)
Inductive ending := GoesOn | Raises_ (e : nat).

(** eh 122-142: the loop; [handled] is plugin_handled *)
Fixpoint handlers_loop (i : nat) (eps : list entry_point) (exc : nat) (handled : bool) : list heffect * (bool + nat) :=
  match eps with
  | [] => ([], inl handled)
  | Broken e :: _ => ([], inr e)
  | Handler c does :: rest =>
      if issubclass c exc then
        match does exc with
        | HReturns => let (l, r) := handlers_loop (S i) rest exc true in (Handled i :: l, r)
        | HFails => let (l, r) := handlers_loop (S i) rest exc handled in (FailureLogged i :: l, r)
        | HEscapes e => ([], inr e)
        end
      else handlers_loop (S i) rest exc handled
  end.
(** eh 112-147: [__exit__] after a body that raised an exception of class exc, or none; eh 84-95, 144-147 *)
Definition with_handler (eps : list entry_point) (raised : option nat) : list heffect * ending :=
  match raised with
  | None => ([], GoesOn)
  | Some exc =>
      match handlers_loop 0 eps exc false with
      | (l, inl handled) => (l ++ (if handled then [] else [DefaultLogged]), GoesOn)
      | (l, inr e) => (l, Raises_ e)
      end
  end.
End ErrorHandler.
