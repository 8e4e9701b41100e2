(** opentelemetry-api/src/opentelemetry/propagate/__init__.py: the global propagator chosen when the module is imported. *)
From Verif Require Export Model_Context Model_OtlpConfig.

(** entry_points(group="opentelemetry_propagator", name): none; one that cannot be loaded or called; or a propagator.  Every
    load constructs a new object; the objects hold no state. *)
Inductive pentry := NoPropagator | BrokenPropagator | LoadsPropagator (p : propagator).

Section Propagate.
Variable entry_points : str -> pentry.
Variable environ : str -> option str.
(** 124-153 *)
Fixpoint load_propagators (names : list str) : outcome_of (list propagator) :=
  match names with
  | [] => Ok []
  | n :: r =>
      match entry_points (strip py_space n) with
      | NoPropagator => Raises "ValueError"
      | BrokenPropagator => Raises "load"
      | LoadsPropagator p => bind_out (load_propagators r) (fun ps => Ok (p :: ps))
      end
  end.
(** 127-131: environ.get with a default; [split(",")] *)
Definition environ_propagators : str :=
  match environ (lit "OTEL_PROPAGATORS") with Some v => v | None => lit "tracecontext,baggage" end.
(** 124-156: importing the module *)
Definition global_propagators : outcome_of (list propagator) := load_propagators (split_on 44 environ_propagators).
End Propagate.
