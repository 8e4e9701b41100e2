(** Specification vocabulary: the propagators that OTEL_PROPAGATORS names. *)
From Verif Require Export Model_Propagate Spec_Context.

(** [l] are the names between the commas of [v], without the spaces around them. *)
Definition names_of (v : str) (l : list str) : Prop :=
  exists parts, v = join (lit ",") parts /\ Forall (fun p => ~ In 44%N p) parts /\ parts <> [] /\ l = map (strip py_space) parts.
Definition listed_propagators (e : str -> option str) (l : list str) : Prop :=
  match e (lit "OTEL_PROPAGATORS") with
  | Some v => names_of v l
  | None => l = [lit "tracecontext"; lit "baggage"]
  end.
(** Trace context and baggage, in some order, each at least once, and nothing else. *)
Definition both_standard (l : list str) : Prop :=
  forall n, In n l <-> n = lit "tracecontext" \/ n = lit "baggage".
(** The entry points of the API package. *)
Definition api_propagators (py_str : obj -> str) (ep : str -> pentry) : Prop :=
  ep (lit "tracecontext") = LoadsPropagator tc_propagator /\ ep (lit "baggage") = LoadsPropagator (bag_propagator py_str).
(** A member that writes one entry of the context, and extracting twice is extracting once. *)
Definition settles (k : str) (e : getter -> context -> option context) : Prop :=
  exists f : getter -> obj -> obj, (forall g x, f g (f g x) = f g x) /\ forall g ctx, exists ctx',
    e g ctx = Some ctx' /\ get_value k ctx' = f g (get_value k ctx)
    /\ forall k', k' <> k -> get_value k' ctx' = get_value k' ctx.
