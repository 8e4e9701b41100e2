(** Property theorem C96: the global propagator that OTEL_PROPAGATORS selects. *)
From Verif Require Import Spec_Propagate Proof_Propagate.

(** C96: the members are the propagators named, in that order; importing the API fails exactly when one is not found or cannot
    be loaded. *)
Theorem C96_members :
  forall ep environ ps,
    global_propagators ep environ = Ok ps
    <-> exists l, listed_propagators environ l /\ Forall2 (fun n p => ep n = LoadsPropagator p) l ps.
Proof. exact global_spec. Qed.
Print Assumptions C96_members.

(** Members that write one context entry each, and for which extracting twice is extracting once: neither their order nor
    repetitions matter. *)
Theorem C96_order_and_repetition :
  forall (kps kps' : list (str * propagator)) g ctx,
    (forall x, In x kps <-> In x kps') ->
    (forall k p p', In (k, p) kps -> In (k, p') kps -> p = p') ->
    Forall (fun kp => settles (fst kp) (p_extract (snd kp))) kps ->
    exists a b, comp_extract (map snd kps) g ctx = Some a /\ comp_extract (map snd kps') g ctx = Some b /\ same_context a b.
Proof. exact comp_same_members. Qed.
Print Assumptions C96_order_and_repetition.
Theorem C96_standard_settle :
  settles SPAN_KEY (p_extract tc_propagator) /\ forall py_str, settles BAGGAGE_KEY (p_extract (bag_propagator py_str)).
Proof. split; [exact tc_settles|exact bag_settles]. Qed.
Print Assumptions C96_standard_settle.

(** Two processes whose variables name trace context and baggage, each in any order, with any spaces and repetitions, or not at
    all (the default): what one injects, the other extracts. *)
Theorem C96_two_processes :
  forall py_str ep1 ep2 e1 e2 l1 l2 ctx sc (d : list (str * str)) base c0,
    api_propagators py_str ep1 -> api_propagators py_str ep2 ->
    listed_propagators e1 l1 -> both_standard l1 -> listed_propagators e2 l2 -> both_standard l2 ->
    current_span_context ctx = sc -> sc_is_valid sc = true -> (0 <= sc_flags sc < 256)%Z ->
    ts_wf (sc_state sc) ->
    get_all ctx = map (fun kv => (fst kv, OStr (snd kv))) d -> d <> [] -> NoDup (map fst d) ->
    Forall (fun kv => fst kv <> [] /\ unicode_text (fst kv) /\ trimmed (fst kv)
                      /\ unicode_text (snd kv) /\ trimmed (snd kv)) d ->
    dget (lit "tracestate") c0 = None ->
    exists ps1 ps2 w, global_propagators ep1 e1 = Ok ps1 /\ global_propagators ep2 e2 = Ok ps2 /\
     comp_inject ps1 ctx = Injected w false /\
     ((forall h, In (lit "baggage", h) w ->
         length d <= 180 /\ (N.of_nat (length h) <= 8192)%N
         /\ Forall (fun p => (N.of_nat (length p) <= 4096)%N) (split_on 44 h)) ->
      exists got, comp_extract ps2 (default_getter (default_set w c0)) base = Some got
      /\ current_span_context got
           = SC (sc_trace_id sc) (sc_span_id sc) true (sc_flags sc) (sc_state sc)
      /\ (forall name, get_baggage name got =
            match dget name d with Some v => OStr v | None => get_baggage name base end)
      /\ (forall k, k <> SPAN_KEY -> k <> BAGGAGE_KEY -> get_value k got = get_value k base)).
Proof. exact round_trip_listed. Qed.
Print Assumptions C96_two_processes.

Definition api_entries (n : str) : pentry :=
  if str_eqb n (lit "tracecontext") then LoadsPropagator tc_propagator
  else if str_eqb n (lit "baggage") then LoadsPropagator (bag_propagator (fun _ => [])) else NoPropagator.
Example C96_example :
  let e1 (n : str) := if str_eqb n (lit "OTEL_PROPAGATORS") then Some (lit "baggage, tracecontext,baggage") else None in
  let e2 (n : str) := @None str in
  api_propagators (fun _ => []) api_entries
  /\ listed_propagators e1 [lit "baggage"; lit "tracecontext"; lit "baggage"] /\ both_standard [lit "baggage"; lit "tracecontext"; lit "baggage"]
  /\ listed_propagators e2 [lit "tracecontext"; lit "baggage"] /\ both_standard [lit "tracecontext"; lit "baggage"]
  /\ (exists ps, global_propagators api_entries e1 = Ok ps /\ length ps = 3).
Proof.
  cbn zeta. split; [split; reflexivity|]. split.
  - exists [lit "baggage"; lit " tracecontext"; lit "baggage"]. split; [reflexivity|]. split; [|split; [discriminate|reflexivity]].
    repeat constructor; vm_compute; intuition discriminate.
  - split; [intros n; cbn; intuition congruence|]. split; [reflexivity|]. split; [intros n; cbn; intuition congruence|].
    eexists. split; reflexivity.
Qed.

(** "none" does not switch propagation off, and an empty variable does not mean the default: both stop the program. *)
Theorem C96_none_refuted :
  exists ep environ environ',
    api_propagators (fun _ => []) ep /\ environ (lit "OTEL_PROPAGATORS") = Some (lit "none") /\ environ' (lit "OTEL_PROPAGATORS") = Some []
    /\ global_propagators ep environ = Raises "ValueError" /\ global_propagators ep environ' = Raises "ValueError".
Proof.
  exists api_entries, (fun _ => Some (lit "none")), (fun _ => Some []). split; [split; reflexivity|]. repeat split; reflexivity.
Qed.
Print Assumptions C96_none_refuted.
