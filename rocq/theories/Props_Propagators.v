(** Property theorems C09-C12, C58, C59: B3, Jaeger and composite propagation.
    [nd] is Unicode's table of non-ASCII decimal digits, [py_str] is [str()] of other objects. *)
From Verif Require Import Model_Context Spec_Context Proof_Composite.
From Coq Require Import Permutation.

(** C09: B3 multi-header round trip; the carrier had no single-header or debug-flag entry. *)
Theorem C09_b3_multi_round_trip :
  forall nd ctx sc base c0,
    current_span_context ctx = sc -> sc_is_valid sc = true ->
    dget (lit "b3") c0 = None -> dget (lit "x-b3-flags") c0 = None ->
    b3_extract nd (default_getter (default_set (inj_writes (b3_multi_inject ctx)) c0)) base =
    set_span_in_context
      (OSpan (SC (sc_trace_id sc) (sc_span_id sc) true
                 (if Z.testbit (sc_flags sc) 0 then 1 else 0) []) false None) base.
Proof. exact b3_multi_round_trip. Qed.
Print Assumptions C09_b3_multi_round_trip.

Theorem C09_b3_single_round_trip :
  forall nd ctx sc base c0,
    current_span_context ctx = sc -> sc_is_valid sc = true ->
    b3_extract nd (default_getter (default_set (inj_writes (b3_single_inject ctx)) c0)) base =
    set_span_in_context
      (OSpan (SC (sc_trace_id sc) (sc_span_id sc) true
                 (if Z.testbit (sc_flags sc) 0 then 1 else 0) []) false None) base.
Proof. exact b3_single_round_trip. Qed.
Print Assumptions C09_b3_single_round_trip.

(** Both 16 and 32 digit trace ids are accepted and denote the number they spell. *)
Theorem C09_b3_accepts :
  forall nd g ctx t s b n tid sid,
    b3_states g t s b -> (n = 16 \/ n = 32) -> hex_number nd n t tid -> hex_number nd 16 s sid ->
    b3_extract nd g ctx = set_span_in_context (OSpan (SC tid sid true (if b then 1 else 0) []) false None) ctx.
Proof. exact b3_extract_accepts. Qed.
Print Assumptions C09_b3_accepts.

Definition ex_b3 : context := [(SPAN_KEY, OSpan (SC 255 16 false 1 []) true None)].
Example C09_example :
  inj_writes (b3_single_inject ex_b3) = [(lit "b3", lit "000000000000000000000000000000ff-0000000000000010-1")]
  /\ current_span_context (b3_extract (fun _ => None)
       (default_getter [(lit "b3", CStr (lit "463ac35c9f6413ad-a2fb4a1d1a96d312-0"))]) [])
     = SC 5060571933882717101 11744061942159299346 true 0 [].
Proof. vm_compute. repeat split. Qed.

(** C10 is false of the code: all-zero ids replace the current span by an invalid one. *)
Theorem C10_b3_all_zero_refuted :
  exists nd g ctx, decimal nd /\ b3_extract nd g ctx <> ctx
    /\ sc_is_valid (current_span_context (b3_extract nd g ctx)) = false
    /\ sc_is_valid (current_span_context ctx) = true.
Proof. exact b3_zero_installed. Qed.
Print Assumptions C10_b3_all_zero_refuted.

(** All-zero ids are the only way: what is installed is remote, and valid if the ids are not 0. *)
Theorem C10_b3_validity_partial :
  forall nd g ctx, decimal nd ->
    (forall k, k <> SPAN_KEY -> get_value k (b3_extract nd g ctx) = get_value k ctx) /\
    (b3_extract nd g ctx = ctx \/
     (sc_is_remote (current_span_context (b3_extract nd g ctx)) = true
      /\ (sc_trace_id (current_span_context (b3_extract nd g ctx)) <> 0%Z ->
          sc_span_id (current_span_context (b3_extract nd g ctx)) <> 0%Z ->
          sc_is_valid (current_span_context (b3_extract nd g ctx)) = true))).
Proof. exact b3_extract_nonzero. Qed.
Print Assumptions C10_b3_validity_partial.

(** Anything but 16/32 and 16 digits leaves the context unchanged. *)
Theorem C10_b3_all_or_nothing :
  forall nd g ctx,
  (b3_extract nd g ctx = ctx /\
   ~ exists t s b n tid sid, b3_states g t s b
       /\ (n = 16 \/ n = 32) /\ hex_number nd n t tid /\ hex_number nd 16 s sid)
  \/ exists t s b n tid sid, b3_states g t s b
       /\ (n = 16 \/ n = 32) /\ hex_number nd n t tid /\ hex_number nd 16 s sid
       /\ b3_extract nd g ctx =
          set_span_in_context (OSpan (SC tid sid true (if b then 1 else 0) []) false None) ctx.
Proof. exact b3_extract_states. Qed.
Print Assumptions C10_b3_all_or_nothing.

Example C10_example :
  b3_extract (fun _ => None) (default_getter [(lit "b3", CStr (lit "xyz-a2fb4a1d1a96d312-0"))]) ex_b3 = ex_b3
  /\ b3_extract (fun _ => None) (default_getter [(lit "b3", CStr (lit "0"))]) ex_b3 = ex_b3.
Proof. vm_compute. repeat split. Qed.

(** C11 and C58: Jaeger round trip with baggage.  Names that contain "uberctx-" are excluded. *)
Theorem C11_jaeger_round_trip :
  forall py_str nd ctx sc (d : list (str * str)) base (c0 : carrier),
    current_span_context ctx = sc -> sc_is_valid sc = true -> (0 <= sc_flags sc)%Z ->
    (forall x p, get_current_span ctx = OSpan x true (Some p) -> (0 <= p)%Z) ->
    get_all ctx = map (fun kv => (fst kv, OStr (snd kv))) d -> NoDup (map fst d) ->
    Forall (fun kv => unicode_text (snd kv) /\ trimmed (snd kv) /\ free_of (lit "uberctx-") (fst kv)) d ->
    (forall k, In k (keys c0) -> forall r, k <> (lit "uberctx-") ++ r) ->
    exists w, jaeger_inject py_str ctx = Injected w false /\
    jaeger_extract nd (default_getter (default_set w c0)) base =
    Some (set_span_in_context
      (OSpan (SC (sc_trace_id sc) (sc_span_id sc) true
                 (if Z.testbit (sc_flags sc) 0 then 1 else 0) []) false None)
      (fold_left (fun x kv => set_baggage (fst kv) (OStr (snd kv)) x) d base)).
Proof. intros py_str nd ctx sc d base c0 H1 H2 H3 H4. apply (jaeger_round_trip py_str nd ctx sc); auto. apply parent_nonneg, H4. Qed.
Print Assumptions C11_jaeger_round_trip.

Definition ex_jg : context :=
  [(SPAN_KEY, OSpan (SC 255 16 false 1 []) true (Some 3%Z));
   (BAGGAGE_KEY, ODict [(lit "k", OStr (lit "a b"))])].
Example C11_example :
  inj_writes (jaeger_inject (fun _ => []) ex_jg) =
   [(lit "uber-trace-id", lit "000000000000000000000000000000ff:0000000000000010:0000000000000003:03");
    (lit "uberctx-k", lit "a%20b")].
Proof. vm_compute. repeat split. Qed.

Theorem C11_jaeger_validity_refuted :
  exists nd g ctx ctx', decimal nd /\ jaeger_extract nd g ctx = Some ctx'
    /\ sc_is_valid (current_span_context ctx') = false
    /\ sc_is_valid (current_span_context ctx) = true.
Proof. exact jaeger_invalid_installed. Qed.
Print Assumptions C11_jaeger_validity_refuted.

(** What extraction can install: the four colon separated fields read by [int(_, 16)], ids not 0. *)
Theorem C11_jaeger_extract_cases_partial :
  forall nd g ctx ctx', jaeger_extract nd g ctx = Some ctx' ->
  (forall k, k <> SPAN_KEY -> k <> BAGGAGE_KEY -> get_value k ctx' = get_value k ctx) /\
  (get_value SPAN_KEY ctx' = get_value SPAN_KEY ctx \/
   exists h rest t s p f tid sid fl,
     g_get g (lit "uber-trace-id") = Some (h :: rest)
     /\ split_on 58 h = [t; s; p; f]
     /\ int16 nd t = Some tid /\ int16 nd s = Some sid /\ int16 nd f = Some fl
     /\ tid <> 0%Z /\ sid <> 0%Z
     /\ current_span_context ctx' = SC tid sid true (Z.land fl 1) []).
Proof. exact jaeger_extract_cases. Qed.
Print Assumptions C11_jaeger_extract_cases_partial.

Theorem C11_jaeger_extract_raises_refuted :
  exists nd g ctx, jaeger_extract nd g ctx = None.
Proof. exact jaeger_raises. Qed.
Print Assumptions C11_jaeger_extract_raises_refuted.

(** C58 without the exclusion is false. *)
Theorem C58_jaeger_baggage_name_refuted :
  exists py_str nd ctx w got,
    jaeger_inject py_str ctx = Injected w false
    /\ jaeger_extract nd (default_getter (default_set w [])) [] = Some got
    /\ get_all got <> get_all ctx.
Proof. exact jaeger_name_mangled. Qed.
Print Assumptions C58_jaeger_baggage_name_refuted.

Theorem C58_jaeger_baggage_round_trip_partial :
  forall py_str nd ctx sc (d : list (str * str)) base (c0 : carrier),
    current_span_context ctx = sc -> sc_is_valid sc = true -> (0 <= sc_flags sc)%Z ->
    (forall x p, get_current_span ctx = OSpan x true (Some p) -> (0 <= p)%Z) ->
    get_all ctx = map (fun kv => (fst kv, OStr (snd kv))) d -> NoDup (map fst d) ->
    Forall (fun kv => unicode_text (snd kv) /\ trimmed (snd kv) /\ free_of (lit "uberctx-") (fst kv)) d ->
    (forall k, In k (keys c0) -> forall r, k <> (lit "uberctx-") ++ r) ->
    exists w got, jaeger_inject py_str ctx = Injected w false /\
      jaeger_extract nd (default_getter (default_set w c0)) base = Some got /\
      forall name, get_baggage name got =
        match dget name d with Some v => OStr v | None => get_baggage name base end.
Proof. intros py_str nd ctx sc d base c0 H1 H2 H3 H4. apply (jaeger_baggage_round_trip py_str nd ctx sc); auto. apply parent_nonneg, H4. Qed.
Print Assumptions C58_jaeger_baggage_round_trip_partial.

(** C12.  [kps] are the members with the context entry each is responsible for. *)
Theorem C12_members_do_not_interfere :
  forall (kps : list (str * propagator)) g ctx,
    NoDup (map fst kps) -> Forall (fun kp => local_to (fst kp) (p_extract (snd kp))) kps ->
    exists got, comp_extract (map snd kps) g ctx = Some got
    /\ (forall k, ~ In k (map fst kps) -> get_value k got = get_value k ctx)
    /\ (forall k p, In (k, p) kps -> forall alone, p_extract p g ctx = Some alone ->
          get_value k got = get_value k alone).
Proof. exact comp_local. Qed.
Print Assumptions C12_members_do_not_interfere.

Theorem C12_order_irrelevant :
  forall (kps kps' : list (str * propagator)) g ctx,
    Permutation kps kps' ->
    NoDup (map fst kps) -> Forall (fun kp => local_to (fst kp) (p_extract (snd kp))) kps ->
    exists a b, comp_extract (map snd kps) g ctx = Some a
      /\ comp_extract (map snd kps') g ctx = Some b /\ same_context a b.
Proof. exact comp_order. Qed.
Print Assumptions C12_order_irrelevant.

(** The two standard propagators are such members. *)
Theorem C12_tracecontext_is_local : local_to SPAN_KEY (p_extract tc_propagator).
Proof. exact tc_local. Qed.
Print Assumptions C12_tracecontext_is_local.
Theorem C12_baggage_is_local :
  forall py_str, local_to BAGGAGE_KEY (p_extract (bag_propagator py_str)).
Proof. exact bag_local. Qed.
Print Assumptions C12_baggage_is_local.

(** Sequential composition, for any members. *)
Theorem C12_sequential :
  forall ps qs g ctx,
    comp_extract (ps ++ qs) g ctx =
    match comp_extract ps g ctx with None => None | Some c => comp_extract qs g c end.
Proof. exact comp_extract_app. Qed.
Print Assumptions C12_sequential.

Theorem C12_inject_concatenates :
  forall ps ctx, Forall (fun p => inj_raised (p_inject p ctx) = false) ps ->
    comp_inject ps ctx = Injected (flat_map (fun p => inj_writes (p_inject p ctx)) ps) false.
Proof. exact comp_inject_ok. Qed.
Print Assumptions C12_inject_concatenates.

(** When injection raises: never for trace context and B3; for baggage, if and only if a name or a value is not Unicode text (it has a lone
    surrogate); for Jaeger, if and only if a value is not. *)
Theorem C12_inject_raises : forall py_str ctx,
  inj_raised (tc_inject ctx) = false
  /\ inj_raised (b3_multi_inject ctx) = false /\ inj_raised (b3_single_inject ctx) = false
  /\ (inj_raised (bag_inject py_str ctx) = false
      <-> Forall (fun kv => unicode_text (fst kv) /\ unicode_text (to_str py_str (snd kv))) (get_all ctx))
  /\ (sc_is_valid (current_span_context ctx) = true ->
      inj_raised (jaeger_inject py_str ctx) = false <-> Forall (fun kv => unicode_text (to_str py_str (snd kv))) (get_all ctx))
  /\ (current_span_context ctx = INVALID_SPAN_CONTEXT -> inj_raised (jaeger_inject py_str ctx) = false).
Proof.
  intros py_str ctx. split; [unfold tc_inject; destruct (is_invalid_context _); reflexivity|].
  split; [unfold b3_multi_inject; destruct (is_invalid_context _); reflexivity|].
  split; [unfold b3_single_inject; destruct (is_invalid_context _); reflexivity|].
  split; [apply bag_inject_raises|]. split; [apply jaeger_inject_raises|].
  intros E. unfold jaeger_inject. change (span_context_of (get_current_span ctx)) with (current_span_context ctx). rewrite E. reflexivity.
Qed.
Print Assumptions C12_inject_raises.
Example C12_inject_raises_case :
  let surrogate := [55296%N] in
  inj_raised (bag_inject (fun _ => []) [(BAGGAGE_KEY, ODict [(lit "k", OStr surrogate)])]) = true
  /\ inj_raised (bag_inject (fun _ => []) [(BAGGAGE_KEY, ODict [(lit "k", OStr (lit "v"))])]) = false.
Proof. vm_compute. auto. Qed.

Theorem C12_fields_union :
  forall ps, NoDup (comp_fields ps) /\
    forall f, In f (comp_fields ps) <-> exists p, In p ps /\ In f (p_fields p).
Proof. exact comp_fields_spec. Qed.
Print Assumptions C12_fields_union.

(** End to end: the default propagators carry trace context and baggage together. *)
Theorem C12_default_round_trip :
  forall py_str ctx sc (d : list (str * str)) base c0,
    current_span_context ctx = sc -> sc_is_valid sc = true -> (0 <= sc_flags sc < 256)%Z ->
    ts_wf (sc_state sc) ->
    get_all ctx = map (fun kv => (fst kv, OStr (snd kv))) d -> d <> [] -> NoDup (map fst d) ->
    Forall (fun kv => fst kv <> [] /\ unicode_text (fst kv) /\ trimmed (fst kv)
                      /\ unicode_text (snd kv) /\ trimmed (snd kv)) d ->
    dget (lit "tracestate") c0 = None ->
    exists w, comp_inject (default_propagators py_str) ctx = Injected w false /\
     ((forall h, In (lit "baggage", h) w ->
         length d <= 180 /\ (N.of_nat (length h) <= 8192)%N
         /\ Forall (fun p => (N.of_nat (length p) <= 4096)%N) (split_on 44 h)) ->
      exists got, comp_extract (default_propagators py_str)
                    (default_getter (default_set w c0)) base = Some got
      /\ current_span_context got
           = SC (sc_trace_id sc) (sc_span_id sc) true (sc_flags sc) (sc_state sc)
      /\ (forall name, get_baggage name got =
            match dget name d with Some v => OStr v | None => get_baggage name base end)
      /\ (forall k, k <> SPAN_KEY -> k <> BAGGAGE_KEY -> get_value k got = get_value k base)).
Proof. exact default_round_trip. Qed.
Print Assumptions C12_default_round_trip.

Definition ex_both : context :=
  [(SPAN_KEY, OSpan (SC 1 2 false 1 []) true None); (BAGGAGE_KEY, ODict [(lit "k", OStr (lit "v w"))])].
Example C12_example :
  inj_writes (comp_inject (default_propagators (fun _ => [])) ex_both) =
    [(lit "traceparent", lit "00-00000000000000000000000000000001-0000000000000002-01");
     (lit "baggage", lit "k=v+w")]
  /\ option_map get_all (comp_extract (default_propagators (fun _ => [])) (default_getter
       (default_set (inj_writes (comp_inject (default_propagators (fun _ => [])) ex_both)) [])) [])
     = Some [(lit "k", OStr (lit "v w"))].
Proof. vm_compute. repeat split. Qed.

(** Without an explicit context the order does matter: the trace context member starts from an
    empty context, the baggage member from the current one. *)
Theorem C12_implicit_context_refuted :
  exists current g a b,
    comp_extract_opt [tc_extract_opt; bag_extract_opt] current g None = Some a
    /\ comp_extract_opt [bag_extract_opt; tc_extract_opt] current g None = Some b
    /\ ~ same_context a b.
Proof. exact opt_order_matters. Qed.
Print Assumptions C12_implicit_context_refuted.

(** C59: fields lists every header that inject may write. *)
Theorem C59_standard_fields_partial :
  forall py_str,
    comp_fields (default_propagators py_str) = [lit "traceparent"; lit "tracestate"; lit "baggage"] /\
    forall ctx k v, In (k, v) (inj_writes (comp_inject (default_propagators py_str) ctx)) ->
    In k (comp_fields (default_propagators py_str)).
Proof. intros py_str. split; [reflexivity|]. exact (default_writes_fields py_str). Qed.
Print Assumptions C59_standard_fields_partial.

Theorem C59_b3_fields :
  forall ctx k v,
    (In (k, v) (inj_writes (b3_multi_inject ctx)) -> In k [lit "x-b3-traceid"; lit "x-b3-spanid"; lit "x-b3-sampled"])
    /\ (In (k, v) (inj_writes (b3_single_inject ctx)) -> In k [lit "b3"]).
Proof. exact b3_writes_fields. Qed.
Print Assumptions C59_b3_fields.

Theorem C59_jaeger_fields_refuted :
  exists ctx k v,
    In (k, v) (inj_writes (jaeger_inject (fun _ => []) ctx)) /\ ~ In k [lit "uber-trace-id"].
Proof. exact jaeger_undeclared. Qed.
Print Assumptions C59_jaeger_fields_refuted.

Example C59_example : comp_fields (default_propagators (fun _ => [])) = [lit "traceparent"; lit "tracestate"; lit "baggage"].
Proof. reflexivity. Qed.
