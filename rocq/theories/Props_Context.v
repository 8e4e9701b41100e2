(** Property theorems C06, C07, C14, C15: W3C trace context and baggage propagation.
    Vocabulary: Spec_Trace.v and Spec_Context.v (header grammars), Model_Context.v (API). *)
From Verif Require Import Model_Context Spec_Context Proof_TraceContext Proof_Baggage.
From Coq Require Import Lia.

(** C06: inject from any context whose current span context is valid into any dict carrier that
    has no tracestate entry, extract into any base context. *)
Theorem C06_trace_context_round_trip :
  forall ctx sc base c0,
    current_span_context ctx = sc ->
    sc_is_valid sc = true -> (0 <= sc_flags sc < 256)%Z -> ts_wf (sc_state sc) ->
    dget (lit "tracestate") c0 = None ->
    let sent := default_set (inj_writes (tc_inject ctx)) c0 in
    let got := tc_extract (default_getter sent) base in
    current_span_context got
      = SC (sc_trace_id sc) (sc_span_id sc) true (sc_flags sc) (sc_state sc)
    /\ (forall k, k <> SPAN_KEY -> get_value k got = get_value k base)
    /\ (forall k, ~ In k [lit "traceparent"; lit "tracestate"] -> dget k sent = dget k c0).
Proof. exact tc_round_trip_obs. Qed.
Print Assumptions C06_trace_context_round_trip.

(** Which span contexts are valid: those with a trace id of 128 bits and a span id of 64 bits, neither of them zero.  And sampled: those
    whose flags are odd. *)
Theorem C06_valid : forall sc,
  (sc_is_valid sc = true <-> (0 < sc_trace_id sc < 2 ^ 128 /\ 0 < sc_span_id sc < 2 ^ 64)%Z)
  /\ (flags_sampled (sc_flags sc) = true <-> exists k, sc_flags sc = (2 * k + 1)%Z).
Proof.
  intros sc. split.
  - unfold sc_is_valid, TRACE_ID_MAX, SPAN_ID_MAX. rewrite !andb_true_iff, !Z.ltb_lt, !Z.leb_le. lia.
  - unfold flags_sampled. rewrite Z.bit0_odd, Z.odd_spec. reflexivity.
Qed.
Print Assumptions C06_valid.
Example C06_valid_example : sc_is_valid (SC (2 ^ 128 - 1) 1 false 0 []) = true /\ sc_is_valid (SC (2 ^ 128) 1 false 0 []) = false
  /\ sc_is_valid (SC 1 0 false 0 []) = false /\ flags_sampled 255 = true /\ flags_sampled 254 = false.
Proof. repeat split. Qed.

Definition ex_sc := SC 170 187 false 1 [(lit "a", lit "1"); (lit "b", lit "2")].
Definition ex_ctx : context := [(SPAN_KEY, OSpan ex_sc true None); (lit "other", OInt 3)].
Example C06_example :
  sc_is_valid ex_sc = true /\ current_span_context ex_ctx = ex_sc /\
  inj_writes (tc_inject ex_ctx) =
    [(lit "traceparent", lit "00-000000000000000000000000000000aa-00000000000000bb-01");
     (lit "tracestate", lit "a=1,b=2")] /\
  current_span_context (tc_extract (default_getter (default_set (inj_writes (tc_inject ex_ctx)) [])) [])
    = SC 170 187 true 1 [(lit "a", lit "1"); (lit "b", lit "2")].
Proof. vm_compute. repeat split. Qed.
Example C06_example_state : ts_wf (sc_state ex_sc).
Proof.
  replace (sc_state ex_sc) with (ts_new (sc_state ex_sc)) by (vm_compute; reflexivity).
  apply (ts_history_wf (sc_state ex_sc) []).
Qed.

(** The restriction on the carrier is needed: a tracestate header left in a reused carrier is not
    removed when the trace state is empty. *)
Theorem C06_reused_carrier_refuted :
  exists ctx c0, sc_is_valid (current_span_context ctx) = true
    /\ sc_state (current_span_context ctx) = []
    /\ sc_state (current_span_context
         (tc_extract (default_getter (default_set (inj_writes (tc_inject ctx)) c0)) [])) <> [].
Proof. exact tc_stale_tracestate. Qed.
Print Assumptions C06_reused_carrier_refuted.

(** C07: every outcome of extract.  Either no acceptable traceparent is there and the very same
    context is returned, or the first header value spells the fields of a valid, remote span
    context, and that is what becomes current; everything else in the context is as before. *)
Theorem C07_extract_all_or_nothing :
  forall (g : getter) (ctx : context),
    let got := tc_extract g ctx in
    (got = ctx /\
     ~ exists h rest v t s f ext, g_get g (lit "traceparent") = Some (h :: rest)
         /\ traceparent_text h v t s f ext /\ traceparent_acceptable v t s ext)
    \/ (exists h rest v t s f ext, g_get g (lit "traceparent") = Some (h :: rest)
         /\ traceparent_text h v t s f ext /\ traceparent_acceptable v t s ext
         /\ sc_is_valid (current_span_context got) = true
         /\ sc_is_remote (current_span_context got) = true
         /\ sc_trace_id (current_span_context got) = Z.of_N (hex_value t)
         /\ sc_span_id (current_span_context got) = Z.of_N (hex_value s)
         /\ sc_flags (current_span_context got) = Z.of_N (hex_value f)
         /\ sc_state (current_span_context got)
            = match g_get g (lit "tracestate") with None => [] | Some hs => ts_from_header hs end
         /\ (forall k, k <> SPAN_KEY -> get_value k got = get_value k ctx)).
Proof. exact tc_extract_observed. Qed.
Print Assumptions C07_extract_all_or_nothing.

(** The fields a header spells are unique, so there is only one way to read it. *)
Theorem C07_fields_unique :
  forall h v t s f ext v' t' s' f' ext',
    traceparent_text h v t s f ext -> traceparent_text h v' t' s' f' ext' ->
    v = v' /\ t = t' /\ s = s' /\ f = f' /\ (ext = [] <-> ext' = []).
Proof. exact traceparent_unique. Qed.
Print Assumptions C07_fields_unique.

(** The named special cases leave the context unchanged. *)
Theorem C07_rejected_headers :
  forall g ctx h rest v t s f ext,
    g_get g (lit "traceparent") = Some (h :: rest) -> traceparent_text h v t s f ext ->
    v = lit "ff" \/ (v = lit "00" /\ ext <> []) \/ t = repeat 48%N 32 \/ s = repeat 48%N 16 ->
    tc_extract g ctx = ctx.
Proof. exact tc_extract_special. Qed.
Print Assumptions C07_rejected_headers.

Theorem C07_malformed_headers :
  forall g ctx h rest,
    g_get g (lit "traceparent") = Some (h :: rest) ->
    (forall v t s f ext, ~ traceparent_text h v t s f ext) ->
    tc_extract g ctx = ctx.
Proof. exact tc_extract_malformed. Qed.
Print Assumptions C07_malformed_headers.

Definition ex_getter (h : str) : getter := default_getter [(lit "traceparent", CStr h)].
Example C07_example :
  current_span_context (tc_extract (ex_getter
      (lit "01-0af7651916cd43dd8448eb211c80319c-b7ad6b7169203331-01-extra")) ex_ctx)
    = SC 14576827793038113322513871894673895836 13235353014750950193 true 1 []
  /\ tc_extract (ex_getter (lit "00-0af7651916cd43dd8448eb211c80319c-b7ad6b7169203331-01-extra")) ex_ctx = ex_ctx
  /\ tc_extract (ex_getter (lit "ff-0af7651916cd43dd8448eb211c80319c-b7ad6b7169203331-01")) ex_ctx = ex_ctx
  /\ tc_extract (ex_getter (lit "00-0AF7651916cd43dd8448eb211c80319c-b7ad6b7169203331-01")) ex_ctx = ex_ctx
  /\ tc_extract (ex_getter (lit "00-00000000000000000000000000000000-b7ad6b7169203331-01")) ex_ctx = ex_ctx.
Proof. vm_compute. repeat split. Qed.

(** C14: baggage of any Unicode texts without surrounding whitespace (non-empty names).
    [within_limits h d] is the specification's limit: at most 180 entries, the header at most
    8192 characters, each of its comma separated members at most 4096. *)
Theorem C14_baggage_round_trip :
  forall py_str ctx (d : list (str * str)) base c0,
    get_all ctx = map (fun kv => (fst kv, OStr (snd kv))) d ->
    d <> [] -> NoDup (map fst d) ->
    Forall (fun kv => fst kv <> [] /\ unicode_text (fst kv) /\ trimmed (fst kv)
                      /\ unicode_text (snd kv) /\ trimmed (snd kv)) d ->
    exists h, bag_inject py_str ctx = Injected [(lit "baggage", h)] false /\
      (length d <= 180 /\ (N.of_nat (length h) <= 8192)%N
       /\ Forall (fun p => (N.of_nat (length p) <= 4096)%N) (split_on 44 h) ->
       let got := bag_extract (default_getter (default_set [(lit "baggage", h)] c0)) base in
       (forall k, k <> BAGGAGE_KEY -> get_value k got = get_value k base)
       /\ (forall name, get_baggage name got =
             match dget name d with Some v => OStr v | None => get_baggage name base end)
       /\ (get_all base = [] -> get_all got = get_all ctx)).
Proof. exact bag_round_trip. Qed.
Print Assumptions C14_baggage_round_trip.

Definition ex_baggage : list (str * str) :=
  [(lit "user id", [233%N; 8364%N; 128512%N]); (lit "k,=;", lit "a b;c=d,e")].
Definition ex_bctx : context :=
  [(BAGGAGE_KEY, ODict (map (fun kv => (fst kv, OStr (snd kv))) ex_baggage))].
Example C14_example :
  inj_writes (bag_inject (fun _ => []) ex_bctx)
    = [(lit "baggage", lit "user+id=%C3%A9%E2%82%AC%F0%9F%98%80,k%2C%3D%3B=a+b%3Bc%3Dd%2Ce")]
  /\ get_all (bag_extract (default_getter
        (default_set (inj_writes (bag_inject (fun _ => []) ex_bctx)) [])) []) = get_all ex_bctx.
Proof. vm_compute. repeat split. Qed.

(** C15: a header that is missing or too long changes nothing. *)
Theorem C15_ignored_headers :
  forall g ctx,
    (forall h rest, g_get g (lit "baggage") = Some (h :: rest) -> (8192 < N.of_nat (length h))%N) ->
    bag_extract g ctx = ctx.
Proof. exact bag_extract_ignored. Qed.
Print Assumptions C15_ignored_headers.

(** Otherwise exactly the first 180 acceptable members are entered, in order, each decoded. *)
Theorem C15_accepted_members :
  forall g ctx h rest ps nvs,
    g_get g (lit "baggage") = Some (h :: rest) -> (N.of_nat (length h) <= 8192)%N ->
    ows_split true h ps -> taken ps nvs ->
    bag_extract g ctx =
    fold_left (fun c nv => set_baggage (strip py_space (unquote_plus (fst nv)))
                             (OStr (strip py_space (unquote_plus (snd nv)))) c)
              (firstn 180 nvs) ctx.
Proof. exact bag_extract_spec. Qed.
Print Assumptions C15_accepted_members.

(** Every header can be read that way. *)
Theorem C15_reading_exists :
  forall h, exists ps nvs, ows_split true h ps /\ taken ps nvs.
Proof. exact bag_reading_exists. Qed.
Print Assumptions C15_reading_exists.

Theorem C15_bounded_and_framed :
  forall g ctx,
    (forall k, k <> BAGGAGE_KEY -> get_value k (bag_extract g ctx) = get_value k ctx)
    /\ length (get_all (bag_extract g ctx)) <= length (get_all ctx) + 180.
Proof. exact bag_extract_bounded. Qed.
Print Assumptions C15_bounded_and_framed.

Example C15_example :
  get_all (bag_extract (default_getter [(lit "baggage", CStr (lit "a=1;p=2;q , =x,b, k =1,c=%20z%zz"))]) [])
    = [(lit "a", OStr (lit "1;p=2;q")); (lit "c", OStr (lit "z%zz"))].
Proof. vm_compute. reflexivity. Qed.
