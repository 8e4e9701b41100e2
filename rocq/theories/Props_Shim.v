(** C99-C103: what users of OpenTracing get through the shim: spans, scopes and propagation. *)
From Verif Require Import Spec_Context Proof_Runtime Proof_Sampling Proof_Span Proof_Blocks
  Proof_TraceContext Proof_Baggage Proof_Composite Proof_Shim Spec_Shim.
Local Open Scope nat_scope.

(** ** C99: start_span *)

(** The span that start_span makes at any moment of any execution has as parent the explicit one, else the span of the
    innermost scope that the caller is inside of unless that is to be ignored, else the first reference, else none.  It
    shows the arguments it was started with, the references as links, and all calls that are made on it later, through
    any OpenTracing object for it, by the closing of its scopes, and by OpenTelemetry, until it was finished; the
    processor gets it once, when it has finished. *)
Theorem C99_start_span : forall (G : Type) (gen_trace_id gen_span_id : G -> Z * G) tr describe to_ns,
  limits_ok (t_limits tr) -> valid_ids gen_trace_id gen_span_id ->
  forall g pre u a now post cur,
  let b := notes_of pre in
  known_child a b = true ->
  (sa_child a = None -> sa_ignore a = false ->
   exists l, inside u pre = Some l /\ cur = option_map snd (innermost_scope l)) ->
  let w := sh_run gen_trace_id gen_span_id tr describe to_ns g (pre ++ HStart u a now :: post) in
  exists s l, nth_error (st_spans (sh_store w)) (n_spans b) = Some s
    /\ otel_of w (length (n_shims b)) = Some (n_spans b)
    /\ calls describe to_ns (n_spans b) (notes_of (pre ++ [HStart u a now])) post l
    /\ shows tr to_ns a now (parent_of (st_spans (sh_store w)) b a cur) l s.
Proof. intros. now apply start_span_shows. Qed.
Print Assumptions C99_start_span.

(** ** C100: the active scope *)

(** As long as a unit leaves scopes, and the spans that OpenTelemetry made current in it, in the reverse order of
    entering them, whatever other units do: the active scope is the innermost that it is inside of, the active span is
    the span of that scope, and the current span of OpenTelemetry is that of whatever was entered last.  A new task
    starts inside of what its creator is inside of. *)
Theorem C100_active : forall (G : Type) (gen_trace_id gen_span_id : G -> Z * G) tr describe to_ns,
  limits_ok (t_limits tr) -> valid_ids gen_trace_id gen_span_id ->
  forall g h u l, inside u h = Some l ->
  let w := sh_run gen_trace_id gen_span_id tr describe to_ns g h in
  active u w = option_map fst (innermost_scope l)
  /\ match innermost_scope l with
     | Some (j, n) => exists s, nth_error (st_spans (sh_store w)) n = Some s /\ active_obj u w = Some (as_obj s)
     | None => active_obj u w = None
     end
  /\ match innermost_span l with
     | Some n => exists s, nth_error (st_spans (sh_store w)) n = Some s
                           /\ current_span_context (get_current u (sh_rt w)) = started_context s
     | None => current_span_context (get_current u (sh_rt w)) = INVALID_SPAN_CONTEXT
     end.
Proof. intros. now apply active_shows. Qed.
Print Assumptions C100_active.

(** ** C101: start_active_span *)

(** The span that start_active_span makes: as for start_span, except that the current span of OpenTelemetry is used and
    not only that of the innermost scope.
    Missing: [ignore_active_span=True] when the caller is inside of something, see [C101_ignore_active_refuted]. *)
Theorem C101_start_active_span_partial : forall (G : Type) (gen_trace_id gen_span_id : G -> Z * G) tr describe to_ns,
  limits_ok (t_limits tr) -> valid_ids gen_trace_id gen_span_id ->
  forall g pre u a finish now post cur,
  let b := notes_of pre in
  known_child a b = true ->
  (sa_child a = None -> exists l, inside u pre = Some l /\ cur = innermost_span l /\ (sa_ignore a = true -> l = [])) ->
  let w := sh_run gen_trace_id gen_span_id tr describe to_ns g (pre ++ HStartActive u a finish now :: post) in
  exists s l, nth_error (st_spans (sh_store w)) (n_spans b) = Some s
    /\ otel_of w (S (length (n_shims b))) = Some (n_spans b)
    /\ calls describe to_ns (n_spans b) (notes_of (pre ++ [HStartActive u a finish now])) post l
    /\ shows tr to_ns a now (parent_of (st_spans (sh_store w)) b a cur) l s.
Proof. intros. now apply start_active_shows. Qed.
Print Assumptions C101_start_active_span_partial.

(** ** An execution *)

(** A span with a reference is activated; a task forks off and is inside of it; there it starts a span of OpenTelemetry
    and makes it current, starts a span and an active span, whose block raises; everything is left in order. *)
Definition exs_gen (g : Z) : Z * Z := ((g mod 100 + 1)%Z, (g + 1)%Z).
Definition exs_tracer : tracer :=
  Tracer (parent_based ALWAYS_ON default_delegates) (SLimits None None None None None None None None).
Definition exs_describe (e : exc) : exc_info := ExcI (lit "builtins") (ex_type e) (ex_msg e) (lit "stack").
Definition exs_run (h : list shop) := sh_run exs_gen exs_gen exs_tracer exs_describe (Z.mul 1000) 10%Z h.
Definition exs_args (name : string) : start_args := SArgs (lit name) None [] [] None false.
Definition exs_pre : list shop :=
  [HStart 0 (SArgs (lit "server") None [None; Some (SC 7 8 true 1 [])]
               [(PStr false (lit "k"), PInt false 1)] (Some 5%Z) false) 1;
   HActivate 0 0 true;
   HFork 0 1;
   HStartActive 1 (exs_args "child") true 6;
   HOtelStart 1 (Block (lit "otel") None 0 [] [] None true true true) 7;
   HOtelAttach 1 2].
Definition exs_post : list shop :=
  [HStart 1 (exs_args "grandchild") 8;
   HStartActive 1 (SArgs (lit "explicit") (Some (inl 1)) [] [] None true) true 9;
   HCall 4 (MLogKv (Some [(lit "event", PStr false (lit "cache")); (lit "hit", PInt false 0)]) None) 10;
   HCall 1 (MSetTag (PStr false (lit "more")) (PInt false 2)) 11;
   HClose 1 2 (Raised (Exc true (lit "ValueError") (lit "bad") 1)) 12 13;
   HOtelDetach 1 0;
   HCall 4 (MFinish (Some 14%Z)) 15;
   HClose 1 1 Returned 16 17;
   HClose 0 0 Returned 18 19].
Definition exs_world := exs_run (exs_pre ++ exs_post).
Example C99_hypotheses : limits_ok (t_limits exs_tracer) /\ valid_ids exs_gen exs_gen
  /\ known_child (exs_args "grandchild") (notes_of exs_pre) = true
  /\ inside 1 exs_pre = Some [FSpan 0 2 true; FScope 1 1 true; FScope 0 0 false]
  /\ inside 0 exs_pre = Some [FScope 0 0 true]
  /\ inside 0 (exs_pre ++ exs_post) = Some [] /\ inside 1 (exs_pre ++ exs_post) = Some [FScope 0 0 false].
Proof.
  split; [|split; [split; intros g; cbn; pose proof (Z.mod_pos_bound g 100); lia|]].
  - unfold limits_ok, not_negative. cbn. repeat split; intros z; discriminate.
  - vm_compute. auto 6.
Qed.
Definition exs_show (s : started) :=
  match s with
  | Recording w => let x := w_span w in
      Some (sp_name x, option_map sc_span_id (sp_parent x), sc_span_id (sp_ctx x), st_code (sp_status x), st_desc (sp_status x), (sp_start x, sp_end x),
            map ev_name (bl_items (sp_events x)), length (ended_spans (w_log w)))
  | NonRecording _ => None
  end.
Example C99_example :
  map exs_show (st_spans (sh_store exs_world))
  = [Some (lit "server", Some 8%Z, 11%Z, UNSET, PNone, (Some 5000%Z, Some 19%Z), [], 1);
     Some (lit "child", Some 11%Z, 12%Z, UNSET, PNone, (Some 6%Z, Some 17%Z), [], 1);
     Some (lit "otel", Some 12%Z, 13%Z, UNSET, PNone, (Some 7%Z, None), [], 0);
     Some (lit "grandchild", Some 12%Z, 14%Z, UNSET, PNone, (Some 8%Z, Some 14000%Z), [lit "cache"], 1);
     Some (lit "explicit", Some 11%Z, 15%Z, ERROR, PStr false (lit "ValueError: bad"), (Some 9%Z, Some 13%Z),
           [lit "exception"], 1)].
Proof. vm_compute. reflexivity. Qed.

(** Findings.  A span that OpenTelemetry made current is not the parent of a span of start_span: this one is a root span
    although there is a current span. *)
Theorem C99_otel_current_refuted : exists h u a now w,
  sa_child a = None /\ sa_ignore a = false
  /\ sc_is_valid (current_span_context (get_current u (sh_rt (exs_run h)))) = true
  /\ nth_error (st_spans (sh_store (exs_run (h ++ [HStart u a now])))) (n_spans (notes_of h)) = Some (Recording w)
  /\ sp_parent (w_span w) = None.
Proof.
  exists [HOtelStart 0 (Block (lit "otel") None 0 [] [] None true true true) 7; HOtelAttach 0 0], 0, (exs_args "a"), 8%Z.
  eexists. vm_compute. auto 8.
Qed.
Print Assumptions C99_otel_current_refuted.

(** A reference that is given when a scope is active is a link only: the parent is the span of the scope. *)
Theorem C99_reference_refuted : exists h u a now w sc,
  sa_child a = None /\ sa_refs a = [Some sc] /\ sc_is_valid sc = true
  /\ nth_error (st_spans (sh_store (exs_run (h ++ [HStart u a now])))) (n_spans (notes_of h)) = Some (Recording w)
  /\ option_map sc_span_id (sp_parent (w_span w)) <> Some (sc_span_id sc)
  /\ sc_trace_id (sp_ctx (w_span w)) <> sc_trace_id sc.
Proof.
  exists [HStartActive 0 (exs_args "outer") true 1], 0, (SArgs (lit "a") None [Some (SC 7 8 true 1 [])] [] None false), 8%Z.
  eexists. exists (SC 7 8 true 1 []). vm_compute. repeat split; discriminate.
Qed.
Print Assumptions C99_reference_refuted.

(** Two scopes that are closed in the order they were opened: then both spans have ended, and the first is active. *)
Theorem C100_order_refuted : exists h w0 w1,
  map (fun o => match o with HClose _ j _ _ _ => [j] | _ => [] end) h = [[]; []; [0]; [1]]
  /\ map ss_span (sh_spans (exs_run h)) = [0; 0; 1; 1]
  /\ st_spans (sh_store (exs_run h)) = [Recording w0; Recording w1]
  /\ sp_end (w_span w0) <> None /\ sp_end (w_span w1) <> None
  /\ active 0 (exs_run h) = Some 0.
Proof.
  exists [HStartActive 0 (exs_args "a") true 1; HStartActive 0 (exs_args "b") true 2;
          HClose 0 0 Returned 3 3; HClose 0 1 Returned 4 4].
  do 2 eexists. vm_compute. repeat split; discriminate.
Qed.
Print Assumptions C100_order_refuted.

(** A scope that is closed in another thread: its span has ended, but it is still active where it was opened; and if it is
    closed there too, its span is the current span of OpenTelemetry for good. *)
Theorem C100_other_thread_refuted : exists h w0,
  st_spans (sh_store (exs_run h)) = [Recording w0] /\ sp_end (w_span w0) <> None
  /\ active 0 (exs_run h) = Some 0
  /\ current_span_context (get_current 0 (sh_rt (exs_run (h ++ [HClose 0 0 Returned 5 5])))) = sp_ctx (w_span w0).
Proof.
  exists [HStartActive 0 (exs_args "a") true 1; HClose 1 0 Returned 3 3].
  eexists. vm_compute. repeat split; discriminate.
Qed.
Print Assumptions C100_other_thread_refuted.

(** [ignore_active_span=True] of start_active_span: the active span is the parent all the same. *)
Theorem C101_ignore_active_refuted : exists h u a now w0 w1,
  sa_child a = None /\ sa_ignore a = true
  /\ active u (exs_run h) = Some 0
  /\ st_spans (sh_store (exs_run (h ++ [HStartActive u a true now]))) = [Recording w0; Recording w1]
  /\ option_map sc_span_id (sp_parent (w_span w1)) = Some (sc_span_id (sp_ctx (w_span w0))).
Proof.
  exists [HStartActive 0 (exs_args "a") true 1], 0, (SArgs (lit "b") None [] [] None true), 2%Z.
  do 2 eexists. vm_compute. repeat split; discriminate.
Qed.
Print Assumptions C101_ignore_active_refuted.

(** ** C102: propagation *)

(** A context that is injected into a text map or HTTP headers and extracted from what arrives is the same one, marked
    remote, whatever is current at either side. *)
Theorem C102_round_trip : forall py_str cur cur' sc f f' c0,
  f <> OTHER_FORMAT -> f' <> OTHER_FORMAT ->
  sc_is_valid sc = true -> (0 <= sc_flags sc < 256)%Z -> ts_wf (sc_state sc) -> dget (lit "tracestate") c0 = None ->
  inj_raised (bag_inject py_str cur) = false ->
  exists sent, shim_inject (default_propagators py_str) cur f (Some sc) = Ok (Injected sent false)
  /\ shim_extract [tc_extract_opt; bag_extract_opt] cur' f' (default_getter (default_set sent c0))
     = Ok (SC (sc_trace_id sc) (sc_span_id sc) true (sc_flags sc) (sc_state sc)).
Proof.
  intros py_str cur cur' sc f f' c0 Hf Hf'. apply shim_round_trip; [destruct f|destruct f']; (reflexivity || congruence).
Qed.
Print Assumptions C102_round_trip.

(** What is extracted is what an acceptable traceparent header says, or the invalid context if there is none; never the
    context that is current. *)
Theorem C102_extract : forall cur f g, f <> OTHER_FORMAT ->
  exists sc, shim_extract [tc_extract_opt; bag_extract_opt] cur f g = Ok sc
  /\ ((sc = INVALID_SPAN_CONTEXT
       /\ ~ exists h rest v t s f ext, g_get g (lit "traceparent") = Some (h :: rest)
             /\ traceparent_text h v t s f ext /\ traceparent_acceptable v t s ext)
      \/ exists h rest v t s f ext, g_get g (lit "traceparent") = Some (h :: rest)
           /\ traceparent_text h v t s f ext /\ traceparent_acceptable v t s ext
           /\ sc = SC (Z.of_N (hex_value t)) (Z.of_N (hex_value s)) true (Z.of_N (hex_value f))
                      (match g_get g (lit "tracestate") with None => [] | Some hs => ts_from_header hs end)).
Proof.
  intros cur f g Hf. rewrite shim_extract_default by (destruct f; (reflexivity || congruence)). eexists. split; [reflexivity|].
  destruct (tc_extract_observed g []) as [(E & N)|(h & rest & v & t & s & fl & ext & A & B & C & _ & R & T & S' & F & St & _)].
  - left. now rewrite E.
  - right. exists h, rest, v, t, s, fl, ext. split; [exact A|]. split; [exact B|]. split; [exact C|].
    destruct (current_span_context (tc_extract g [])) as [a b c d e]. cbn in *. now subst.
Qed.
Print Assumptions C102_extract.

(** Other formats are refused, with no effect on the carrier. *)
Theorem C102_formats : forall ps ms cur sc g,
  shim_inject ps cur OTHER_FORMAT sc = Raises "UnsupportedFormatException"
  /\ shim_extract ms cur OTHER_FORMAT g = Raises "UnsupportedFormatException".
Proof. now split. Qed.
Print Assumptions C102_formats.

(** With the propagators in the other order (OTEL_PROPAGATORS=baggage,tracecontext) a carrier without traceparent yields
    the context that is current. *)
Theorem C102_order_refuted : exists cur g sc,
  g_get g (lit "traceparent") = None
  /\ shim_extract [bag_extract_opt; tc_extract_opt] cur TEXT_MAP g = Ok sc /\ sc_is_valid sc = true.
Proof.
  exists [(SPAN_KEY, OSpan (SC 7 8 true 1 []) true None)], (default_getter []), (SC 7 8 true 1 []).
  split; [reflexivity|]. split; [vm_compute; reflexivity|reflexivity].
Qed.
Print Assumptions C102_order_refuted.

Example C102_hypotheses :
  let sc := SC 7 8 false 1 [(lit "k", lit "v")] in
  let cur := set_baggage (lit "user") (OStr (lit "x y")) [] in
  sc_is_valid sc = true /\ (0 <= sc_flags sc < 256)%Z /\ ts_wf (sc_state sc)
  /\ inj_raised (bag_inject (fun _ => []) cur) = false
  /\ match shim_inject (default_propagators (fun _ => [])) cur HTTP_HEADERS (Some sc) with
     | Ok i => map fst (inj_writes i) = [lit "traceparent"; lit "tracestate"; lit "baggage"]
     | Raises _ => False
     end.
Proof.
  cbn zeta. split; [reflexivity|]. split; [cbn; lia|]. split; [|vm_compute; auto].
  exact (Proof_Trace.ts_history_wf [(lit "k", lit "v")] []).
Qed.
(** ** C103: baggage items *)

(** A baggage item of an OpenTracing span object is what was last set on that object. *)
Theorem C103_baggage_items_partial : forall (G : Type) (gen_trace_id gen_span_id : G -> Z * G) tr describe to_ns,
  limits_ok (t_limits tr) -> valid_ids gen_trace_id gen_span_id ->
  forall g h k name, k < length (n_shims (notes_of h)) ->
  get_baggage_item (sh_run gen_trace_id gen_span_id tr describe to_ns g h) k name = Some (item_of k name h).
Proof. intros. rewrite items_shown by assumption. now rewrite (proj2 (Nat.ltb_lt _ _)). Qed.
Print Assumptions C103_baggage_items_partial.
(** Missing: that an item goes along with the span, to its children and to other processes.  It does not: the object that
    the active scope has for the same span, and a child of the span, do not have it; [inject] does not see it, being given
    the context alone. *)
Theorem C103_baggage_refuted : exists h k k' k'' name v w1,
  let w := exs_run h in
  get_baggage_item w k name = Some v /\ v <> ONone
  /\ option_map so_shim (match active 0 w with Some j => nth_error (sh_scopes w) j | None => None end) = Some k'
  /\ otel_of w k' = otel_of w k
  /\ get_baggage_item w k' name = Some ONone
  /\ otel_of w k'' = Some 1 /\ nth_error (st_spans (sh_store w)) 1 = Some (Recording w1)
  /\ option_map (fun p => sc_span_id p) (sp_parent (w_span w1)) = Some 12%Z
  /\ option_map (fun s => sc_span_id (started_context s)) (nth_error (st_spans (sh_store w)) 0) = Some 12%Z
  /\ get_baggage_item w k'' name = Some ONone.
Proof.
  exists [HStart 0 (exs_args "a") 1; HBaggage 0 (lit "user") (OStr (lit "x")); HActivate 0 0 true;
          HStart 0 (SArgs (lit "b") (Some (inl 0)) [] [] None false) 2], 0, 1, 2, (lit "user"), (OStr (lit "x")).
  eexists. vm_compute. repeat split; discriminate.
Qed.
Print Assumptions C103_baggage_refuted.
Example C103_items_example :
  let h := [HBaggage 0 (lit "k") (OInt 1); HStart 0 (exs_args "a") 1; HBaggage 0 (lit "k") (OInt 2); HBaggage 1 (lit "k") (OInt 3);
            HBaggage 0 (lit "k") (OInt 4)] in
  item_of 0 (lit "k") h = OInt 4 /\ length (n_shims (notes_of h)) = 1.
Proof. vm_compute. auto. Qed.
