(** C113: what users of OpenCensus get through the shim. *)
From Verif Require Import Proof_Runtime Proof_Sampling Proof_Span Proof_Blocks Proof_Shim Spec_OpenCensus Proof_OpenCensus.
Local Open Scope nat_scope.

(** The span that start_span makes at any moment has as parent the current span of OpenTelemetry; if there is none, the span that the
    tracer was made with.  It shows its name and all calls that are made on it later, by anyone, through OpenCensus or OpenTelemetry,
    until it was finished; the processor gets it once, when it has finished. *)
Theorem C113_spans : forall (G : Type) (gen_trace_id gen_span_id : G -> Z * G) tr describe to_nanos,
  limits_ok (t_limits tr) -> valid_ids gen_trace_id gen_span_id ->
  let step := oc_step gen_trace_id gen_span_id tr describe to_nanos in
  let run := oc_run gen_trace_id gen_span_id tr describe to_nanos in
  forall g before u oc name now later, ids_ok oc ->
  let w := run before (oc_init g) in
  let w1 := step w (CStart u oc name now) in
  let n := length (st_spans (oc_store w)) in
  exists p s l,
    oc_parent_is oc (current_span_context (get_current u (oc_rt w))) p
    /\ nth_error (st_spans (oc_store (run later w1))) n = Some s
    /\ calls_in gen_trace_id gen_span_id tr describe to_nanos n w1 later l
    /\ oc_shows tr name now p l s.
Proof.
  intros G gt gs tr d tn Hl Hv step run g before u oc name now later Hi w w1 n.
  exact (started_shows gt gs tr d tn Hl Hv w u oc name now later Hi).
Qed.
Print Assumptions C113_spans.

(** From the moment a span is started, and as long as what happens in its thread or task is nested, whatever others do, it is what
    current_span() returns there, its OpenTelemetry span is the current span of OpenTelemetry, and so it is in OpenCensus's own
    execution context, if contexts that are attached meanwhile are derived from the current one; end_span ends it, and then, or when its
    with block is left, everything is current that was so before it. *)
Theorem C113_current : forall (G : Type) (gen_trace_id gen_span_id : G -> Z * G) tr describe to_nanos,
  limits_ok (t_limits tr) ->
  let step := oc_step gen_trace_id gen_span_id tr describe to_nanos in
  let run := oc_run gen_trace_id gen_span_id tr describe to_nanos in
  forall g before u oc name now inner derived, ids_ok oc ->
  let w := run before (oc_init g) in
  let w1 := step w (CStart u oc name now) in
  let k := length (oc_shims w) in
  oc_nested gen_trace_id gen_span_id tr describe to_nanos derived u w1 inner ->
  let w2 := run inner w1 in
  current_shim u (oc_rt w2) = Some k
  /\ (exists s sp, nth_error (oc_shims w2) k = Some s /\ ocs_span s = length (st_spans (oc_store w))
      /\ nth_error (st_spans (oc_store w2)) (ocs_span s) = Some sp
      /\ current_span_context (get_current u (oc_rt w2)) = started_context sp
      /\ forall t, makes describe to_nanos w2 (CEnd u t) [(length (st_spans (oc_store w)), OEnd None t)])
  /\ (derived = true -> oc_cur w2 u = Some k)
  /\ forall close, closes u k close ->
     get_current u (oc_rt (step w2 close)) = get_current u (oc_rt w)
     /\ oc_cur (step w2 close) u = current_shim u (oc_rt w).
Proof.
  intros G gt gs tr d tn Hl step run g before u oc name now inner dv Hi w w1 k Hn w2.
  destruct (current_shows gt gs tr d tn Hl dv w u oc name now inner Hi Hn) as (H1 & (s & sp & A1 & A2 & A3 & A4) & H3 & H4).
  fold step run in H1, A1, A3, A4, H3, H4. fold w1 in H1, A1, A3, A4, H3, H4. fold w2 in H1, A1, A3, A4, H3, H4. fold k in H1, A1, H3, H4.
  split; [exact H1|]. split; [|split; [exact H3|exact H4]].
  exists s, sp. repeat (split; [assumption|]). intros t. rewrite <- A2. now apply (mk_end _ _ _ _ _ k).
Qed.
Print Assumptions C113_current.

(** An execution: a tracer with a propagated context; a span in a with block; in it, OpenTelemetry's own span made current, under which
    another OpenCensus span is started and ended with end_span, while another thread does the same. *)
Definition exc_tracer : tracer :=
  Tracer (parent_based ALWAYS_ON default_delegates) (SLimits None None None None None None None None).
Definition exc_gen (g : Z) : Z * Z := ((g mod 100 + 1)%Z, (g + 1)%Z).
Definition exc_describe (e : exc) : exc_info := ExcI [] (ex_type e) (ex_msg e) [].
Definition exc_nanos (s : str) : option Z := match s with [] => None | _ => Some 77%Z end.
Definition exc_oc : oc_context := OCC (lit "0000000000000000000000000000002A") (Some (lit "0000000000000007")) true true (Some [(lit "a", lit "b")]).
Definition exc_step := oc_step exc_gen exc_gen exc_tracer exc_describe exc_nanos.
Definition exc_run := oc_run exc_gen exc_gen exc_tracer exc_describe exc_nanos.
Definition exc_otel : context := set_value (lit "mine") (OInt 1) (set_value OC_KEY (OOther 0) [(SPAN_KEY, OSpan (SC 42 9 false 1 []) true (Some 11%Z))]).
Definition exc_inner : list oc_event :=
  [CCall 0 (OCAttribute (PStr false (lit "k")) (PInt false 1)) 2;
   CAttach 0 exc_otel;
   CStart 0 exc_oc (lit "child") 3;
   CStart 1 exc_oc (lit "other") 4;
   CAttribute 0 (PStr false (lit "deep")) (PBool true);
   CCall 1 (OCMessage (MEv 1 (lit "5") (lit "2020-01-01T00:00:00.0Z") (Some 10%Z) None)) 5;
   CEnd 0 6;
   CCall 0 (OCStatus false (PStr false (lit "broken"))) 7;
   CDetach 0 0;
   CEnd 1 8].
Definition exc_world := exc_run (CStart 0 exc_oc (lit "parent") 1 :: exc_inner ++ [CExit 0 0 Returned 9 9]) (oc_init 10%Z).
Definition exc_show (s : started) :=
  match s with
  | Recording w => let x := w_span w in
      Some (sp_name x, option_map (fun c => (sc_span_id c, sc_is_remote c, sc_state c)) (sp_parent x), st_code (sp_status x), (sp_start x, sp_end x),
            keys (ba_dict (sp_attrs x)), map ev_name (bl_items (sp_events x)), length (ended_spans (w_log w)))
  | NonRecording _ => None
  end.
Example C113_example :
  map exc_show (st_spans (oc_store exc_world))
  = [Some (lit "parent", Some (7%Z, true, [(lit "a", lit "b")]), ERROR, (Some 1%Z, Some 9%Z), [lit "k"], [], 1);
     Some (lit "child", Some (9%Z, false, []), UNSET, (Some 3%Z, Some 6%Z), [lit "deep"], [lit "5"], 1);
     Some (lit "other", Some (7%Z, true, [(lit "a", lit "b")]), UNSET, (Some 4%Z, Some 8%Z), [], [], 1)]
  /\ oc_cur exc_world 0 = None /\ get_current 0 (oc_rt exc_world) = []
  /\ map (fun x => st_desc (sp_status x)) (flat_map (fun s => match s with Recording w => [w_span w] | _ => [] end) (st_spans (oc_store exc_world)))
     = [PStr false (lit "broken"); PNone; PNone].
Proof. vm_compute. auto. Qed.
Example C113_hypotheses : limits_ok (t_limits exc_tracer) /\ valid_ids exc_gen exc_gen /\ ids_ok exc_oc
  /\ oc_nested exc_gen exc_gen exc_tracer exc_describe exc_nanos true 0 (exc_step (oc_init 10%Z) (CStart 0 exc_oc (lit "parent") 1)) exc_inner
  /\ oc_parent_is exc_oc INVALID_SPAN_CONTEXT (SC 42 7 true 1 [(lit "a", lit "b")]).
Proof.
  assert (Hs : oc_same exc_oc (SC 42 7 true 1 [(lit "a", lit "b")])) by (apply oc_span_spec; reflexivity).
  split; [|split; [split; intros g; cbn; pose proof (Z.mod_pos_bound g 100); lia|]].
  - unfold limits_ok, not_negative. cbn. repeat split; intros z; discriminate.
  - split; [right; eexists; exact Hs|]. split; [|now constructor]. unfold exc_inner.
    apply on_other; [cbn; tauto|].
    match goal with |- oc_nested _ _ _ _ _ _ _ ?w _ => set (w0 := w) end.
    assert (Ht : length (oc_tokens w0) = 0) by (vm_compute; reflexivity).
    pose proof (on_attach exc_gen exc_gen exc_tracer exc_describe exc_nanos true 0 w0 exc_otel
      [CStart 0 exc_oc (lit "child") 3; CStart 1 exc_oc (lit "other") 4; CAttribute 0 (PStr false (lit "deep")) (PBool true);
       CCall 1 (OCMessage (MEv 1 (lit "5") (lit "2020-01-01T00:00:00.0Z") (Some 10%Z) None)) 5; CEnd 0 6;
       CCall 0 (OCStatus false (PStr false (lit "broken"))) 7] [CEnd 1 8]) as K. rewrite Ht in K. apply K; clear K.
    + intros _. vm_compute. reflexivity.
    + apply (on_block exc_gen exc_gen exc_tracer exc_describe exc_nanos true 0 _ exc_oc (lit "child") 3
        [CStart 1 exc_oc (lit "other") 4; CAttribute 0 (PStr false (lit "deep")) (PBool true);
         CCall 1 (OCMessage (MEv 1 (lit "5") (lit "2020-01-01T00:00:00.0Z") (Some 10%Z) None)) 5] (CEnd 0 6)).
      * right. eexists; exact Hs.
      * left. now eexists.
      * repeat (apply on_other; [cbn; lia|]). constructor.
      * repeat (apply on_other; [cbn; lia|]). constructor.
    + apply on_other; [cbn; lia|]. constructor.
Qed.

(** If the ids of the tracer's context are not numbers and there is no current span, start_span raises and changes nothing. *)
Theorem C113_malformed : forall (G : Type) (gen_trace_id gen_span_id : G -> Z * G) tr describe to_nanos w u oc name now,
  ~ ids_ok oc -> current_span_context (get_current u (oc_rt w)) = INVALID_SPAN_CONTEXT ->
  oc_step gen_trace_id gen_span_id tr describe to_nanos w (CStart u oc name now) = w.
Proof.
  intros G gt gs tr d tn w u oc name now Hi Hc. cbn [oc_step]. unfold oc_start, oc_parent. rewrite Hc. cbn [is_invalid_context].
  destruct (oc_span oc) as [[sc|]|] eqn:E.
  - exfalso. apply Hi. right. exists sc. apply oc_span_spec. exact E.
  - reflexivity.
  - exfalso. apply Hi. left. unfold oc_span in E. destruct (occ_span_id oc); [discriminate|reflexivity].
Qed.
Print Assumptions C113_malformed.
Example C113_malformed_case : ~ ids_ok (OCC (lit "xyz") (Some (lit "1")) true true None).
Proof. intros [H|[sc H]]; [discriminate|]. apply oc_span_spec in H. discriminate H. Qed.

(** Findings.  A task that was made inside of a span and calls end_span there ends that span, which stays current in both tasks. *)
Theorem C113_other_task_refuted : exists oc w s, ids_ok oc
  /\ w = exc_run [CStart 0 oc (lit "a") 1; CFork 0 1; CEnd 1 2] (oc_init 10%Z)
  /\ st_spans (oc_store w) = [Recording s] /\ sp_end (w_span s) = Some 2%Z
  /\ current_shim 0 (oc_rt w) = Some 0 /\ current_shim 1 (oc_rt w) = Some 0.
Proof. exists (OCC (lit "1") None false false None). do 2 eexists. split; [now left|]. split; [reflexivity|]. vm_compute. auto. Qed.
Print Assumptions C113_other_task_refuted.

(** [finish] leaves the span current, and a span started later becomes its child. *)
Theorem C113_finish_refuted : exists oc w s s', ids_ok oc
  /\ w = exc_run [CStart 0 oc (lit "a") 1; CCall 0 OCFinish 2; CStart 0 oc (lit "b") 3] (oc_init 10%Z)
  /\ st_spans (oc_store w) = [Recording s; Recording s'] /\ sp_end (w_span s) = Some 2%Z
  /\ sp_parent (w_span s') = Some (sp_ctx (w_span s)).
Proof. exists (OCC (lit "1") None false false None). do 3 eexists. split; [now left|]. split; [reflexivity|]. vm_compute. auto. Qed.
Print Assumptions C113_finish_refuted.

(** A context that is not derived from the current one is attached and detached around a span: then OpenCensus's execution context says
    that there is no current span, although the tracer's current_span() is one. *)
Theorem C113_execution_context_refuted : exists oc w, ids_ok oc
  /\ w = exc_run [CStart 0 oc (lit "a") 1; CAttach 0 []; CStart 0 oc (lit "b") 2; CEnd 0 3; CDetach 0 0] (oc_init 10%Z)
  /\ current_shim 0 (oc_rt w) = Some 0 /\ oc_cur w 0 = None.
Proof. exists (OCC (lit "1") None false false None). eexists. split; [now left|]. split; [reflexivity|]. vm_compute. auto. Qed.
Print Assumptions C113_execution_context_refuted.
