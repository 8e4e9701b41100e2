(** Property theorems C28-C31, C61, C62: samplers, ids, start_span and traces across processes.
    Vocabulary: Model_Sampling.v (API), Spec_Sampling.v (values of floats, rounding, environment choice, chains),
    Spec_Span.v ([carries]). *)
From Verif Require Import Spec_Sampling Proof_Sampling.
Local Open Scope nat_scope.

(** C28: the constructor accepts exactly the rates in [0,1], and its bound is rate * 2^64 rounded half to even. *)
Theorem C28_rate_accepted :
  forall rate,
    (forall m e, rate = DFin m e -> (0 <= value m e <= 1)%Q ->
       exists b, ratio_bound rate = Ok b /\ nearest_even (value m e * inject_Z (2 ^ 64)) b)
    /\ ((forall m e, rate = DFin m e -> ~ (0 <= value m e <= 1)%Q) -> ratio_bound rate = Raises "ValueError").
Proof. exact ratio_bound_spec. Qed.
Print Assumptions C28_rate_accepted.

(** The decision depends only on the low 64 bits of the trace id; of the 2^64 values exactly the [b] smallest
    are sampled. *)
Theorem C28_exactly_the_bound :
  forall rate b, ratio_bound rate = Ok b ->
    (0 <= b <= 2 ^ 64)%Z
    /\ forall cur c t n k a l, sampled (ratio_sampler b cur c t n k a l) <-> (t mod 2 ^ 64 < b)%Z.
Proof. intros rate b H. split; [exact (bound_range rate b H)|exact (ratio_sampled b)]. Qed.
Print Assumptions C28_exactly_the_bound.

(** Whatever the other arguments are, a trace that is sampled at one rate is sampled at every higher rate. *)
Theorem C28_monotone :
  forall m e n f b1 b2 cur c t nm k a l cur' c' t' nm' k' a' l',
    (value m e <= value n f)%Q -> ratio_bound (DFin m e) = Ok b1 -> ratio_bound (DFin n f) = Ok b2 ->
    (t mod 2 ^ 64 = t' mod 2 ^ 64)%Z ->
    sampled (ratio_sampler b1 cur c t nm k a l) -> sampled (ratio_sampler b2 cur' c' t' nm' k' a' l').
Proof. exact ratio_mono. Qed.
Print Assumptions C28_monotone.

Theorem C28_extremes :
  forall m e b cur c t n k a l, ratio_bound (DFin m e) = Ok b ->
    ((value m e == 0)%Q -> ~ sampled (ratio_sampler b cur c t n k a l))
    /\ ((value m e == 1)%Q -> sampled (ratio_sampler b cur c t n k a l)).
Proof. exact ratio_extremes. Qed.
Print Assumptions C28_extremes.

(** rate = 0.3 (the double 5404319552844595 * 2^-54); trace ids around its bound. *)
Example C28_example :
  ratio_bound (DFin 5404319552844595 (-54)) = Ok 5534023222112865280%Z
  /\ sr_decision (ratio_sampler 5534023222112865280 [] None (2 ^ 64 + 5534023222112865279)%Z [] 0%Z [] []) = RECORD_AND_SAMPLE
  /\ sr_decision (ratio_sampler 5534023222112865280 [] None (2 ^ 64 + 5534023222112865280)%Z [] 0%Z [] []) = DROP
  /\ ratio_bound (DFin 3 (-1)) = Raises "ValueError" /\ ratio_bound DNan = Raises "ValueError".
Proof. vm_compute. repeat split. Qed.

(** C29: which sampler decides, and what the default delegates decide. *)
Theorem C29_delegate :
  forall root d cur c t n k a l,
    let p := current_span_context (resolve cur c) in
    (sc_is_valid p = false -> parent_based root d cur c t n k a l = root cur c t n k a l)
    /\ (sc_is_valid p = true -> parent_based root d cur c t n k a l =
          match sc_is_remote p, flags_sampled (sc_flags p) with
          | true, true => remote_sampled d | true, false => remote_not_sampled d
          | false, true => local_sampled d | false, false => local_not_sampled d
          end cur c t n k a l).
Proof. exact parent_based_spec. Qed.
Print Assumptions C29_delegate.

Theorem C29_defaults_follow_the_parent :
  forall root cur c t n k a l,
    let p := current_span_context (resolve cur c) in
    sc_is_valid p = true ->
    let r := parent_based root default_delegates cur c t n k a l in
    (sampled r <-> flags_sampled (sc_flags p) = true)
    /\ sr_state r = Some (sc_state p)
    /\ (sr_decision r = RECORD_AND_SAMPLE \/ sr_decision r = DROP).
Proof. exact parent_based_default. Qed.
Print Assumptions C29_defaults_follow_the_parent.

Example C29_example :
  let parent f := set_span_in_context (OSpan (SC 1 2 true f [(lit "a", lit "b")]) false None) [] in
  sr_decision (parent_based ALWAYS_OFF default_delegates [] (Some (parent 3%Z)) 1%Z [] 0%Z [] []) = RECORD_AND_SAMPLE
  /\ sr_decision (parent_based ALWAYS_ON default_delegates [] (Some (parent 2%Z)) 1%Z [] 0%Z [] []) = DROP
  /\ sr_decision (parent_based ALWAYS_ON default_delegates (parent 2%Z) (Some []) 1%Z [] 0%Z [] []) = RECORD_AND_SAMPLE.
Proof. vm_compute. repeat split. Qed.

(** C88: every sampler built from those of the SDK passes the trace state of the parent on, if the parent is valid,
    and the attributes exactly if it does not drop the span. *)
Theorem C88_built_in_samplers :
  forall s, built_in s -> forall cur c t n k a l,
    let p := current_span_context (resolve cur c) in
    let r := s cur c t n k a l in
    sr_attrs r = (match sr_decision r with DROP => [] | _ => a end)
    /\ sr_state r = (if sc_is_valid p then Some (sc_state p) else None).
Proof.
  intros s H. induction H as [d|rate b _|root rs rn ls ln _ I0 _ I1 _ I2 _ I3 _ I4]; intros cur c t n k a l.
  - split; reflexivity.
  - split; reflexivity.
  - unfold parent_based. cbn [remote_sampled remote_not_sampled local_sampled local_not_sampled].
    destruct (sc_is_valid _) eqn:E; [|specialize (I0 cur c t n k a l); cbn zeta in I0; rewrite E in I0; exact I0].
    destruct (sc_is_remote _), (flags_sampled _);
      [specialize (I1 cur c t n k a l); cbn zeta in I1; rewrite E in I1; exact I1
      |specialize (I2 cur c t n k a l); cbn zeta in I2; rewrite E in I2; exact I2
      |specialize (I3 cur c t n k a l); cbn zeta in I3; rewrite E in I3; exact I3
      |specialize (I4 cur c t n k a l); cbn zeta in I4; rewrite E in I4; exact I4].
Qed.
Print Assumptions C88_built_in_samplers.
Example C88_example : exists b, ratio_bound (DFin 1 (-1)) = Ok b
  /\ built_in (parent_based (ratio_sampler b) (Delegates (static_sampler RECORD_ONLY) ALWAYS_OFF ALWAYS_ON ALWAYS_OFF)).
Proof. eexists. split; [reflexivity|]. constructor; try apply bi_static. eapply bi_ratio with (rate := DFin 1 (-1)). reflexivity. Qed.

(** C30: start_span with any sampler and any id generator.  A new trace id is drawn exactly when there is no valid
    parent; the span context has the drawn span id, the sampled flag of the decision and the sampler's trace
    state; a decision to record gives a started span that shows the arguments and the parent, DROP a non-recording
    span.  The start call never fails with non-negative limits. *)
Theorem C30_start_span :
  forall (G : Type) (gen_trace_id gen_span_id : G -> Z * G) tr cur c name kind attrs links st now g,
    limits_ok (t_limits tr) ->
    let p := current_span_context (resolve cur c) in
    let '(tid, g1) := if sc_is_valid p then (sc_trace_id p, g) else gen_trace_id g in
    let r := t_sampler tr cur c tid name kind attrs links in
    exists s, start_span gen_trace_id gen_span_id tr cur c name kind attrs links st now g
              = (Ok s, snd (gen_span_id g1))
      /\ started_context s = SC tid (fst (gen_span_id g1)) false
           (match sr_decision r with RECORD_AND_SAMPLE => 1 | _ => 0 end)%Z
           (match sr_state r with Some x => x | None => [] end)
      /\ (sr_decision r = DROP <-> s = NonRecording (started_context s))
      /\ (sr_decision r <> DROP -> exists w, s = Recording w /\ w_log w = [POnStart (w_span w)] /\ w_pending w = 0
            /\ sp_end (w_span w) = None
            /\ carries (t_limits tr) name (started_context s) (if sc_is_valid p then Some p else None) kind
                 (sr_attrs r) links (at_time st now) [] (w_span w)).
Proof. exact @start_span_spec. Qed.
Print Assumptions C30_start_span.

(** With a generator of valid ids, the new span context is valid. *)
Theorem C30_valid :
  forall (G : Type) (gen_trace_id gen_span_id : G -> Z * G) tr cur c name kind attrs links st now g,
    limits_ok (t_limits tr) -> valid_ids gen_trace_id gen_span_id ->
    exists s, fst (start_span gen_trace_id gen_span_id tr cur c name kind attrs links st now g) = Ok s
              /\ sc_is_valid (started_context s) = true.
Proof. exact @started_valid. Qed.
Print Assumptions C30_valid.

(** All spans below a valid span, at any depth: they have its trace id; with a parent based sampler, whatever its
    root sampler is, also its sampled flag and trace state, and they record iff it is sampled. *)
Theorem C30_descendants :
  forall (G : Type) (gen_trace_id gen_span_id : G -> Z * G) tr calls,
    limits_ok (t_limits tr) -> valid_ids gen_trace_id gen_span_id ->
    forall ctx g, sc_is_valid (current_span_context ctx) = true ->
    let l := start_chain gen_trace_id gen_span_id tr ctx calls g in
    length l = length calls
    /\ Forall (fun s => sc_is_valid (started_context s) = true
         /\ sc_trace_id (started_context s) = sc_trace_id (current_span_context ctx)) l
    /\ (forall root, t_sampler tr = parent_based root default_delegates ->
        Forall (fun s => flags_sampled (sc_flags (started_context s)) = flags_sampled (sc_flags (current_span_context ctx))
          /\ sc_state (started_context s) = sc_state (current_span_context ctx)
          /\ ((exists w, s = Recording w) <-> flags_sampled (sc_flags (current_span_context ctx)) = true)) l).
Proof. exact @chain_below. Qed.
Print Assumptions C30_descendants.

Definition ex_limits := SLimits (Some 128%Z) (Some 128%Z) (Some 128%Z) (Some 128%Z) (Some 128%Z) (Some 128%Z) None None.
Definition ex_gen (g : Z) : Z * Z := ((g mod 100 + 1)%Z, (g + 1)%Z).
Example C30_example_hypotheses : limits_ok ex_limits /\ valid_ids ex_gen ex_gen.
Proof.
  split.
  - unfold limits_ok, not_negative. cbn. repeat split; intros z; try discriminate; intros [= <-]; lia.
  - split; intros g; cbn; pose proof (Z.mod_pos_bound g 100); lia.
Qed.
Example C30_example :
  let tr := Tracer (parent_based ALWAYS_ON default_delegates) ex_limits in
  let a := SpanArgs (lit "x") 0 [] [] None 5 in
  map (fun s => (sc_trace_id (started_context s), sc_span_id (started_context s), sc_flags (started_context s)))
      (start_chain ex_gen ex_gen tr [] [a; a; a] 41%Z) = [(42, 43, 1); (42, 44, 1); (42, 45, 1)]%Z.
Proof. vm_compute. reflexivity. Qed.

(** C31: whatever the random source gives, a generated id is the first draw that is not 0; so it is in range when
    the draws are.  The loop ends when a draw is not 0. *)
Theorem C31_never_invalid :
  forall (draws : nat -> Z) bits fuel id,
    (forall n, 0 <= draws n < 2 ^ bits)%Z ->
    draw_id draws 0 fuel = Some id ->
    (1 <= id < 2 ^ bits)%Z
    /\ exists k, id = draws k /\ forall j, j < k -> draws j = 0%Z.
Proof.
  intros draws bits fuel id Hr H. destruct (draw_id_spec draws fuel 0 id H) as (k & _ & E & N & F).
  split; [specialize (Hr k); rewrite <- E in Hr; lia|]. exists k. split; [exact E|]. intros j J. apply F. lia.
Qed.
Print Assumptions C31_never_invalid.

Theorem C31_terminates :
  forall (draws : nat -> Z) k, draws k <> 0%Z ->
    exists fuel id, draw_id draws 0 fuel = Some id /\ forall more, draw_id draws 0 (fuel + more) = Some id.
Proof. intros draws k H. exact (draw_id_stops draws k 0 (Nat.le_0_l k) H). Qed.
Print Assumptions C31_terminates.

Example C31_example : draw_id (fun n => match n with 0 | 1 => 0%Z | _ => 7%Z end) 0 5 = Some 7%Z.
Proof. reflexivity. Qed.

(** C61: the sampler that the environment selects. *)
Theorem C61_environment_sampler :
  forall pylower pyfloat environ,
    let name := env_name pylower environ in let rate := env_rate pyfloat environ in
    (uses_rate name /\ ~ rate_in_range rate /\ sampler_from_env pylower pyfloat environ = Raises "ValueError")
    \/ ((uses_rate name -> rate_in_range rate)
        /\ exists s, sampler_from_env pylower pyfloat environ = Ok s
           /\ forall cur c t n k a l,
                sampled (s cur c t n k a l) <-> env_sampled name rate (current_span_context (resolve cur c)) t).
Proof. exact sampler_from_env_spec. Qed.
Print Assumptions C61_environment_sampler.

Example C61_example :
  let environ v := if str_eqb v (lit "OTEL_TRACES_SAMPLER") then Some (lit "TraceIdRatio")
                   else if str_eqb v (lit "OTEL_TRACES_SAMPLER_ARG") then Some (lit "0.5") else None in
  let pyfloat s := if str_eqb s (lit "0.5") then Some (DFin 1 (-1)) else None in
  env_name lower environ = lit "traceidratio" /\ env_rate pyfloat environ = DFin 1 (-1)
  /\ exists s, sampler_from_env lower pyfloat environ = Ok s
     /\ sr_decision (s [] None (2 ^ 63)%Z [] 0%Z [] []) = DROP /\ sr_decision (s [] None (2 ^ 63 - 1)%Z [] 0%Z [] []) = RECORD_AND_SAMPLE.
Proof. split; [vm_compute; reflexivity|]. split; [vm_compute; reflexivity|]. eexists. split; [reflexivity|]. vm_compute. split; reflexivity. Qed.

(** C62: a span started in one process, injected with the W3C propagator into any carrier without tracestate, and
    extracted in another process where a span is started with a parent based sampler: same trace id, the first
    span is the remote parent, same sampled flag and trace state. *)
Theorem C62_trace_across_processes :
  forall (G1 G2 : Type) (gt1 gs1 : G1 -> Z * G1) (gt2 gs2 : G2 -> Z * G2)
    tr1 cur1 c1 n1 k1 a1 l1 st1 now1 g1 s g1' tr2 root base c0 n2 k2 a2 l2 st2 now2 g2,
    limits_ok (t_limits tr1) -> limits_ok (t_limits tr2) -> valid_ids gt1 gs1 -> valid_ids gt2 gs2 ->
    start_span gt1 gs1 tr1 cur1 c1 n1 k1 a1 l1 st1 now1 g1 = (Ok s, g1') ->
    ts_wf (sc_state (started_context s)) -> dget (lit "tracestate") c0 = None ->
    t_sampler tr2 = parent_based root default_delegates ->
    let sent := default_set (inj_writes (tc_inject (set_span_in_context (as_obj s) cur1))) c0 in
    let got := tc_extract (default_getter sent) base in
    exists s2, fst (start_span gt2 gs2 tr2 got None n2 k2 a2 l2 st2 now2 g2) = Ok s2
      /\ sc_trace_id (started_context s2) = sc_trace_id (started_context s)
      /\ sc_is_valid (started_context s2) = true
      /\ flags_sampled (sc_flags (started_context s2)) = flags_sampled (sc_flags (started_context s))
      /\ sc_state (started_context s2) = sc_state (started_context s)
      /\ (forall w, s2 = Recording w -> exists p, sp_parent (w_span w) = Some p
            /\ sc_trace_id p = sc_trace_id (started_context s) /\ sc_span_id p = sc_span_id (started_context s)
            /\ sc_is_remote p = true)
      /\ ((exists w, s2 = Recording w) <-> flags_sampled (sc_flags (started_context s)) = true).
Proof. exact @remote_child. Qed.
Print Assumptions C62_trace_across_processes.

Example C62_example :
  let tr := Tracer (parent_based ALWAYS_ON default_delegates) ex_limits in
  exists s g', start_span ex_gen ex_gen tr [] None (lit "server") 0 [] [] None 5 41%Z = (Ok s, g')
    /\ sc_state (started_context s) = []
    /\ inj_writes (tc_inject (set_span_in_context (as_obj s) []))
       = [(lit "traceparent", lit "00-0000000000000000000000000000002a-000000000000002b-01")].
Proof. eexists. eexists. split; [vm_compute; reflexivity|]. vm_compute. split; reflexivity. Qed.

(** Without an SDK the trace is lost: the no-op tracer does not keep the parent's span context. *)
Theorem C62_noop_tracer_refuted :
  exists cur, sc_is_valid (current_span_context cur) = true
    /\ sc_is_valid (span_context_of (noop_start_span cur None)) = false.
Proof. exists (set_span_in_context (OSpan (SC 1 2 true 1 []) false None) []). vm_compute. split; reflexivity. Qed.
Print Assumptions C62_noop_tracer_refuted.
