(** Samplers, the random id generator and Tracer.start_span.

    Sources: opentelemetry-sdk/src/opentelemetry/sdk/trace/sampling.py, trace/id_generator.py,
    trace/__init__.py (Tracer). *)
From Coq Require Export QArith.
From Verif Require Export Model_Span.
Local Open Scope nat_scope.

(** ** Python floats *)

(** IEEE doubles: every finite double is [m * 2^e] for integers [m] and [e].  Zeros of both signs are [DFin 0 e]. *)
Inductive double := DFin (m e : Z) | DInf (neg : bool) | DNan.

(** [m * 2^e <= n * 2^f], by scaling both to the smaller exponent. *)
Definition dy_leb (m e n f : Z) : bool :=
  let k := Z.min e f in Z.leb (m * 2 ^ (e - k)) (n * 2 ^ (f - k)).
(** Python's [x < y] on floats: false when one of them is NaN. *)
Definition dlt (x y : double) : bool :=
  match x, y with
  | DFin m e, DFin n f => negb (dy_leb n f m e)
  | DInf true, DFin _ _ | DInf true, DInf false | DFin _ _, DInf false => true
  | _, _ => false
  end.
Definition dzero : double := DFin 0 0.
Definition done_ : double := DFin 1 0.

(** [round(m * 2^e)] to an int: half to even (Python's [float.__round__]). *)
Definition round_half_even (m e : Z) : Z :=
  if Z.leb 0 e then (m * 2 ^ e)%Z
  else
    let d := (2 ^ (- e))%Z in
    let q := (m / d)%Z in
    let r := (m mod d)%Z in
    if Z.ltb (2 * r) d then q
    else if Z.ltb d (2 * r) then (q + 1)%Z
    else if Z.even q then q else (q + 1)%Z.

(** ** Samplers *)

(** sampling.py 155-167 *)
Inductive decision := DROP | RECORD_ONLY | RECORD_AND_SAMPLE.
Definition d_is_recording (d : decision) : bool := match d with DROP => false | _ => true end.
Definition d_is_sampled (d : decision) : bool := match d with RECORD_AND_SAMPLE => true | _ => false end.

(** sampling.py 170-197; attributes None and the empty mapping are the same. *)
Record sampling_result := SR { sr_decision : decision; sr_attrs : pairs; sr_state : option tracestate }.

Definition link_args := list (option (option span_context * pairs)).
(** sampling.py 200-217 [Sampler.should_sample].  The first argument is the context that is current when the
    sampler runs (read when the context argument is None).  The argument trace_state, which the SDK never passes,
    is left out. *)
Definition sampler := context -> option context -> Z -> str -> Z -> pairs -> link_args -> sampling_result.

(** The context argument, or the current context (trace/propagation/__init__.py 38-51 with context=None). *)
Definition resolve (current : context) (c : option context) : context :=
  match c with Some x => x | None => current end.

(** sampling.py 506-512 [_get_parent_trace_state] *)
Definition parent_trace_state (current : context) (c : option context) : option tracestate :=
  let sc := current_span_context (resolve current c) in
  if sc_is_valid sc then Some (sc_state sc) else None.

(** sampling.py 220-244 [StaticSampler] *)
Definition static_sampler (d : decision) : sampler := fun current c _ _ _ attrs _ =>
  SR d (match d with DROP => [] | _ => attrs end) (parent_trace_state current c).
Definition ALWAYS_OFF : sampler := static_sampler DROP.
Definition ALWAYS_ON : sampler := static_sampler RECORD_AND_SAMPLE.

(** sampling.py 261-281 [TraceIdRatioBased.__init__] and [get_bound_for_rate].  The product of a double in [0,1]
    with 2^64 is exact in floating point: [m * 2^(e + 64)]. *)
Definition ratio_bound (rate : double) : outcome_of Z :=
  if dlt rate dzero || dlt done_ rate then Raises "ValueError"
  else match rate with
       | DFin m e => Ok (round_half_even m (e + 64))
       | DNan => Raises "ValueError"        (* round(nan) *)
       | DInf _ => Raises "OverflowError"   (* round(inf); ruled out by the test above *)
       end.
(** sampling.py 291-310 *)
Definition ratio_sampler (bound : Z) : sampler := fun current c trace_id _ _ attrs _ =>
  let d := if Z.ltb (Z.land trace_id (2 ^ 64 - 1)) bound then RECORD_AND_SAMPLE else DROP in
  SR d (match d with DROP => [] | _ => attrs end) (parent_trace_state current c).

(** sampling.py 316-384 [ParentBased] *)
Record delegates := Delegates {
  remote_sampled : sampler; remote_not_sampled : sampler; local_sampled : sampler; local_not_sampled : sampler
}.
Definition default_delegates : delegates := Delegates ALWAYS_ON ALWAYS_OFF ALWAYS_ON ALWAYS_OFF.
Definition parent_based (root : sampler) (d : delegates) : sampler := fun current c trace_id name kind attrs links =>
  let p := current_span_context (resolve current c) in
  let s := if sc_is_valid p then
             if sc_is_remote p then
               if flags_sampled (sc_flags p) then remote_sampled d else remote_not_sampled d
             else
               if flags_sampled (sc_flags p) then local_sampled d else local_not_sampled d
           else root in
  s current c trace_id name kind attrs links.

(** sampling.py 441-493: the sampler of the environment.  [pylower] is str.lower, [pyfloat] float(); None is the
    ValueError. *)
Section EnvSampler.
Variable pylower : str -> str.
Variable pyfloat : str -> option double.
Variable environ : str -> option str.
Inductive known_sampler := KAlwaysOn | KAlwaysOff | KParentOn | KParentOff | KRatio | KParentRatio.
Definition KNOWN_SAMPLERS : dict str known_sampler :=
  [(lit "always_on", KAlwaysOn); (lit "always_off", KAlwaysOff);
   (lit "parentbased_always_on", KParentOn); (lit "parentbased_always_off", KParentOff);
   (lit "traceidratio", KRatio); (lit "parentbased_traceidratio", KParentRatio)].
Definition sampler_from_env : outcome_of sampler :=
  let name := pylower (match environ (lit "OTEL_TRACES_SAMPLER") with
                       | Some s => s | None => lit "parentbased_always_on" end) in
  let rate := match environ (lit "OTEL_TRACES_SAMPLER_ARG") with
              | None => done_
              | Some s => match pyfloat s with Some r => r | None => done_ end
              end in
  match (match dget name KNOWN_SAMPLERS with Some k => k | None => KParentOn end) with
  | KAlwaysOn => Ok ALWAYS_ON
  | KAlwaysOff => Ok ALWAYS_OFF
  | KParentOn => Ok (parent_based ALWAYS_ON default_delegates)
  | KParentOff => Ok (parent_based ALWAYS_OFF default_delegates)
  | KRatio => bind_out (ratio_bound rate) (fun b => Ok (ratio_sampler b))
  | KParentRatio => bind_out (ratio_bound rate) (fun b => Ok (parent_based (ratio_sampler b) default_delegates))
  end.
End EnvSampler.

(** ** Random identifiers *)

(** id_generator.py 52-62: draw until the draw is not the invalid id (0).  [draws n] is the n-th outcome of
    getrandbits; [None]: still drawing after [fuel] draws. *)
Fixpoint draw_id (draws : nat -> Z) (n fuel : nat) : option Z :=
  match fuel with
  | O => None
  | S f => if Z.eqb (draws n) 0 then draw_id draws (S n) f else Some (draws n)
  end.

(** ** Tracer.start_span *)
Section StartSpan.
(** The id generator, with its state. *)
Variable G : Type.
Variable gen_trace_id : G -> Z * G.
Variable gen_span_id : G -> Z * G.

Record tracer := Tracer { t_sampler : sampler; t_limits : slimits }.
(** A started recording span (with the calls its processor got), or a NonRecordingSpan. *)
Inductive started := Recording (w : sworld) | NonRecording (sc : span_context).
Definition started_context (s : started) : span_context :=
  match s with Recording w => sp_ctx (w_span w) | NonRecording sc => sc end.

(** trace/__init__.py 1107-1181.  [current] is the current context, [now] the clock.  Resource, instrumentation
    scope and the exception flags are passed on unchanged and left out. *)
Definition start_span (tr : tracer) (current : context) (c : option context) (name : str) (kind : Z)
    (attrs : pairs) (links : link_args) (start_time : option Z) (now : Z) (g : G) : outcome_of started * G :=
  let p := current_span_context (resolve current c) in
  let parent := if sc_is_valid p then Some p else None in
  let '(trace_id, g1) := match parent with
                         | None => gen_trace_id g
                         | Some p => (sc_trace_id p, g)
                         end in
  let r := t_sampler tr current c trace_id name kind attrs links in
  let flags := if d_is_sampled (sr_decision r) then 1%Z else 0%Z in
  let (span_id, g2) := gen_span_id g1 in
  (* span.py 451-452: a trace state of None is the empty one *)
  let sc := SC trace_id span_id false flags (match sr_state r with Some s => s | None => ts_empty end) in
  if d_is_recording (sr_decision r) then
    (bind_out (new_span (t_limits tr) name sc parent kind (sr_attrs r) links)
              (fun s => Ok (Recording (sw_init s start_time now))), g2)
  else (Ok (NonRecording sc), g2).

(** The span as it is put into a context. *)
Definition as_obj (s : started) : obj :=
  match s with
  | Recording w => OSpan (sp_ctx (w_span w)) (negb (is_ended (w_span w)))
                         (option_map sc_span_id (sp_parent (w_span w)))
  | NonRecording sc => OSpan sc false None
  end.
End StartSpan.
Arguments start_span {G}. Arguments started_context : simpl never.

(** api/trace/__init__.py 461-472 [NoOpTracer.start_span]: INVALID_SPAN, whatever the parent is. *)
Definition noop_start_span (current : context) (c : option context) : obj := INVALID_SPAN.
