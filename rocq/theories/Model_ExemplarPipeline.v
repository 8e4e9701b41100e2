(** Exemplars in the metrics pipeline: from the contexts in which the program measures, through the filter, the readers' storage
    (Model_Storage) and each stream's reservoir (Model_Exemplar), to the data points of a collection.

    Source: opentelemetry-sdk/src/opentelemetry/sdk/metrics/_internal/instrument.py 119-296, measurement_consumer.py 77-150,
    _view_instrument_match.py 96-150, aggregation.py 117-612, view.py 37-45, exemplar/*.py, and the API's Context (a dict). *)
From Verif Require Export Model_Exemplar Model_Pipeline.
Local Open Scope Z_scope.

(** A Context, as far as measurements look at it: without any entry (it is a dict, so it is false then), or with some, and the span
    id, trace id and sampled flag of its current span unless that is INVALID_SPAN (see [meas]). *)
Inductive ctx := EmptyContext | SomeContext (span : option (N * N * bool)).
Definition ctx_true (c : ctx) : bool := match c with EmptyContext => false | SomeContext _ => true end.
(** [trace.get_current_span(context)] *)
Definition ctx_span (c : ctx) : option (N * N * bool) := match c with EmptyContext => None | SomeContext s => s end.

(** The arguments of [add], [record] or [set], or the fields of an Observation: the amount, attributes and the context, if one
    is given; beside them what [time_ns] and [get_current] return. *)
Record mcall := MCall { mc_value : Z; mc_attrs : option mattrs; mc_given : option ctx; mc_current : ctx; mc_time : Z }.
(** instrument.py 177, 201, 269, 293 and 145: [context or get_current()] *)
Definition context_used (c : mcall) : ctx :=
  match mc_given c with
  | Some x => if ctx_true x then x else mc_current c
  | None => mc_current c
  end.
(** instrument.py 171-179, 195-203, 263-271, 287-295, 137-147: the Measurement *)
Definition measurement_of (c : mcall) : meas := Meas (mc_value c) (mc_time c) (mc_attrs c) (ctx_span (context_used c)).

(** What the program does.  The measurements have numbers, and [the_call] says what they are: so the storage, which looks at a
    measurement's attributes only and hands it on, can be that of Model_Storage, with the numbers for amounts. *)
Inductive ecall :=
| ECall (i : N) (k : N) (now : Z)
| ECollect (r : nat) (obs : list (N * N)) (timeout : bool) (now : Z).

(** aggregation.py 94-148: an aggregation has a reservoir, and the attributes of its points.  [es_rand] says how [randrange]
    answers, by the number of measurements so far and the bound. *)
Record estate := EState { es_agg : agg; es_res : reservoir; es_attrs : mattrs; es_rand : nat -> Z -> Z; es_seen : nat }.
(** view.py 37-45 [_default_reservoir_factory], aggregation.py 94-103, 476-485: histograms have a reservoir that is aligned with their
    boundaries, others one of size 1.  Custom factories and exponential histograms are left out. *)
Definition e_reservoir (a : agg) : reservoir :=
  match a with AgHist h => aligned_new (ha_bounds h) | _ => simple_new 1 end.

Section ExemplarPipeline.
Variable float_int : Z -> option Z.
Variable obj_hash : N -> bool.
Variable fnmatch : str -> str -> bool.
Context {Scope : Type} `{EqDec Scope}.
Variable the_scope : Scope -> scope.
Variable obj : N -> instr.
Variable scope_of : N -> Scope.
Variable the_call : N -> mcall.
Variable f : efilter.
(** The answers of [randrange] to the reservoir of a stream *)
Variable rand : N -> mattrs -> Z -> nat -> Z -> Z.

Definition e_create (g : aggregation) (i : N) (attrs : mattrs) (start : Z) : estate :=
  let a := create g (in_kind (obj i)) (in_adv (obj i)) attrs start in
  EState a (e_reservoir a) attrs (rand i attrs start) 0.
(** exemplar_reservoir.py 268-283: the bound that [randrange] gets *)
Definition draw_bound (r : reservoir) : Z := match r with Simple _ seen _ => seen + 1 | Aligned _ _ => 0 end.
(** aggregation.py 187-196, 412-421, 510-527 with [_sample_exemplar] 133-148 at their ends; 151-162.  The filter's answer is that of
    measurement_consumer.py 77-92, 131-146, which all readers share. *)
Definition e_aggregate (s : estate) (k : Z) : estate :=
  let m := measurement_of (the_call (Z.to_N k)) in
  match es_agg s with
  | AgDrop => s
  | a => EState (aggregate a (me_value m)) (sample_exemplar f m (es_rand s (es_seen s) (draw_bound (es_res s))) (es_res s))
           (es_attrs s) (es_rand s) (S (es_seen s))
  end.
(** aggregation.py 329-401, 423-446, 529-612: the exemplars are collected where a point is made (349, 362, 391, 399, 437, 571, 601),
    and not when None is returned. *)
Definition e_collect (t : temporality) (s : estate) (now : Z) : estate * option (point * list exemplar) :=
  let (a, p) := collect (es_agg s) t now in
  match p with
  | None => (EState a (es_res s) (es_attrs s) (es_rand s) (es_seen s), None)
  | Some p =>
      let (r, es) := rcollect (es_attrs s) (es_res s) in
      (EState a r (es_attrs s) (es_rand s) (es_seen s), Some (p, es))
  end.

(** instrument.py 160-296: a negative amount of a counter or histogram goes no further than the warning. *)
Definition e_pcall (c : ecall) : list pcall :=
  match c with
  | ECall i k now =>
      match offered (in_kind (obj i)) (mc_value (the_call k)) with
      | Some _ => [PCall i (mc_attrs (the_call k)) (Z.of_N k) now]
      | None => []
      end
  | ECollect r obs timeout now => [PCollect r (map (fun ob => (fst ob, mc_attrs (the_call (snd ob)), Z.of_N (snd ob))) obs) timeout now]
  end.
Variable views : list (@view aggregation).
Variable readers : list (@reader aggregation).
Definition e_run (h : list ecall) : @consumer aggregation estate * list (@cout Scope (point * list exemplar)) :=
  crun float_int obj_hash fnmatch (fun s => sco_name (the_scope s)) (fun s => sco_version (the_scope s)) (fun s => sco_schema (the_scope s))
    obj scope_of Default asks_default asks_explicit e_create e_aggregate e_collect (agg_shape obj) views readers
    (flat_map (pcall_ops obj) (flat_map e_pcall h)).
(** What the call after the calls [before] gave. *)
Definition e_output (before h : list ecall) : option (@cout Scope (point * list exemplar)) :=
  nth_error (snd (e_run h)) (length (flat_map (pcall_ops obj) (flat_map e_pcall before))).

(** exemplar.py 22-50 and the points of point.py with their exemplars, as the OTLP encoder sees them (metrics_encoder/__init__.py 248-297
    pass the exemplars to 346-387, which are [encode_exemplar]; an exemplar without filtered attributes has none in the message).
    Compare [otlp_metric]. *)
Variable infty : bool -> Z.
Definition otlp_exemplar (e : exemplar) : sdk_exemplar :=
  Exm (match ex_filtered e with Some d => d | None => [] end) (NInt (Model_Exemplar.ex_value e)) (Model_Exemplar.ex_time e)
    (option_map Z.of_N (ex_span_id e)) (option_map Z.of_N (ex_trace_id e)).
Definition e_otlp_num (p : npoint) (es : list exemplar) : num_point :=
  NumPt (np_attrs p) (np_start p) (np_time p) (NInt (np_value p)) (map otlp_exemplar es).
Definition e_otlp_hist (p : hpoint) (es : list exemplar) : hist_point :=
  HistPt (hp_attrs p) (Some (hp_start p)) (hp_time p) (hp_count p) (NInt (hp_sum p)) (hp_counts p) (map NInt (hp_bounds p))
    (Some (ext_number infty (hp_min p))) (Some (ext_number infty (hp_max p))) (map otlp_exemplar es).
Definition e_otlp_nums (l : list (point * list exemplar)) : list num_point :=
  flat_map (fun pe => match fst pe with NumberPoint p => [e_otlp_num p (snd pe)] | _ => [] end) l.
Definition e_otlp_hists (l : list (point * list exemplar)) : list hist_point :=
  flat_map (fun pe => match fst pe with HistogramPoint p => [e_otlp_hist p (snd pe)] | _ => [] end) l.
Definition e_otlp_metric (m : @metric (point * list exemplar)) : sdk_metric :=
  SMetric (m_name m) (Some (m_descr m)) (Some (m_unit m))
    (match m_shape m with
     | ShSum => MSum (e_otlp_nums (m_points m)) (temporality_number (m_temporality m)) (m_monotonic m)
     | ShGauge => MGauge (e_otlp_nums (m_points m))
     | ShHistogram => MHistogram (e_otlp_hists (m_points m)) (temporality_number (m_temporality m))
     | _ => MUnknown
     end).
(** metric_reader_storage.py 221-251 and the OTLP exporter *)
Variable to_float : Z -> option Z.
Definition e_otlp_request (res : resource) (out : dict Scope (list (@metric (point * list exemplar)))) : option (list (pb_group pb_metric)) :=
  encode_metrics to_float same_resource_key (fun a b => same_scope_key float_int (Some a) (Some b))
    [(res, map (fun e => (the_scope (fst e), map e_otlp_metric (snd e))) out)].
End ExemplarPipeline.
