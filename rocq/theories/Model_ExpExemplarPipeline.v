(** Exemplars of exponential histograms in the metrics pipeline: the storage of the readers (Model_Storage) with the exponential histograms
    and reservoirs of Model_ExpExemplar among other aggregations.  The measurements have numbers, as in Model_ExemplarPipeline.

    Source: opentelemetry-sdk/src/opentelemetry/sdk/metrics/_internal/aggregation.py 94-148, 628-1060, 1315-1350, view.py 37-45,
    measurement_consumer.py 77-150, _view_instrument_match.py 36-150, metric_reader_storage.py 119-251. *)
From Verif Require Export Model_ExpPipeline Model_ExpExemplar.
Local Open Scope Z_scope.

(** [rand] and [seen] as in [estate]: how [randrange] answers this stream's reservoir, and the measurements so far.
    Simplification: as in Model_ExpPipeline, a call on the storage does not raise where a call on the aggregation does. *)
Inductive mstate (A0 : Type) := MOther (a : A0) | MExp (s : xestate) (rand : nat -> Z -> Z) (seen : nat) | MRefused.
Arguments MOther {A0}. Arguments MExp {A0}. Arguments MRefused {A0}.
Inductive mpoint (D0 : Type) := MOtherPoint (d : D0) | MExpPoint (pe : epoint * list exemplar).
Arguments MOtherPoint {D0}. Arguments MExpPoint {D0}.

Section ExpExemplarPipeline.
Variable float_int : Z -> option Z.
Variable obj_hash : N -> bool.
Variable fnmatch : str -> str -> bool.
Context {Scope : Type} `{EqDec Scope}.
Variable the_scope : Scope -> scope.
Variable obj : N -> instr.
Variable scope_of : N -> Scope.
Variable log_floor : Z -> Z -> Z.
Variable the_call : N -> mcall.
Variable f : efilter.
Variable rand : N -> mattrs -> Z -> nat -> Z -> Z.
(** The other aggregations, as in Model_ExpPipeline *)
Context {G0 A0 D0 : Type}.
Variable default0 : G0.
Variable is_default0 is_explicit0 : G0 -> bool.
Variable create0 : G0 -> N -> mattrs -> Z -> A0.
Variable aggregate0 : A0 -> Z -> A0.
Variable collect0 : temporality -> A0 -> Z -> A0 * option D0.
Variable shape0 : G0 -> N -> shape.

(** aggregation.py 1324-1349 *)
Definition m_create (g : xconf G0) (i : N) (attrs : mattrs) (start : Z) : mstate A0 :=
  match g with
  | Other g => MOther (create0 g i attrs start)
  | Exponential max_size max_scale =>
      match eh_new attrs (instr_temporality (in_kind (obj i))) start max_size max_scale with
      | Some h => MExp (xe_new h) (rand i attrs start) 0
      | None => MRefused
      end
  end.
(** aggregation.py 711-822 (where the temporality plays no part) *)
Definition m_aggregate (a : mstate A0) (k : Z) : mstate A0 :=
  match a with
  | MOther a => MOther (aggregate0 a k)
  | MExp s rd n => MExp (xe_step log_floor f DELTA s (XMeasure (the_call (Z.to_N k)) (rd n (draw_bound (xe_res s))))) rd (S n)
  | MRefused => MRefused
  end.
(** aggregation.py 824-1060: what this collection returned *)
Definition m_collect (t : temporality) (a : mstate A0) (now : Z) : mstate A0 * option (mpoint D0) :=
  match a with
  | MOther a => let (a', d) := collect0 t a now in (MOther a', option_map MOtherPoint d)
  | MExp s rd n => let s' := xe_step log_floor f t s (XCollect now) in (MExp s' rd n, option_map MExpPoint (last (xe_out s') None))
  | MRefused => (MRefused, None)
  end.

Variable views : list (@view (xconf G0)).
Variable readers : list (@reader (xconf G0)).
Definition m_run (h : list ecall) : @consumer (xconf G0) (mstate A0) * list (@cout Scope (mpoint D0)) :=
  crun float_int obj_hash fnmatch (fun s => sco_name (the_scope s)) (fun s => sco_version (the_scope s)) (fun s => sco_schema (the_scope s))
    obj scope_of (Other default0) (x_default is_default0) (x_explicit is_explicit0) m_create m_aggregate m_collect (x_shape shape0) views readers
    (flat_map (pcall_ops obj) (flat_map (e_pcall obj the_call) h)).
(** What the call after the calls [before] gave. *)
Definition m_output (before h : list ecall) : option (@cout Scope (mpoint D0)) :=
  nth_error (snd (m_run h)) (length (flat_map (pcall_ops obj) (flat_map (e_pcall obj the_call) before))).

(** point.py 72-96 and metrics_encoder/__init__.py 298-343, 346-387: points with exemplars as the encoder sees them (compare [otlp_exp] and
    [otlp_exemplar]; amounts are doubles, [dbl z] is z * 2^-1074). *)
Variable dbl : Z -> Z.
Variable infty : bool -> Z.
Definition m_otlp_exemplar (e : exemplar) : sdk_exemplar :=
  Exm (match ex_filtered e with Some d => d | None => [] end) (NFloat (dbl (Model_Exemplar.ex_value e))) (Model_Exemplar.ex_time e)
    (option_map Z.of_N (ex_span_id e)) (option_map Z.of_N (ex_trace_id e)).
Definition m_otlp_exp (pe : epoint * list exemplar) : exp_point :=
  let (p, es) := pe in
  ExpPt (ep_attrs p) (Some (ep_start p)) (ep_time p) (ep_count p) (NFloat (dbl (ep_sum p))) (match ep_scale p with Some s => s | None => 0 end) (ep_zero p)
    (EB (ep_pos_offset p) (ep_pos_counts p)) (EB (ep_neg_offset p) (ep_neg_counts p)) 0 (Some (ext_float dbl infty (ep_min p))) (Some (ext_float dbl infty (ep_max p)))
    (map m_otlp_exemplar es).
Definition m_otlp_exps (l : list (mpoint D0)) : list exp_point := flat_map (fun p => match p with MExpPoint pe => [m_otlp_exp pe] | MOtherPoint _ => [] end) l.
(** The data of the other metrics *)
Variable data0 : shape -> temporality -> bool -> list (mpoint D0) -> mdata.
Definition m_otlp_metric (m : @metric (mpoint D0)) : sdk_metric :=
  SMetric (m_name m) (Some (m_descr m)) (Some (m_unit m))
    (match m_shape m with
     | ShExponential => MExponential (m_otlp_exps (m_points m)) (temporality_number (m_temporality m))
     | s => data0 s (m_temporality m) (m_monotonic m) (m_points m)
     end).
Variable to_float : Z -> option Z.
Definition m_otlp_request (res : resource) (out : dict Scope (list (@metric (mpoint D0)))) : option (list (pb_group pb_metric)) :=
  encode_metrics to_float same_resource_key (fun a b => same_scope_key float_int (Some a) (Some b))
    [(res, map (fun e => (the_scope (fst e), map m_otlp_metric (snd e))) out)].
End ExpExemplarPipeline.
