(** Exponential histograms in the metrics pipeline: the storage of the readers (Model_Storage) with the exponential
    histograms of Model_ExpHist among other aggregations.

    Source: opentelemetry-sdk/src/opentelemetry/sdk/metrics/_internal/aggregation.py 1315-1350,
    _view_instrument_match.py 36-67, metric_reader_storage.py 119-251. *)
From Verif Require Export Model_ExpHist Model_Pipeline.
Local Open Scope Z_scope.

(** What a view or a reader can ask for, the states of an aggregation and data points: the exponential ones beside others. *)
Inductive xconf (G0 : Type) := Other (g : G0) | Exponential (max_size max_scale : Z).
Arguments Other {G0}. Arguments Exponential {G0}.
(** [raised]: a call on it raised an exception.  Simplification: in the storage such a call does not raise here (C137_no_raise
    shows when there is none). *)
Inductive xstate (A0 : Type) := OtherState (a : A0) | ExpState (h : ehist) (raised : bool) | ExpRefused.
Arguments OtherState {A0}. Arguments ExpState {A0}. Arguments ExpRefused {A0}.
Inductive xpoint (D0 : Type) := OtherPoint (d : D0) | ExpPoint (p : epoint).
Arguments OtherPoint {D0}. Arguments ExpPoint {D0}.

Section ExpPipeline.
Variable float_int : Z -> option Z.
Variable obj_hash : N -> bool.
Variable fnmatch : str -> str -> bool.
Context {Scope : Type} `{EqDec Scope}.
Variable the_scope : Scope -> scope.
Variable obj : N -> instr.
Variable scope_of : N -> Scope.
(** [math.floor(math.log(..) * ..)], see Model_ExpHist *)
Variable log_floor : Z -> Z -> Z.
(** The other aggregations, as in Model_Storage *)
Context {G0 A0 D0 : Type}.
Variable default0 : G0.
Variable is_default0 is_explicit0 : G0 -> bool.
Variable create0 : G0 -> N -> mattrs -> Z -> A0.
Variable aggregate0 : A0 -> Z -> A0.
Variable collect0 : temporality -> A0 -> Z -> A0 * option D0.
Variable shape0 : G0 -> N -> shape.

(** isinstance(.., DefaultAggregation), isinstance(.., ExplicitBucketHistogramAggregation) *)
Definition x_default (g : xconf G0) : bool := match g with Other g => is_default0 g | Exponential _ _ => false end.
Definition x_explicit (g : xconf G0) : bool := match g with Other g => is_explicit0 g | Exponential _ _ => false end.
(** aggregation.py 1324-1349 *)
Definition x_create (g : xconf G0) (i : N) (attrs : mattrs) (start : Z) : xstate A0 :=
  match g with
  | Other g => OtherState (create0 g i attrs start)
  | Exponential max_size max_scale =>
      match eh_new attrs (instr_temporality (in_kind (obj i))) start max_size max_scale with
      | Some h => ExpState h false
      | None => ExpRefused
      end
  end.
Definition x_aggregate (a : xstate A0) (v : Z) : xstate A0 :=
  match a with
  | OtherState a => OtherState (aggregate0 a v)
  | ExpState h raised => let (h', ok) := eh_aggregate log_floor h v in ExpState h' (raised || negb ok)
  | ExpRefused => ExpRefused
  end.
Definition x_collect (t : temporality) (a : xstate A0) (now : Z) : xstate A0 * option (xpoint D0) :=
  match a with
  | OtherState a => let (a', d) := collect0 t a now in (OtherState a', option_map OtherPoint d)
  | ExpState h raised =>
      let (h', r) := eh_collect h t now in
      match r with
      | ENone => (ExpState h' raised, None)
      | EPoint p => (ExpState h' raised, Some (ExpPoint p))
      | ERaised => (ExpState h' true, None)
      end
  | ExpRefused => (ExpRefused, None)
  end.
(** metric_reader_storage.py 163-219 *)
Definition x_shape (g : xconf G0) (i : N) : shape := match g with Other g => shape0 g i | Exponential _ _ => ShExponential end.

Variable views : list (@view (xconf G0)).
Variable readers : list (@reader (xconf G0)).
Definition x_run (h : list pcall) : @consumer (xconf G0) (xstate A0) * list (@cout Scope (xpoint D0)) :=
  crun float_int obj_hash fnmatch (fun s => sco_name (the_scope s)) (fun s => sco_version (the_scope s)) (fun s => sco_schema (the_scope s))
    obj scope_of (Other default0) x_default x_explicit x_create x_aggregate x_collect x_shape views readers (flat_map (pcall_ops obj) h).
(** What the call after the calls [before] gave. *)
Definition x_output (before h : list pcall) : option (@cout Scope (xpoint D0)) :=
  nth_error (snd (x_run h)) (length (flat_map (pcall_ops obj) before)).

(** point.py 72-96 and aggregation.py 873-893, 1037-1061: an exponential point as the encoder sees it.  [dbl z] is the double z * 2^-1074 in the form of
    [NFloat], [infty b] is -inf or inf.  Simplification: exemplars are left out (see Model_Exemplar).  A scale of None, which no point has, is not
    set in the message. *)
Variable dbl : Z -> Z.
Variable infty : bool -> Z.
Definition ext_float (e : ext) : number := NFloat (match e with Fin z => dbl z | NegInf => infty false | PosInf => infty true end).
Definition otlp_exp (p : epoint) : exp_point :=
  ExpPt (ep_attrs p) (Some (ep_start p)) (ep_time p) (ep_count p) (NFloat (dbl (ep_sum p))) (match ep_scale p with Some s => s | None => 0 end) (ep_zero p)
    (EB (ep_pos_offset p) (ep_pos_counts p)) (EB (ep_neg_offset p) (ep_neg_counts p)) 0 (Some (ext_float (ep_min p))) (Some (ext_float (ep_max p))) [].
Definition otlp_exps (l : list (xpoint D0)) : list exp_point := flat_map (fun p => match p with ExpPoint p => [otlp_exp p] | OtherPoint _ => [] end) l.
(** The data of the other metrics, as in Model_Pipeline *)
Variable data0 : shape -> temporality -> bool -> list (xpoint D0) -> mdata.
Definition x_otlp_metric (m : @metric (xpoint D0)) : sdk_metric :=
  SMetric (m_name m) (Some (m_descr m)) (Some (m_unit m))
    (match m_shape m with
     | ShExponential => MExponential (otlp_exps (m_points m)) (temporality_number (m_temporality m))
     | s => data0 s (m_temporality m) (m_monotonic m) (m_points m)
     end).
(** metric_reader_storage.py 221-251 and metrics_encoder/__init__.py 189-343 *)
Variable to_float : Z -> option Z.
Definition x_otlp_request (res : resource) (out : dict Scope (list (@metric (xpoint D0)))) : option (list (pb_group pb_metric)) :=
  encode_metrics to_float same_resource_key (fun a b => same_scope_key float_int (Some a) (Some b))
    [(res, map (fun e => (the_scope (fst e), map x_otlp_metric (snd e))) out)].
End ExpPipeline.
