(** Metrics from the program's calls to the OTLP request: the instruments' checks (Model_Metrics), the storage of the
    readers (Model_Storage) with the aggregations of Model_Metrics, and the OTLP encoder (Model_Otlp) put together.

    Sources: opentelemetry-sdk/src/opentelemetry/sdk/metrics/_internal/instrument.py 160-296, metric_reader_storage.py,
    measurement_consumer.py, export/__init__.py 318-352, and the OTLP metrics_encoder 174-343. *)
From Verif Require Export Model_Otlp Model_Storage.
Local Open Scope Z_scope.

(** What the program does: a call on a synchronous instrument ([add], [record] or [set], with the time that time_ns
    returns if it is read), and a collection by a reader, in which the callbacks yield observations. *)
Inductive pcall :=
| PCall (i : N) (attrs : option mattrs) (amount : Z) (now : Z)
| PCollect (r : nat) (obs : list observation) (timeout : bool) (now : Z).

Section Pipeline.
Variable float_int : Z -> option Z.
Variable obj_hash : N -> bool.
Variable fnmatch : str -> str -> bool.
(** Scopes as dict keys: a type of its own, because Python's equality of scopes is not the equality of the model's. *)
Context {Scope : Type} `{EqDec Scope}.
Variable the_scope : Scope -> scope.
Variable obj : N -> instr.
Variable scope_of : N -> Scope.
Variable views : list (@view aggregation).
Variable readers : list (@reader aggregation).

(** instrument.py: a negative amount of a counter or histogram goes no further than the warning. *)
Definition pcall_ops (c : pcall) : list cop :=
  match c with
  | PCall i attrs amount now =>
      match offered (in_kind (obj i)) amount with Some v => [CMeasure i attrs v now] | None => [] end
  | PCollect r obs timeout now => [CCollect r obs timeout now]
  end.
(** isinstance(.., DefaultAggregation), isinstance(.., ExplicitBucketHistogramAggregation) *)
Definition asks_default (g : aggregation) : bool := match g with Default => true | _ => false end.
Definition asks_explicit (g : aggregation) : bool := match g with ExplicitBuckets _ _ => true | _ => false end.
(** The class of the aggregation that [create] makes (metric_reader_storage.py 163-219 looks at it). *)
Definition agg_shape (g : aggregation) (i : N) : shape :=
  match create g (in_kind (obj i)) (in_adv (obj i)) [] 0 with
  | AgSum _ => ShSum | AgLast _ => ShGauge | AgHist _ => ShHistogram | AgDrop => ShDrop
  end.
(** The consumer with the SDK's aggregations.  Exponential histograms are left out (Model_ExpHist). *)
Definition sdk_run (h : list pcall) : @consumer aggregation agg * list (@cout Scope point) :=
  crun float_int obj_hash fnmatch (fun s => sco_name (the_scope s)) (fun s => sco_version (the_scope s)) (fun s => sco_schema (the_scope s))
    obj scope_of Default asks_default asks_explicit (fun g i => create g (in_kind (obj i)) (in_adv (obj i))) aggregate
    (fun t a now => collect a t now) agg_shape views readers (flat_map pcall_ops h).
(** What the n-th call gave (nothing for a call that was not passed on). *)
Definition output_after (before : list pcall) (h : list pcall) : option (@cout Scope point) :=
  nth_error (snd (sdk_run h)) (length (flat_map pcall_ops before)).

(** point.py: the same objects as the encoder sees them.  Amounts are ints; [infty b] is the float -inf or inf. *)
Variable infty : bool -> Z.
Definition ext_number (e : ext) : number := match e with Fin z => NInt z | NegInf => NFloat (infty false) | PosInf => NFloat (infty true) end.
Definition otlp_num (p : npoint) : num_point := NumPt (np_attrs p) (np_start p) (np_time p) (NInt (np_value p)) [].
Definition otlp_hist (p : hpoint) : hist_point :=
  HistPt (hp_attrs p) (Some (hp_start p)) (hp_time p) (hp_count p) (NInt (hp_sum p)) (hp_counts p) (map NInt (hp_bounds p))
    (Some (ext_number (hp_min p))) (Some (ext_number (hp_max p))) [].
Definition otlp_nums (l : list point) : list num_point := flat_map (fun p => match p with NumberPoint p => [otlp_num p] | _ => [] end) l.
Definition otlp_hists (l : list point) : list hist_point := flat_map (fun p => match p with HistogramPoint p => [otlp_hist p] | _ => [] end) l.
(** aggregation.py 81-90: the numbers of the enumeration *)
Definition temporality_number (t : temporality) : Z := match t with UNSPECIFIED => 0 | DELTA => 1 | CUMULATIVE => 2 end.
Definition otlp_metric (m : @metric point) : sdk_metric :=
  SMetric (m_name m) (Some (m_descr m)) (Some (m_unit m))
    (match m_shape m with
     | ShSum => MSum (otlp_nums (m_points m)) (temporality_number (m_temporality m)) (m_monotonic m)
     | ShGauge => MGauge (otlp_nums (m_points m))
     | ShHistogram => MHistogram (otlp_hists (m_points m)) (temporality_number (m_temporality m))
     | _ => MUnknown
     end).
(** metric_reader_storage.py 221-251 and the OTLP exporter: the request made of a collection under a resource. *)
Variable to_float : Z -> option Z.
Definition otlp_request (res : resource) (out : dict Scope (list (@metric point))) : option (list (pb_group pb_metric)) :=
  encode_metrics to_float same_resource_key (fun a b => same_scope_key float_int (Some a) (Some b))
    [(res, map (fun e => (the_scope (fst e), map otlp_metric (snd e))) out)].
End Pipeline.
