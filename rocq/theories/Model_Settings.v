(** Settings of the batch processors, the metric readers and the meter provider.

    Sources, under opentelemetry-sdk/src/opentelemetry/sdk: trace/export/__init__.py, _logs/_internal/export/__init__.py,
    metrics/_internal/__init__.py, metrics/_internal/export/__init__.py; and
    exporter/opentelemetry-exporter-otlp-proto-common/src/opentelemetry/exporter/otlp/proto/common/_internal/metrics_encoder/__init__.py. *)
From Verif Require Export Model_Provider Model_Reader Model_Context.
Local Open Scope Z_scope.

Section Int.
(** Decimal value of a non-ASCII code point of Unicode category Nd *)
Variable nd : N -> option N.
(** sys.get_int_max_str_digits(): texts with more digits raise ValueError (None: no limit) *)
Variable max_str_digits : option Z.

(** ** Python's [int(s)]: blanks, a sign, digits with single underscores between them, blanks *)
Definition digit10 (c : N) : option N :=
  if N.ltb c 128 then (if is_digit c then Some (c - 48)%N else None) else nd c.
(** [us]: the previous character was an underscore; [n] counts the digits *)
Fixpoint dec_digits (s : str) (us : bool) (n acc : Z) : option Z :=
  match s with
  | [] => if us then None
          else if match max_str_digits with Some m => m <? n | None => false end then None else Some acc
  | c :: s' =>
      match digit10 c with
      | Some d => dec_digits s' false (n + 1) (10 * acc + Z.of_N d)
      | None => if N.eqb c 95 && negb us then dec_digits s' true n acc else None
      end
  end.
Definition dec_body (s : str) : option Z :=
  match s with
  | [] => None
  | c :: _ => if N.eqb c 95 then None else dec_digits s false 0 0
  end.
Definition py_int (s : str) : option Z :=
  match strip int_space s with
  | [] => None
  | c :: r =>
      if N.eqb c 45 then option_map Z.opp (dec_body r)
      else if N.eqb c 43 then dec_body r
      else dec_body (c :: r)
  end.

(** ** Batch processors *)
Variable environ : str -> option str.
(** trace export 407-467, logs export 382-442: [int(environ.get(name, default))], the default if that is a ValueError *)
Definition int_or_default (name : str) (default : Z) : Z :=
  match environ name with
  | None => default
  | Some s => match py_int s with Some z => z | None => default end
  end.
Inductive signal := Spans | LogRecords.
Definition var (g : signal) (name : string) : str := match g with Spans => lit "OTEL_BSP_" ++ lit name | LogRecords => lit "OTEL_BLRP_" ++ lit name end.
(** Simplification: a delay or timeout given as an argument is a whole number of milliseconds; only the delay's sign is looked at here. *)
Record batch_settings := BatchSettings { bs_queue : Z; bs_delay : Z; bs_batch : Z; bs_timeout : Z }.
Record batch_args := BatchArgs { ba_queue : option Z; ba_delay : option Z; ba_batch : option Z; ba_timeout : option Z }.
Definition or_else (a : option Z) (d : Z) : Z := match a with Some z => z | None => d end.
(** trace export 163-203, 470-487; logs export 172-217, 445-462.  deque(maxlen) takes at most 2^63 - 1; running out of memory is not modelled. *)
Definition new_batch_processor (g : signal) (a : batch_args) : outcome_of batch_settings :=
  let q := or_else (ba_queue a) (int_or_default (var g "MAX_QUEUE_SIZE") 2048) in
  let d := or_else (ba_delay a) (int_or_default (var g "SCHEDULE_DELAY") 5000) in
  let b := or_else (ba_batch a) (int_or_default (var g "MAX_EXPORT_BATCH_SIZE") 512) in
  let t := or_else (ba_timeout a) (int_or_default (var g "EXPORT_TIMEOUT") 30000) in
  if q <=? 0 then Raises "ValueError"
  else if d <=? 0 then Raises "ValueError"
  else if b <=? 0 then Raises "ValueError"
  else if q <? b then Raises "ValueError"
  else if 2 ^ 63 <=? q then Raises "OverflowError"
  else Ok (BatchSettings q d b t).

(** ** The periodic reader, metrics export 462-509 *)
Variable py_float : str -> option interval.     (* float(s); None is a ValueError *)
Definition reader_interval (arg : option interval) : interval :=
  match arg with
  | Some i => i
  | None =>
      match environ (lit "OTEL_METRIC_EXPORT_INTERVAL") with
      | None => IFin 60000
      | Some s => match py_float s with Some i => i | None => IFin 60000 end
      end
  end.

(** ** The exemplar filter, metrics 366-374 and 427-432: a filter that is given (an object is true) or the one that is named *)
Inductive filter_kind := TraceBased | AlwaysOn | AlwaysOff.
Definition get_exemplar_filter (s : str) : outcome_of filter_kind :=
  if str_eqb s (lit "trace_based") then Ok TraceBased
  else if str_eqb s (lit "always_on") then Ok AlwaysOn
  else if str_eqb s (lit "always_off") then Ok AlwaysOff
  else Raises "ValueError".
Definition provider_filter (arg : option filter_kind) : outcome_of filter_kind :=
  match arg with
  | Some f => Ok f
  | None => get_exemplar_filter (match environ (lit "OTEL_METRICS_EXEMPLAR_FILTER") with Some s => s | None => lit "trace_based" end)
  end.

(** ** Preferred aggregations *)
Section Aggregation.
Context {G : Type}.
Variables default explicit exponential : G.   (* DefaultAggregation(), ExplicitBucketHistogramAggregation(), ExponentialBucketHistogramAggregation() *)
(** metrics export 282-320: None is an exception *)
Fixpoint set_aggregations (l : list (iclass * G)) (d : dict ikind G) : option (dict ikind G) :=
  match l with
  | [] => Some d
  | (CKind k, g) :: l' => set_aggregations l' (dset k g d)
  | (COther _, _) :: _ => None
  end.
Definition reader_aggregation (preferred : option (dict iclass G)) : option (dict ikind G) :=
  let d0 := map (fun k => (k, default)) all_kinds in
  match preferred with None => Some d0 | Some l => set_aggregations l d0 end.
(** encoder 136-171 [_get_aggregation] *)
Definition otlp_aggregation (preferred : option (dict iclass G)) : dict iclass G :=
  let v := match environ (lit "OTEL_EXPORTER_OTLP_METRICS_DEFAULT_HISTOGRAM_AGGREGATION") with Some s => s | None => lit "explicit_bucket_histogram" end in
  dupdate [(CKind IHistogram, if str_eqb v (lit "base2_exponential_bucket_histogram") then exponential else explicit)]
    (match preferred with Some l => l | None => [] end).
End Aggregation.
End Int.
