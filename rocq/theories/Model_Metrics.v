(** Metric aggregations, the synchronous instruments' checks and bucket search.

    Sources: opentelemetry-sdk/src/opentelemetry/sdk/metrics/_internal/aggregation.py,
    instrument.py.

    Measured values are integers.  Python integers are exact; every finite double is an integer
    multiple of 2^-1074, so comparisons (bucket search, minimum, maximum, last value) are covered
    by that choice of unit.  Rounding in floating point sums, nan and infinities are in Model_FloatMetrics.v.
    Exemplars are in Model_Exemplar.v, the exponential histogram in Model_ExpHist.v.  The lock makes
    [aggregate] and [collect] atomic; each is one function here. *)
From Verif Require Export Model_Attr.
Local Open Scope Z_scope.

(** aggregation.py 81-90 [AggregationTemporality] *)
Inductive temporality := UNSPECIFIED | DELTA | CUMULATIVE.
Definition is_delta (t : temporality) : bool := match t with DELTA => true | _ => false end.

(** Attributes of a measurement or a point: a dict with string keys. *)
Definition mattrs := dict str pyval.

(** point.py [NumberDataPoint]; gauges have no start time. *)
Record npoint := NP { np_attrs : mattrs; np_start : option Z; np_time : Z; np_value : Z }.

(** ** Sum: aggregation.py 165-403 *)
Record sum_agg := SumA {
  sa_attrs : mattrs;
  sa_mono : bool;                 (* _instrument_is_monotonic *)
  sa_instr : temporality;         (* _instrument_aggregation_temporality *)
  sa_start : Z;                   (* _start_time_unix_nano *)
  sa_value : option Z;            (* _value *)
  sa_prev_start : Z;              (* _previous_collection_start_nano *)
  sa_prev : Z                     (* _previous_value *)
}.
(** [__init__] 166-185 *)
Definition sum_new (attrs : mattrs) (mono : bool) (instr : temporality) (start : Z) : sum_agg :=
  SumA attrs mono instr start None start 0.
(** [aggregate] 187-196 *)
Definition sum_aggregate (a : sum_agg) (v : Z) : sum_agg :=
  let cur := match sa_value a with None => 0 | Some x => x end in
  SumA (sa_attrs a) (sa_mono a) (sa_instr a) (sa_start a) (Some (cur + v)) (sa_prev_start a) (sa_prev a).
(** [collect] 198-403 *)
Definition sum_collect (a : sum_agg) (t : temporality) (now : Z) : sum_agg * option npoint :=
  let value := sa_value a in
  let upd prev_start prev :=
    SumA (sa_attrs a) (sa_mono a) (sa_instr a) (sa_start a) None prev_start prev in
  let point start v := Some (NP (sa_attrs a) (Some start) now v) in
  if is_delta (sa_instr a) then
    if is_delta t then
      (upd now (sa_prev a),
       match value with None => None | Some v => point (sa_prev_start a) v end)
    else
      let v := match value with None => 0 | Some v => v end in
      let prev := v + sa_prev a in
      (upd (sa_prev_start a) prev, point (sa_start a) prev)
  else
    match value with
    | None => (upd (sa_prev_start a) (sa_prev a), None)
    | Some v =>
        if is_delta t then (upd now v, point (sa_prev_start a) (v - sa_prev a))
        else (upd (sa_prev_start a) (sa_prev a), point (sa_start a) v)
    end.

(** ** Last value: aggregation.py 406-446 *)
Record last_agg := LastA { la_attrs : mattrs; la_value : option Z }.
Definition last_new (attrs : mattrs) : last_agg := LastA attrs None.
Definition last_aggregate (a : last_agg) (v : Z) : last_agg := LastA (la_attrs a) (Some v).
Definition last_collect (a : last_agg) (t : temporality) (now : Z) : last_agg * option npoint :=
  match la_value a with
  | None => (a, None)
  | Some v => (LastA (la_attrs a) None, Some (NP (la_attrs a) None now v))
  end.

(** ** Explicit bucket histogram: aggregation.py 467-612 *)

(** Integers with the two infinities that minimum and maximum start from. *)
Inductive ext := NegInf | Fin (z : Z) | PosInf.
Definition ext_ltb (a b : ext) : bool :=
  match a, b with
  | NegInf, NegInf => false | NegInf, _ => true
  | Fin x, Fin y => Z.ltb x y | Fin _, PosInf => true | Fin _, NegInf => false
  | PosInf, _ => false
  end.
(** [min(a, b)] and [max(a, b)] *)
Definition ext_min (a b : ext) : ext := if ext_ltb b a then b else a.
Definition ext_max (a b : ext) : ext := if ext_ltb a b then b else a.

(** [bisect.bisect_left(a, x)]: the standard library's loop over [lo, hi), with fuel
    [length a] (each round shrinks the interval). *)
Fixpoint bisect_loop (fuel : nat) (a : list Z) (x : Z) (lo hi : nat) : nat :=
  match fuel with
  | O => lo
  | S f =>
      if Nat.ltb lo hi then
        let mid := Nat.div (lo + hi) 2 in
        if Z.ltb (nth mid a 0) x then bisect_loop f a x (S mid) hi else bisect_loop f a x lo mid
      else lo
  end.
Definition bisect_left (a : list Z) (x : Z) : nat := bisect_loop (length a) a x 0 (length a).

(** [l[i] += 1] for an index inside the list *)
Fixpoint incr_nth (l : list Z) (i : nat) : list Z :=
  match l, i with
  | [], _ => []
  | x :: l', O => (x + 1) :: l'
  | x :: l', S j => x :: incr_nth l' j
  end.
(** [sum(l)] *)
Definition zsum (l : list Z) : Z := fold_left Z.add l 0.
(** [[a + b for (a, b) in zip(l, m)]] *)
Fixpoint zip_add (l m : list Z) : list Z :=
  match l, m with x :: l', y :: m' => (x + y) :: zip_add l' m' | _, _ => [] end.

(** point.py [HistogramDataPoint] *)
Record hpoint := HP {
  hp_attrs : mattrs; hp_start : Z; hp_time : Z; hp_count : Z; hp_sum : Z;
  hp_counts : list Z; hp_bounds : list Z; hp_min : ext; hp_max : ext
}.
Record hist_agg := HistA {
  ha_attrs : mattrs; ha_instr : temporality; ha_start : Z; ha_bounds : list Z; ha_record : bool;
  ha_value : option (list Z); ha_min : ext; ha_max : ext; ha_sum : Z;
  ha_prev : option (list Z); ha_prev_min : ext; ha_prev_max : ext; ha_prev_sum : Z;
  ha_prev_start : Z
}.
(** [__init__] 468-505 (the boundaries already chosen) *)
Definition hist_new (attrs : mattrs) (instr : temporality) (start : Z) (bounds : list Z) (record : bool)
  : hist_agg :=
  HistA attrs instr start bounds record None PosInf NegInf 0 None PosInf NegInf 0 start.
(** [_get_empty_bucket_counts] 507-508 *)
Definition empty_counts (bounds : list Z) : list Z := repeat 0 (S (length bounds)).
(** [aggregate] 510-527 *)
Definition hist_aggregate (a : hist_agg) (v : Z) : hist_agg :=
  let value := match ha_value a with None => empty_counts (ha_bounds a) | Some c => c end in
  let mn := if ha_record a then ext_min (ha_min a) (Fin v) else ha_min a in
  let mx := if ha_record a then ext_max (ha_max a) (Fin v) else ha_max a in
  HistA (ha_attrs a) (ha_instr a) (ha_start a) (ha_bounds a) (ha_record a)
    (Some (incr_nth value (bisect_left (ha_bounds a) v))) mn mx (ha_sum a + v)
    (ha_prev a) (ha_prev_min a) (ha_prev_max a) (ha_prev_sum a) (ha_prev_start a).
(** [collect] 529-612 *)
Definition hist_collect (a : hist_agg) (t : temporality) (now : Z) : hist_agg * option hpoint :=
  let upd prev pmin pmax psum pstart :=
    HistA (ha_attrs a) (ha_instr a) (ha_start a) (ha_bounds a) (ha_record a)
      None PosInf NegInf 0 prev pmin pmax psum pstart in
  if is_delta (ha_instr a) then
    if is_delta t then
      (upd (ha_prev a) (ha_prev_min a) (ha_prev_max a) (ha_prev_sum a) now,
       match ha_value a with
       | None => None
       | Some c => Some (HP (ha_attrs a) (ha_prev_start a) now (zsum c) (ha_sum a) c (ha_bounds a)
                            (ha_min a) (ha_max a))
       end)
    else
      let value := match ha_value a with None => empty_counts (ha_bounds a) | Some c => c end in
      let prev0 := match ha_prev a with None => empty_counts (ha_bounds a) | Some c => c end in
      let prev := zip_add value prev0 in
      let pmin := ext_min (ha_min a) (ha_prev_min a) in
      let pmax := ext_max (ha_max a) (ha_prev_max a) in
      let psum := ha_sum a + ha_prev_sum a in
      (upd (Some prev) pmin pmax psum (ha_prev_start a),
       Some (HP (ha_attrs a) (ha_start a) now (zsum prev) psum prev (ha_bounds a) pmin pmax))
  else (upd (ha_prev a) (ha_prev_min a) (ha_prev_max a) (ha_prev_sum a) (ha_prev_start a), None).

(** ** The aggregations as one type *)
Inductive point := NumberPoint (p : npoint) | HistogramPoint (p : hpoint).
(** aggregation.py 151-162 [_DropAggregation] is [AgDrop]. *)
Inductive agg := AgSum (a : sum_agg) | AgLast (a : last_agg) | AgHist (a : hist_agg) | AgDrop.
Definition aggregate (a : agg) (v : Z) : agg :=
  match a with
  | AgSum a => AgSum (sum_aggregate a v)
  | AgLast a => AgLast (last_aggregate a v)
  | AgHist a => AgHist (hist_aggregate a v)
  | AgDrop => AgDrop
  end.
Definition collect (a : agg) (t : temporality) (now : Z) : agg * option point :=
  match a with
  | AgSum a => let (a', p) := sum_collect a t now in (AgSum a', option_map NumberPoint p)
  | AgLast a => let (a', p) := last_collect a t now in (AgLast a', option_map NumberPoint p)
  | AgHist a => let (a', p) := hist_collect a t now in (AgHist a', option_map HistogramPoint p)
  | AgDrop => (AgDrop, None)
  end.

(** ** Instruments *)
Inductive ikind :=
  ICounter | IUpDownCounter | IObservableCounter | IObservableUpDownCounter
| IHistogram | IObservableGauge | IGauge.
Definition synchronous (k : ikind) : bool :=
  match k with ICounter | IUpDownCounter | IHistogram | IGauge => true | _ => false end.

(** instrument.py 160-296: [Counter.add], [UpDownCounter.add], [Histogram.record], [Gauge.set]:
    the amount that becomes a measurement, if any.  The warning is not modelled. *)
Definition offered (k : ikind) (amount : Z) : option Z :=
  match k with
  | ICounter | IHistogram => if Z.ltb amount 0 then None else Some amount
  | _ => Some amount
  end.

(** The temporality that Sum, ExplicitBucketHistogram and ExponentialBucketHistogram aggregations
    give the instrument: aggregation.py 1333-1339, 1382-1388, 1421-1427. *)
Definition instr_temporality (k : ikind) : temporality := if synchronous k then DELTA else CUMULATIVE.

(** aggregation.py 448-464 *)
Definition DEFAULT_BOUNDARIES : list Z :=
  [0; 5; 10; 25; 50; 75; 100; 250; 500; 750; 1000; 2500; 5000; 7500; 10000].

(** The aggregation of a view (or of a reader for a class of instruments). *)
Inductive aggregation :=
  Default | Sum | LastValue | Drop
| ExplicitBuckets (boundaries : option (list Z)) (record_min_max : bool).

(** [DefaultAggregation._create_aggregation] 1232-1312, [SumAggregation] 1412-1435,
    [LastValueAggregation] 1446-1458, [DropAggregation] 1464-1475,
    [ExplicitBucketHistogramAggregation] 1373-1403.  [advisory] is the histogram's own boundaries.
    Simplifications: 1390-1394 stores the boundaries it chose in the (shared) aggregation object, and on an
    instrument without advisory (not a histogram) 1392 raises AttributeError when the boundaries are None.  Here each use of an
    object without boundaries chooses anew, and takes the default where it raises; Model_Boundaries follows the objects. *)
Definition chosen (b advisory : option (list Z)) : list Z :=
  match b with
  | Some b => b
  | None => match advisory with Some (x :: l) => x :: l | _ => DEFAULT_BOUNDARIES end
  end.
Definition create (g : aggregation) (k : ikind) (advisory : option (list Z)) (attrs : mattrs) (start : Z) : agg :=
  match g with
  | Default =>
      match k with
      | ICounter => AgSum (sum_new attrs true DELTA start)
      | IUpDownCounter => AgSum (sum_new attrs false DELTA start)
      | IObservableCounter => AgSum (sum_new attrs true CUMULATIVE start)
      | IObservableUpDownCounter => AgSum (sum_new attrs false CUMULATIVE start)
      | IHistogram =>
          AgHist (hist_new attrs DELTA start
                    (match advisory with Some b => b | None => DEFAULT_BOUNDARIES end) true)
      | IObservableGauge | IGauge => AgLast (last_new attrs)
      end
  | Sum => AgSum (sum_new attrs (match k with ICounter | IObservableCounter => true | _ => false end)
                    (instr_temporality k) start)
  | LastValue => AgLast (last_new attrs)
  | Drop => AgDrop
  | ExplicitBuckets b r => AgHist (hist_new attrs (instr_temporality k) start (chosen b advisory) r)
  end.

(** ** One aggregation's history: what happens to it under its lock. *)
Inductive mop := Measure (v : Z) | Collect (now : Z).
(** An aggregation from its creation through a history: its state and what each collection
    returned. *)
Section Alone.
Context {A D : Type} (agg1 : A -> Z -> A) (col1 : A -> Z -> A * option D).
Definition run_alone (a : A) (h : list mop) : A * list (option D) :=
  fold_left (fun s o => match o with
                        | Measure v => (agg1 (fst s) v, snd s)
                        | Collect now => let (a', p) := col1 (fst s) now in (a', snd s ++ [p])
                        end) h (a, []).
End Alone.
(** The reader's temporality is fixed: metric_reader_storage.py 149-151. *)
Definition agg_run (t : temporality) (a : agg) (h : list mop) : agg * list (option point) :=
  run_alone aggregate (fun a now => collect a t now) a h.

(** Calls on a synchronous instrument (with one set of attributes) and collections of one reader. *)
Inductive icall := Call (amount : Z) | Read (now : Z).
Definition calls_ops (k : ikind) (h : list icall) : list mop :=
  flat_map (fun c => match c with
                     | Call z => match offered k z with Some v => [Measure v] | None => [] end
                     | Read now => [Collect now]
                     end) h.
