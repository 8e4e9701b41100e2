(** Specification vocabulary: the exemplars that the data points of a collection should have, in terms of the program's calls. *)
From Verif Require Export Spec_Exemplar Spec_Streams Model_ExemplarPipeline.
Local Open Scope Z_scope.

(** The span a measurement was made in, as the program meant it: that of the context it gave, otherwise the current one. *)
Definition span_meant (c : mcall) : option (N * N * bool) :=
  match mc_given c with
  | Some EmptyContext => None
  | Some (SomeContext s) => s
  | None => match mc_current c with EmptyContext => None | SomeContext s => s end
  end.
Definition as_meant (c : mcall) : meas := Meas (mc_value c) (mc_time c) (mc_attrs c) (span_meant c).
(** The program gave an empty context, to measure outside of the current span. *)
Definition left_span (c : mcall) : Prop := mc_given c = Some EmptyContext /\ exists s, mc_current c = SomeContext (Some s).

Section Exemplars.
Variable float_int : Z -> option Z.
Variable obj_hash : N -> bool.
Variable obj : N -> instr.
Variable the_call : N -> mcall.
Notation attrs_of k := (mc_attrs (the_call k)).

(** Calls that the API allows (compare [api_call]). *)
Definition e_allowed (c : ecall) : Prop :=
  match c with
  | ECall i k _ => synchronous (in_kind (obj i)) = true /\ usable float_int obj_hash None (attrs_of k)
  | ECollect _ obs _ _ =>
      Forall (fun ob : N * N => synchronous (in_kind (obj (fst ob))) = false /\ usable float_int obj_hash None (attrs_of (snd ob))) obs
  end.
(** The measurements of [i] that reader [r] gets in a call: those made by calls go to all readers, observations to the one
    that collects.  Counters and histograms take no negative amounts. *)
Definition e_observed (i : N) (obs : list (N * N)) : list N := map snd (filter (fun ob => N.eqb (fst ob) i) obs).
Definition e_measured (r : nat) (i : N) (c : ecall) : list N :=
  match c with
  | ECall j k _ => if N.eqb j i && takes (in_kind (obj i)) (mc_value (the_call k)) then [k] else []
  | ECollect r' obs _ _ => if Nat.eqb r' r then e_observed i obs else []
  end.
Definition e_gets (r : nat) (i : N) (h : list ecall) : list N := flat_map (e_measured r i) h.
(** [part] are the calls after the last completed collection of the reader. *)
Definition e_since (r : nat) (h h0 part : list ecall) : Prop :=
  h = h0 ++ part /\ (forall obs now, ~ In (ECollect r obs false now) part)
  /\ (h0 = [] \/ exists h1 obs now, h0 = h1 ++ [ECollect r obs false now]).

(** The measurements with attributes that are, as far as the view keeps them, equal to [a]; each set of attributes once. *)
Variable ks : option (list str).
Notation same_attributes := (same_stream float_int obj_hash ks).
Inductive e_with (a : option mattrs) : list N -> list N -> Prop :=
| ew_nil : e_with a [] []
| ew_take k ms l : same_attributes a (attrs_of k) -> e_with a ms l -> e_with a (k :: ms) (k :: l)
| ew_skip k ms l : ~ same_attributes a (attrs_of k) -> e_with a ms l -> e_with a (k :: ms) l.
Definition e_each (ms : list N) (reps : list (option mattrs)) : Prop :=
  ForallOrdPairs (fun a b => ~ same_attributes a b) reps
  /\ (forall a, In a reps -> exists k, In k ms /\ same_attributes a (attrs_of k))
  /\ (forall k, In k ms -> exists a, In a reps /\ same_attributes a (attrs_of k)).

(** The point, with attributes [a], and its exemplars after the measurements [l] since the last collection: taken from different
    ones of those that the filter lets through; a histogram has the last one of each bucket, in the order of the buckets, others
    have one, if there is one to take. *)
Definition exemplars_are (f : efilter) (a : option mattrs) (l : list N) (p : point) (es : list exemplar) : Prop :=
  let offered := filter (lets_through f) (map (fun k => as_meant (the_call k)) l) in
  taken_with (span_rule offered) (shown ks a) offered es
  /\ match p with
     | NumberPoint p => np_attrs p = shown ks a /\ length es = Nat.min 1 (length offered)
     | HistogramPoint p =>
         hp_attrs p = shown ks a
         /\ (sorted (hp_bounds p) ->
             Forall2 (exemplar_of (shown ks a))
               (flat_map (fun n => match last_with (fun m => in_bucket (hp_bounds p) n (me_value m)) offered with Some m => [m] | None => [] end)
                  (seq 0 (S (length (hp_bounds p))))) es)
     end.
End Exemplars.

(** A sum, a last value, or the histogram of an instrument that is called. *)
Definition has_points (x : instr) (g : aggregation) : Prop :=
  match g with
  | Drop => False
  | ExplicitBuckets _ _ => synchronous (in_kind x) = true
  | _ => True
  end.
(** Cumulative readers get points also for attributes that were not measured again: of the sums and histograms of instruments that
    are called. *)
Definition gets_old (x : instr) (g : aggregation) (t : temporality) : bool :=
  synchronous (in_kind x) && match t with DELTA => false | _ => true end
  && match g, in_kind x with LastValue, _ | Default, IGauge => false | _, _ => true end.

(** What the aggregation makes of an instrument, and which points that has. *)
Definition expected_shape (x : instr) (g : aggregation) : shape :=
  match g with
  | Sum => ShSum
  | LastValue => ShGauge
  | ExplicitBuckets _ _ => ShHistogram
  | Drop => ShDrop
  | Default => match in_kind x with IHistogram => ShHistogram | IGauge | IObservableGauge => ShGauge | _ => ShSum end
  end.
Definition fits_shape (sh : shape) (p : point) : Prop :=
  match sh, p with ShSum, NumberPoint _ | ShGauge, NumberPoint _ | ShHistogram, HistogramPoint _ => True | _, _ => False end.
Definition only_increases (k : ikind) : bool := match k with ICounter | IObservableCounter => true | _ => false end.
(** A metric for [i], as [v] sees it, with these points is in what a collection delivers. *)
Definition e_reports {Scope : Type} `{EqDec Scope} (obj : N -> instr) (scope_of : N -> Scope) (out : dict Scope (list (@metric (point * list exemplar))))
    (i : N) (v : @view aggregation) (g : aggregation) (t : temporality) (points : list (point * list exemplar)) : Prop :=
  exists l m, dget (scope_of i) out = Some l /\ In m l
  /\ m_name m = renamed (v_name v) (in_name (obj i)) /\ m_descr m = renamed (v_descr v) (in_descr (obj i)) /\ m_unit m = in_unit (obj i)
  /\ m_shape m = expected_shape (obj i) g /\ m_monotonic m = only_increases (in_kind (obj i)) /\ m_temporality m = t /\ m_points m = points.

(** ** In a request *)
(** The exemplar of a message: attributes, value and time, and both ids (8 and 16 bytes) or none. *)
Definition exemplar_message (e : exemplar) (m : pb_exemplar) : Prop :=
  attributes_read (match ex_filtered e with Some d => d | None => [] end) (px_attrs m)
  /\ px_time m = Model_Exemplar.ex_time e /\ px_value m = NInt (Model_Exemplar.ex_value e)
  /\ match ex_span_id e, ex_trace_id e with
     | Some s, Some t => id_read 8 (Some (Z.of_N s)) (px_span m) /\ id_read 16 (Some (Z.of_N t)) (px_trace m)
     | _, _ => px_span m = [] /\ px_trace m = []
     end.
(** Data points of a message *)
Inductive message_point := NumberMessage (p : pb_num) | HistogramMessage (p : pb_hist).
Definition message_is (to_float : Z -> option Z) (with_start : bool) (p : point) (es : list exemplar) (m : message_point) : Prop :=
  match p, m with
  | NumberPoint p, NumberMessage m =>
      attributes_read (np_attrs p) (pn_attrs m) /\ pn_value m = NInt (np_value p) /\ pn_time m = np_time p
      /\ pn_start m = (if with_start then match np_start p with Some s => s | None => 0 end else 0)
      /\ Forall2 exemplar_message es (pn_exemplars m)
  | HistogramPoint p, HistogramMessage m =>
      attributes_read (hp_attrs p) (ph_attrs m) /\ ph_count m = hp_count p /\ to_float (hp_sum p) = Some (ph_sum m) /\ ph_buckets m = hp_counts p
      /\ Forall2 (fun b d => to_float b = Some d) (hp_bounds p) (ph_bounds m) /\ ph_time m = hp_time p /\ ph_start m = hp_start p
      /\ (exists d, ph_min m = Some d /\ forall z, hp_min p = Fin z -> to_float z = Some d) /\ (exists d, ph_max m = Some d /\ forall z, hp_max p = Fin z -> to_float z = Some d)
      /\ Forall2 exemplar_message es (ph_exemplars m)
  | _, _ => False
  end.
(** The data of a metric with these points *)
Definition data_is (to_float : Z -> option Z) (sh : shape) (t : temporality) (monotonic : bool) (points : list (point * list exemplar)) (d : pb_data) : Prop :=
  exists ms, Forall2 (fun pe m => message_is to_float (match sh with ShSum => true | _ => false end) (fst pe) (snd pe) m) points ms
  /\ match sh with
     | ShSum => exists l, ms = map NumberMessage l /\ d = PbSum l (temporality_code t) monotonic
     | ShGauge => exists l, ms = map NumberMessage l /\ d = PbGauge l
     | ShHistogram => exists l, ms = map HistogramMessage l /\ d = PbHistogram l (temporality_code t)
     | _ => False
     end.

(** ** The same calls without regard to exemplars (Model_Pipeline): amounts and attributes *)
Definition plain_call (the_call : N -> mcall) (c : ecall) : pcall :=
  match c with
  | ECall i k now => PCall i (mc_attrs (the_call k)) (mc_value (the_call k)) now
  | ECollect r obs timeout now => PCollect r (map (fun ob => (fst ob, mc_attrs (the_call (snd ob)), mc_value (the_call (snd ob)))) obs) timeout now
  end.
Definition without_exemplars (m : @metric (point * list exemplar)) : @metric point :=
  Metric (m_name m) (m_descr m) (m_unit m) (m_shape m) (m_temporality m) (m_monotonic m) (map fst (m_points m)).
