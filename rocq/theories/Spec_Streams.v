(** Specification vocabulary: what a request should say about one stream (an instrument as one view sees it), for
    instruments that are called and for instruments that are observed. *)
From Verif Require Export Spec_Pipeline.
Local Open Scope Z_scope.

(** A measurement: the attributes, the amount, the time. *)
Definition measurement := (option mattrs * Z * Z)%type.
Definition m_attrs (m : measurement) : option mattrs := fst (fst m).
Definition m_amount (m : measurement) : Z := snd (fst m).
Definition m_time (m : measurement) : Z := snd m.

Section Streams.
Variable float_int : Z -> option Z.
Variable obj_hash : N -> bool.
Variable obj : N -> instr.

(** Counters and histograms take no negative amounts. *)
Definition takes (k : ikind) (z : Z) : bool := match k with ICounter | IHistogram => 0 <=? z | _ => true end.
(** What the callbacks of [i] observed, among all that was observed in a collection. *)
Definition observed (i : N) (obs : list observation) (now : Z) : list measurement :=
  flat_map (fun ob : observation => let '(j, attrs, z) := ob in if N.eqb j i then [(attrs, z, now)] else []) obs.
(** The measurements of [i] that reader [r] gets in a call: amounts go to all readers, observations to the one that
    collects. *)
Definition measured_in (r : nat) (i : N) (c : pcall) : list measurement :=
  match c with
  | PCall j attrs z now => if N.eqb j i && takes (in_kind (obj i)) z then [(attrs, z, now)] else []
  | PCollect r' obs _ now => if Nat.eqb r' r then observed i obs now else []
  end.
Definition gets (r : nat) (i : N) (h : list pcall) : list measurement := flat_map (measured_in r i) h.

(** The attribute keys that the view keeps; [None]: all. *)
Variable ks : option (list str).
Notation same_attributes := (same_stream float_int obj_hash ks).

(** All the amounts among some measurements whose attributes are, as far as the view keeps them, equal to [a]. *)
Inductive with_attrs (a : option mattrs) : list measurement -> list Z -> Prop :=
| wa_nil : with_attrs a [] []
| wa_take m ms l : same_attributes a (m_attrs m) -> with_attrs a ms l -> with_attrs a (m :: ms) (m_amount m :: l)
| wa_skip m ms l : ~ same_attributes a (m_attrs m) -> with_attrs a ms l -> with_attrs a (m :: ms) l.
(** [reps] has every set of (kept) attributes that occurs, once. *)
Definition each_attrs (ms : list measurement) (reps : list (option mattrs)) : Prop :=
  ForallOrdPairs (fun a b => ~ same_attributes a b) reps
  /\ (forall a, In a reps -> exists m, In m ms /\ same_attributes a (m_attrs m))
  /\ (forall m, In m ms -> exists a, In a reps /\ same_attributes a (m_attrs m)).
(** The time of the first measurement with attributes [a]. *)
Definition first_at (a : option mattrs) (ms : list measurement) (s : Z) : Prop :=
  exists ms1 m ms2, ms = ms1 ++ m :: ms2 /\ same_attributes a (m_attrs m) /\ m_time m = s /\ with_attrs a ms1 [].
(** The start of an interval that follows the calls [h0] and in which there were the measurements [cur]: the reader's
    last collection if there were such attributes before it, otherwise the first measurement with them. *)
Definition interval_start (r : nat) (i : N) (a : option mattrs) (h0 : list pcall) (cur : list measurement) (s : Z) : Prop :=
  (exists l h1 c, with_attrs a (gets r i h0) l /\ l <> [] /\ h0 = h1 ++ [c] /\ collects r c s)
  \/ (with_attrs a (gets r i h0) [] /\ first_at a cur s).
(** What reader [r] was last told about the observable instrument [i] with attributes [a]: the total of what was observed
    up to the last collection before which something was observed, and its time. *)
Definition last_told (r : nat) (i : N) (a : option mattrs) (h0 : list pcall) (told : option (Z * Z)) : Prop :=
  (with_attrs a (gets r i h0) [] /\ told = None)
  \/ exists h1 part obs now h2 l,
       h0 = h1 ++ part ++ PCollect r obs false now :: h2 /\ since r (h1 ++ part) h1 part
       /\ with_attrs a (gets r i part ++ observed i obs now) l /\ l <> [] /\ with_attrs a (gets r i h2) []
       /\ told = Some (total l, now).

(** The attributes a point shows. *)
Definition shown (a : option mattrs) : mattrs :=
  match ks with
  | None => given a
  | Some l => filter (fun kv => if in_dec str_eq_dec (fst kv) l then true else false) (given a)
  end.
Definition number_is (now : Z) (a : option mattrs) (s v : Z) (p : pb_num) : Prop :=
  attributes_read (shown a) (pn_attrs p) /\ pn_start p = s /\ pn_time p = now /\ pn_value p = NInt v.
(** [extremes]: minimum and maximum are recorded.  If not, the point has plus infinity as its minimum and minus infinity
    as its maximum ([infty true], [infty false]). *)
Definition histogram_is (infty : bool -> Z) (to_float : Z -> option Z) (bounds : list Z) (extremes : bool) (now : Z) (a : option mattrs) (s : Z) (l : list Z) (p : pb_hist) : Prop :=
  attributes_read (shown a) (ph_attrs p) /\ ph_start p = s /\ ph_time p = now
  /\ ph_count p = Z.of_nat (length l) /\ to_float (total l) = Some (ph_sum p)
  /\ length (ph_buckets p) = S (length bounds)
  /\ (forall n, (n <= length bounds)%nat -> nth n (ph_buckets p) 0 = count_in (in_bucket bounds n) l)
  /\ Forall2 (fun b f => to_float b = Some f) bounds (ph_bounds p)
  /\ (extremes = true ->
      (exists x f, In x l /\ (forall y, In y l -> x <= y) /\ to_float x = Some f /\ ph_min p = Some f)
      /\ (exists x f, In x l /\ (forall y, In y l -> y <= x) /\ to_float x = Some f /\ ph_max p = Some f))
  /\ (extremes = false -> ph_min p = Some (infty true) /\ ph_max p = Some (infty false)).
End Streams.

Section Views.
Variable fnmatch : str -> str -> bool.
Context {Scope : Type}.
Variable the_scope : Scope -> scope.
Variable obj : N -> instr.
Variable scope_of : N -> Scope.
Variable views : list (@view aggregation).
Notation applies := (applies fnmatch (fun s => sco_name (the_scope s)) (fun s => sco_version (the_scope s)) (fun s => sco_schema (the_scope s)) obj scope_of wants_buckets).

(** The views through which an instrument is seen: those that apply, or the one that changes nothing. *)
Definition seen_through (i : N) (v : @view aggregation) : Prop :=
  (In v views /\ applies i v)
  \/ ((forall v', In v' views -> ~ applies i v') /\ v_name v = None /\ v_descr v = None /\ v_keys v = None /\ v_agg v = Default).
(** The aggregation: the view's, or else the one the reader has for the kind of instrument. *)
Definition asked (rd : @reader aggregation) (i : N) (v : @view aggregation) (g : aggregation) : Prop :=
  (v_agg v <> Default /\ g = v_agg v) \/ (v_agg v = Default /\ g = rd_aggregation rd (in_kind (obj i))).
(** What a kind of instrument gives with it: a sum, a gauge (the last value), or a histogram. *)
Definition gives_sum (k : ikind) (g : aggregation) : Prop :=
  g = Sum \/ (g = Default /\ In k [ICounter; IUpDownCounter; IObservableCounter; IObservableUpDownCounter]).
Definition gives_gauge (k : ikind) (g : aggregation) : Prop := g = LastValue \/ (g = Default /\ In k [IGauge; IObservableGauge]).
Definition gives_histogram (x : instr) (g : aggregation) (bounds : list Z) (extremes : bool) : Prop :=
  g = ExplicitBuckets (Some bounds) extremes
  \/ (g = Default /\ in_kind x = IHistogram /\ extremes = true
      /\ (in_adv x = Some bounds \/ (in_adv x = None /\ bounds = standard_boundaries))).

(** The metric of an instrument, seen through a view, in a request. *)
Definition renamed (n : option str) (otherwise : str) : str := match n with Some (c :: s) => c :: s | _ => otherwise end.
Definition metric_in (res : resource) (i : N) (v : @view aggregation) (req : list (pb_group pb_metric)) (d : pb_data) : Prop :=
  exists g sg m, req = [g] /\ resource_read res g /\ In sg (pr_scopes g) /\ scope_read (Some (the_scope (scope_of i))) sg /\ In m (pg_items sg)
  /\ pm_name m = renamed (v_name v) (in_name (obj i)) /\ pm_descr m = renamed (v_descr v) (in_descr (obj i)) /\ pm_unit m = in_unit (obj i)
  /\ pm_data m = d.
End Views.
