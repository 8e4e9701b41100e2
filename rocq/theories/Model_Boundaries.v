(** Where the bucket boundaries of a histogram come from.  A view or a reader names an aggregation object; an
    [ExplicitBucketHistogramAggregation] that was made without boundaries takes those of the instrument it is first used for, and keeps them.
    So the storage of the readers (Model_Storage) is followed here together with the state of these objects.

    Source: opentelemetry-sdk/src/opentelemetry/sdk/metrics/_internal/aggregation.py 1206-1475, _view_instrument_match.py 36-134,
    metric_reader_storage.py 79-128, measurement_consumer.py 58-145. *)
From Verif Require Export Model_Pipeline.
Local Open Scope Z_scope.

(** What a view or a reader asks for; [object] is the identity of an ExplicitBucketHistogramAggregation object (1366-1372). *)
Inductive conf := CfDefault | CfSum | CfLastValue | CfDrop | CfBuckets (object : nat) (record_min_max : bool).
(** The attribute [_boundaries] of these objects. *)
Definition heap := nat -> option (list Z).
Definition heap_set (o : nat) (b : list Z) (hp : heap) : heap := fun o' => if Nat.eqb o o' then Some b else hp o'.
(** isinstance(.., DefaultAggregation), isinstance(.., ExplicitBucketHistogramAggregation) *)
Definition cf_default (g : conf) : bool := match g with CfDefault => true | _ => false end.
Definition cf_explicit (g : conf) : bool := match g with CfBuckets _ _ => true | _ => false end.

Section Boundaries.
Variable float_int : Z -> option Z.
Variable obj_hash : N -> bool.
Variable fnmatch : str -> str -> bool.
Context {Scope : Type} `{EqDec Scope}.
Variable the_scope : Scope -> scope.
Variable obj : N -> instr.
Variable scope_of : N -> Scope.
Variable views : list (@view conf).
Variable readers : list (@reader conf).
Notation view_match := (view_match fnmatch (fun s => sco_name (the_scope s)) (fun s => sco_version (the_scope s)) (fun s => sco_schema (the_scope s)) obj scope_of).
Notation agg_for := (agg_for obj cf_default).

(** [_create_aggregation]; [None]: AttributeError, since only histograms have [_advisory] (1392).  1390-1394 stores the boundaries. *)
Definition b_create (hp : heap) (g : conf) (i : N) (attrs : mattrs) (start : Z) : heap * option agg :=
  let k := in_kind (obj i) in
  match g with
  | CfDefault => (hp, Some (create Default k (in_adv (obj i)) attrs start))
  | CfSum => (hp, Some (create Sum k (in_adv (obj i)) attrs start))
  | CfLastValue => (hp, Some (create LastValue k (in_adv (obj i)) attrs start))
  | CfDrop => (hp, Some (create Drop k (in_adv (obj i)) attrs start))
  | CfBuckets o r =>
      match hp o with
      | Some b => (hp, Some (AgHist (hist_new attrs (instr_temporality k) start b r)))
      | None =>
          match k with
          | IHistogram =>
              let b := match in_adv (obj i) with Some (x :: l) => x :: l | _ => DEFAULT_BOUNDARIES end in
              (heap_set o b hp, Some (AgHist (hist_new attrs (instr_temporality k) start b r)))
          | _ => (hp, None)
          end
      end
  end.
(** The class of the aggregation, which metric_reader_storage.py 163-219 looks at *)
Definition b_shape (g : conf) (i : N) : shape :=
  match g with
  | CfDefault => match in_kind (obj i) with IHistogram => ShHistogram | IGauge | IObservableGauge => ShGauge | _ => ShSum end
  | CfSum => ShSum | CfLastValue => ShGauge | CfDrop => ShDrop | CfBuckets _ _ => ShHistogram
  end.

Section Reader.
Variable rd : @reader conf.
(** metric_reader_storage.py 247-295: each match makes an aggregation when it is made (_view_instrument_match.py 45-67), only to look at its class.
    [None]: AttributeError *)
Fixpoint b_handle (hp : heap) (vs : list (@view conf)) (i : N) : heap * option (list (@vmatch conf agg)) :=
  match vs with
  | [] => (hp, Some [])
  | v :: vs' =>
      if negb (view_match v i) then b_handle hp vs' i
      else if negb (compatible obj cf_explicit v i) then b_handle hp vs' i
      else match b_create hp (agg_for rd v i) i [] 0 with
           | (hp1, None) => (hp1, None)
           | (hp1, Some _) =>
               match b_handle hp1 vs' i with
               | (hp2, None) => (hp2, None)
               | (hp2, Some ms) => (hp2, Some (VMch v [] :: ms))
               end
           end
  end.
(** 79-117: nothing is stored if it raises. *)
Definition b_get_or_init (hp : heap) (i : N) (st : @storage conf agg) : heap * option (@storage conf agg * list (@vmatch conf agg)) :=
  match find_matches i st with
  | Some ms => (hp, Some (st, ms))
  | None =>
      match b_handle hp views i with
      | (hp1, None) => (hp1, None)
      | (hp1, Some []) =>
          match b_create hp1 (agg_for rd (DEFAULT_VIEW CfDefault) i) i [] 0 with
          | (hp2, None) => (hp2, None)
          | (hp2, Some _) => let ms := [VMch (DEFAULT_VIEW CfDefault) []] in (hp2, Some (st ++ [(i, ms)], ms))
          end
      | (hp1, Some ms) => (hp1, Some (st ++ [(i, ms)], ms))
      end
  end.
(** _view_instrument_match.py 91-134, for one match after the other; [true]: TypeError (attributes that are not hashable) or AttributeError *)
Fixpoint b_feed (hp : heap) (i : N) (attrs : option mattrs) (v now : Z) (ms : list (@vmatch conf agg)) : heap * (list (@vmatch conf agg) * bool) :=
  match ms with
  | [] => (hp, ([], false))
  | m :: ms' =>
      let sa := stream_attrs (v_keys (vm_view m)) attrs in
      match frozen float_int obj_hash sa with
      | None => (hp, (m :: ms', true))
      | Some k =>
          let (hp1, made) := match find_series k (vm_ser m) with
                             | Some _ => (hp, Some (vm_ser m))
                             | None => let (hp1, a) := b_create hp (agg_for rd (vm_view m) i) i sa now in (hp1, option_map (fun a => vm_ser m ++ [(k, a)]) a)
                             end in
          match made with
          | None => (hp1, (m :: ms', true))
          | Some s =>
              let '(hp2, (ms'', raised)) := b_feed hp1 i attrs v now ms' in
              (hp2, (VMch (vm_view m) (upd_series k (fun a => aggregate a v) s) :: ms'', raised))
          end
      end
  end.
(** metric_reader_storage.py 119-128 *)
Definition b_consume (hp : heap) (i : N) (attrs : option mattrs) (v now : Z) (st : @storage conf agg) : heap * (@storage conf agg * bool) :=
  match b_get_or_init hp i st with
  | (hp1, None) => (hp1, (st, true))
  | (hp1, Some (st1, ms)) =>
      let '(hp2, (ms', raised)) := b_feed hp1 i attrs v now ms in (hp2, (put_matches i ms' st1, raised))
  end.
Fixpoint b_observe (hp : heap) (obs : list observation) (now : Z) (st : @storage conf agg) : heap * (@storage conf agg * bool) :=
  match obs with
  | [] => (hp, (st, false))
  | (i, attrs, v) :: obs' =>
      let '(hp1, (st', raised)) := b_consume hp i attrs v now st in
      if raised then (hp1, (st', true)) else b_observe hp1 obs' now st'
  end.
End Reader.

(** measurement_consumer.py 83-96 *)
Fixpoint b_consume_all (hp : heap) (rs : list (@reader conf)) (i : N) (attrs : option mattrs) (v now : Z) (cs : @consumer conf agg)
  : heap * (@consumer conf agg * bool) :=
  match rs, cs with
  | rd :: rs', st :: cs' =>
      let '(hp1, (st', raised)) := b_consume rd hp i attrs v now st in
      if raised then (hp1, (st' :: cs', true))
      else let '(hp2, (cs'', raised')) := b_consume_all hp1 rs' i attrs v now cs' in (hp2, (st' :: cs'', raised'))
  | _, _ => (hp, (cs, false))
  end.
(** As [cstep] *)
Definition b_step (s : heap * @consumer conf agg) (o : cop) : (heap * @consumer conf agg) * @cout Scope point :=
  let (hp, cs) := s in
  match o with
  | CMeasure i attrs v now =>
      let '(hp1, (cs', raised)) := b_consume_all hp readers i attrs v now cs in ((hp1, cs'), if raised then CRaised else CNothing)
  | CCollect r obs timeout now =>
      match nth_error readers r, nth_error cs r with
      | Some rd, Some st =>
          let '(hp1, (st1, raised)) := b_observe rd hp obs now st in
          if raised || timeout then ((hp1, set_nth r st1 cs), CRaised)
          else let (st2, out) := st_collect obj scope_of cf_default (fun t a now => collect a t now) b_shape rd now st1 [] in
               ((hp1, set_nth r st2 cs), CMetrics r out)
      | _, _ => (s, CNothing)
      end
  end.
(** [settings o]: the boundaries with which the object was made. *)
Variable settings : heap.
Definition b_run (h : list pcall) : (heap * @consumer conf agg) * list (@cout Scope point) :=
  fold_left (fun s o => let (s', out) := b_step (fst s) o in (s', snd s ++ [out])) (flat_map (pcall_ops obj) h)
    ((settings, consumer_init readers), []).
(** What the call after the calls [before] gave. *)
Definition b_output (before h : list pcall) : option (@cout Scope point) :=
  nth_error (snd (b_run h)) (length (flat_map (pcall_ops obj) before)).
End Boundaries.

(** The OTLP exporters ask for one such object for all histograms, unless the environment or their arguments say otherwise
    (otlp-proto-common metrics_encoder/__init__.py 136-171; export/__init__.py 290-327). *)
Definition otlp_default_reader (t : ikind -> temporality) (object : nat) : @reader conf :=
  RD t (fun k => match k with IHistogram => CfBuckets object true | _ => CfDefault end).
