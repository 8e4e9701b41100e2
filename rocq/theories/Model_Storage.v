(** From the instruments to the readers: views, the storage of a reader, and the measurement consumer.

    Source: opentelemetry-sdk/src/opentelemetry/sdk/metrics/_internal/view.py, metric_reader_storage.py and
    measurement_consumer.py. *)
From Verif Require Export Model_View Model_Meter.
Local Open Scope Z_scope.

Section Storage.
(** What the parts below stand on: [frozenset] (see [Model_View]); [fnmatch.fnmatch]; instrumentation scopes
    with their equality; the instrument objects, by identity, and their scopes. *)
Variable float_int : Z -> option Z.
Variable obj_hash : N -> bool.
Variable fnmatch : str -> str -> bool.
Context {Scope : Type} `{EqDec Scope}.
Variable sc_name : Scope -> str.
Variable sc_version : Scope -> option str.
Variable sc_schema : Scope -> str.
Variable obj : N -> instr.
Variable scope_of : N -> Scope.
(** Aggregations: [G] configures one, [A] is its state, [D] a data point.  A reader gives the aggregation
    that [default] stands for, by kind of instrument. *)
Context {G A D : Type}.
Variable default : G.
Variable is_default : G -> bool.           (* isinstance(.., DefaultAggregation) *)
Variable is_explicit : G -> bool.          (* isinstance(.., ExplicitBucketHistogramAggregation) *)
Variable create_agg : G -> N -> mattrs -> Z -> A.
Variable aggregate1 : A -> Z -> A.
Variable collect1 : temporality -> A -> Z -> A * option D.
(** What the class of the aggregation decides: Sum, Gauge, Histogram, ExponentialHistogram, or dropped. *)
Inductive shape := ShSum | ShGauge | ShHistogram | ShExponential | ShDrop.
Variable shape_of : G -> N -> shape.

(** view.py 104-179 *)
Record view := View {
  v_type : option (ikind -> bool); v_iname : option str; v_iunit : option str;
  v_mname : option str; v_mversion : option str; v_mschema : option str;
  v_name : option str; v_descr : option str; v_keys : option (list str); v_agg : G
}.
(** metric_reader_storage.py 58 *)
Definition DEFAULT_VIEW : view := View None (Some []) None None None None None None None default.
(** view.py 183-214 *)
Definition ostr_eqb (a b : option str) : bool :=
  match a, b with Some a, Some b => str_eqb a b | None, None => true | _, _ => false end.
Definition view_match (v : view) (i : N) : bool :=
  if match v_type v with Some t => negb (t (in_kind (obj i))) | None => false end then false
  else if match v_iname v with Some p => negb (fnmatch (in_name (obj i)) p) | None => false end then false
  else if match v_iunit v with Some p => negb (fnmatch (in_unit (obj i)) p) | None => false end then false
  else if match v_mname v with Some n => negb (str_eqb (sc_name (scope_of i)) n) | None => false end then false
  else if match v_mversion v with Some n => negb (ostr_eqb (sc_version (scope_of i)) (Some n)) | None => false end then false
  else if match v_mschema v with Some n => negb (str_eqb (sc_schema (scope_of i)) n) | None => false end then false
  else true.
(** metric_reader_storage.py 297-323 *)
Definition compatible (v : view) (i : N) : bool := negb (negb (synchronous (in_kind (obj i))) && is_explicit (v_agg v)).

(** One reader: its temporality and aggregation per kind of instrument. *)
Record reader := RD { rd_temporality : ikind -> temporality; rd_aggregation : ikind -> G }.

(** A view matched with an instrument (_view_instrument_match.py 36-67). *)
Record vmatch := VMch { vm_view : view; vm_ser : @series A }.
(** 45-67: the aggregation the view, or else the reader, asks for. *)
Definition agg_for (rd : reader) (v : view) (i : N) : G :=
  if is_default (v_agg v) then rd_aggregation rd (in_kind (obj i)) else v_agg v.
Definition or_else (a : option str) (b : str) : str := match a with Some (x :: s) => x :: s | _ => b end.

Definition storage := list (N * list vmatch).
Section Reader.
Variable views : list view.
Variable rd : reader.

Fixpoint find_matches (i : N) (st : storage) : option (list vmatch) :=
  match st with [] => None | (j, ms) :: st' => if N.eqb i j then Some ms else find_matches i st' end.
Fixpoint put_matches (i : N) (ms : list vmatch) (st : storage) : storage :=
  match st with [] => [] | (j, ms') :: st' => if N.eqb i j then (j, ms) :: st' else (j, ms') :: put_matches i ms st' end.
(** 247-295 [_handle_view_instrument_match], without the warnings *)
Fixpoint handle_views (vs : list view) (i : N) : list vmatch :=
  match vs with
  | [] => []
  | v :: vs' =>
      if negb (view_match v i) then handle_views vs' i
      else if negb (compatible v i) then handle_views vs' i
      else VMch v [] :: handle_views vs' i
  end.
(** 79-117 [_get_or_init_view_instrument_match] *)
Definition get_or_init (i : N) (st : storage) : storage * list vmatch :=
  match find_matches i st with
  | Some ms => (st, ms)
  | None =>
      let ms := match handle_views views i with [] => [VMch DEFAULT_VIEW []] | ms => ms end in
      (st ++ [(i, ms)], ms)
  end.
(** 119-128 [consume_measurement]: the matches one after the other; [true] if one raised (TypeError), then the
    rest do not get the measurement.  [now] is time_ns() where a new series is created (one reading for all).
    The exemplar decision is not modelled here. *)
Fixpoint feed (i : N) (attrs : option mattrs) (v now : Z) (ms : list vmatch) : list vmatch * bool :=
  match ms with
  | [] => ([], false)
  | m :: ms' =>
      match vm_consume float_int obj_hash (create_agg (agg_for rd (vm_view m) i) i) aggregate1 (v_keys (vm_view m))
              (vm_ser m) attrs v now with
      | None => (m :: ms', true)
      | Some s => let (ms'', raised) := feed i attrs v now ms' in (VMch (vm_view m) s :: ms'', raised)
      end
  end.
Definition st_consume (i : N) (attrs : option mattrs) (v now : Z) (st : storage) : storage * bool :=
  let (st1, ms) := get_or_init i st in
  let (ms', raised) := feed i attrs v now ms in
  (put_matches i ms' st1, raised).

(** point.py: a Metric.  [m_monotonic] counts for sums only. *)
Record metric := Metric {
  m_name : str; m_descr : str; m_unit : str; m_shape : shape; m_temporality : temporality; m_monotonic : bool;
  m_points : list D
}.
(** 155-219: the metrics of one instrument *)
Fixpoint collect_matches (i : N) (now : Z) (ms : list vmatch) : list vmatch * list metric :=
  match ms with
  | [] => ([], [])
  | m :: ms' =>
      let t := rd_temporality rd (in_kind (obj i)) in
      let (s, points) := vm_collect (collect1 t) (vm_ser m) now in
      let (ms'', metrics) := collect_matches i now ms' in
      let sh := shape_of (agg_for rd (vm_view m) i) i in
      (VMch (vm_view m) s :: ms'',
       match points, sh with
       | [], _ => metrics
       | _, ShDrop => metrics
       | _, _ => Metric (or_else (v_name (vm_view m)) (in_name (obj i))) (or_else (v_descr (vm_view m)) (in_descr (obj i)))
                   (in_unit (obj i)) sh t (match in_kind (obj i) with ICounter | IObservableCounter => true | _ => false end) points
                 :: metrics
       end)
  end.
(** 221-237 *)
Definition add_metrics (sc : Scope) (ms : list metric) (out : dict Scope (list metric)) : dict Scope (list metric) :=
  match ms with
  | [] => out
  | _ => dset sc (match dget sc out with Some l => l ++ ms | None => ms end) out
  end.
(** 130-251 [collect]; an empty list of scopes stands for None *)
Fixpoint st_collect (now : Z) (st : storage) (out : dict Scope (list metric)) : storage * dict Scope (list metric) :=
  match st with
  | [] => ([], out)
  | (i, ms) :: st' =>
      let (ms', metrics) := collect_matches i now ms in
      let (st'', out') := st_collect now st' (add_metrics (scope_of i) metrics out) in
      ((i, ms') :: st'', out')
  end.
End Reader.

(** ** The measurement consumer (measurement_consumer.py 58-145) *)
Section Consumer.
Variable views : list view.
Variable readers : list reader.

Definition consumer := list storage.                 (* one per reader, in the order of the readers *)
Definition consumer_init : consumer := map (fun _ => []) readers.
(** 83-96 [consume_measurement]: the storages one after the other; an exception ends it. *)
Fixpoint consume_all (rs : list reader) (i : N) (attrs : option mattrs) (v now : Z) (cs : consumer) : consumer * bool :=
  match rs, cs with
  | rd :: rs', st :: cs' =>
      let (st', raised) := st_consume views rd i attrs v now st in
      if raised then (st' :: cs', true)
      else let (cs'', raised') := consume_all rs' i attrs v now cs' in (st' :: cs'', raised')
  | _, _ => (cs, false)
  end.
(** What the callbacks yielded in one collection, in order (instrument, attributes, value). *)
Definition observation := (N * option mattrs * Z)%type.
Fixpoint observe (rd : reader) (obs : list observation) (now : Z) (st : storage) : storage * bool :=
  match obs with
  | [] => (st, false)
  | (i, attrs, v) :: obs' =>
      let (st', raised) := st_consume views rd i attrs v now st in
      if raised then (st', true) else observe rd obs' now st'
  end.
Inductive cop :=
| CMeasure (i : N) (attrs : option mattrs) (v : Z) (now : Z)
| CCollect (r : nat) (obs : list observation) (timeout : bool) (now : Z).
Inductive cout := CNothing | CRaised | CMetrics (r : nat) (l : dict Scope (list metric)).
Fixpoint set_nth {B} (n : nat) (x : B) (l : list B) : list B :=
  match n, l with
  | _, [] => []
  | O, _ :: l' => x :: l'
  | S n', y :: l' => y :: set_nth n' x l'
  end.
(** 107-145 [collect]; [timeout]: MetricsTimeoutError is raised after the measurements [obs].  (The deadline is
    tested before the callbacks of an instrument run, so it is those of earlier instruments that took long.) *)
Definition cstep (cs : consumer) (o : cop) : consumer * cout :=
  match o with
  | CMeasure i attrs v now =>
      let (cs', raised) := consume_all readers i attrs v now cs in (cs', if raised then CRaised else CNothing)
  | CCollect r obs timeout now =>
      match nth_error readers r, nth_error cs r with
      | Some rd, Some st =>
          let (st1, raised) := observe rd obs now st in
          if raised || timeout then (set_nth r st1 cs, CRaised)
          else let (st2, out) := st_collect rd now st1 [] in (set_nth r st2 cs, CMetrics r out)
      | _, _ => (cs, CNothing)
      end
  end.
Definition crun (h : list cop) : consumer * list cout :=
  fold_left (fun s o => let (cs, out) := cstep (fst s) o in (cs, snd s ++ [out])) h (consumer_init, []).
End Consumer.
End Storage.
