(** The Prometheus exporter.

    Source: exporter/opentelemetry-exporter-prometheus/src/opentelemetry/exporter/prometheus/_mapping.py (cited as
    "mapping") and __init__.py (cited as "init"). *)
From Verif Require Export Model_Otlp.
Local Open Scope Z_scope.

(** mapping 17: [\[a-zA-Z0-9:\]] *)
Definition name_char (c : N) : bool := is_lower c || is_upper c || is_digit c || N.eqb c 58.
(** mapping 19: [\[a-zA-Z0-9\]] *)
Definition key_char (c : N) : bool := is_lower c || is_upper c || is_digit c.
(** [re.compile("\[^...\]+").sub("_", s)]: every longest run of other characters becomes one underscore. *)
Fixpoint sub_runs (allowed : N -> bool) (in_run : bool) (s : str) : str :=
  match s with
  | [] => []
  | c :: s' =>
      if allowed c then c :: sub_runs allowed false s'
      else if in_run then sub_runs allowed true s' else chr "_" :: sub_runs allowed true s'
  end.
(** mapping 90-93 [_sanitize_name] *)
Definition sanitize_name (s : str) : str := sub_runs name_char false s.

(** mapping 23, 116: [compile("{.*}").sub("", unit)].  After an opening brace: what follows the last closing brace of
    the same line, if there is one *)
Fixpoint after_close (s : str) : option str :=
  match s with
  | [] => None
  | c :: s' =>
      if N.eqb c 10 then None
      else match after_close s' with
           | Some r => Some r
           | None => if N.eqb c (chr "}") then Some s' else None
           end
  end.
Fixpoint strip_annotations (fuel : nat) (s : str) : str :=
  match fuel, s with
  | S fuel', c :: s' =>
      if N.eqb c (chr "{") then match after_close s' with
                                | Some r => strip_annotations fuel' r
                                | None => c :: strip_annotations fuel' s'
                                end
      else c :: strip_annotations fuel' s'
  | _, _ => []
  end.
(** mapping 29-63 *)
Definition UNIT_MAPPINGS : dict str str :=
  map (fun p : string * string => (lit (fst p), lit (snd p)))
  [("d", "days"); ("h", "hours"); ("min", "minutes"); ("s", "seconds"); ("ms", "milliseconds"); ("us", "microseconds");
   ("ns", "nanoseconds"); ("By", "bytes"); ("KiBy", "kibibytes"); ("MiBy", "mebibytes"); ("GiBy", "gibibytes");
   ("TiBy", "tibibytes"); ("KBy", "kilobytes"); ("MBy", "megabytes"); ("GBy", "gigabytes"); ("TBy", "terabytes");
   ("m", "meters"); ("V", "volts"); ("A", "amperes"); ("J", "joules"); ("W", "watts"); ("g", "grams");
   ("Cel", "celsius"); ("Hz", "hertz"); ("1", ""); ("%", "percent")]%string.
(** mapping 67-75 *)
Definition PER_UNIT_MAPPINGS : dict str str :=
  map (fun p : string * string => (lit (fst p), lit (snd p)))
  [("s", "second"); ("m", "minute"); ("h", "hour"); ("d", "day"); ("w", "week"); ("mo", "month"); ("y", "year")]%string.
Definition dget_or (d : dict str str) (k : str) : str := match dget k d with Some v => v | None => k end.
Definition is_underscore (c : N) : bool := N.eqb c (chr "_").
(** mapping 107-137 *)
Definition map_unit (unit0 : str) : str :=
  let unit := strip_annotations (length unit0) unit0 in
  match dget unit UNIT_MAPPINGS with
  | Some u => u
  | None =>
      let plain := strip is_underscore (sanitize_name unit) in
      match split1 (chr "/") unit with
      | (_, None) => plain
      | (a, Some b) =>
          match sanitize_name b with
          | [] => plain
          | bottom0 =>
              let top := dget_or UNIT_MAPPINGS (sanitize_name a) in
              let bottom := dget_or PER_UNIT_MAPPINGS bottom0 in
              match top with [] => lit "per_" ++ bottom | _ => top ++ lit "_per_" ++ bottom end
          end
      end
  end.

(** init 116-129 [_convert_buckets].  A bound is printed with f"{}"; here it stays a number, and None is "+Inf". *)
Definition convert_buckets (bucket_counts : list Z) (explicit_bounds : list number) : list (option number * Z) :=
  rev (fst (fold_left (fun (acc : list (option number * Z) * Z) (bc : option number * Z) =>
                         let total := snd acc + snd bc in ((fst bc, total) :: fst acc, total))
                      (combine (map Some explicit_bounds ++ [None]) bucket_counts) ([], 0))).

Inductive pkind := KCounter | KGauge | KHistogram.
(** The names of the classes of prometheus_client *)
Definition kind_name (k : pkind) : str :=
  match k with KCounter => lit "CounterMetricFamily" | KGauge => lit "GaugeMetricFamily" | KHistogram => lit "HistogramMetricFamily" end.
Inductive pvalue := PVNumber (v : number) | PVHistogram (buckets : list (option number * Z)) (sum : number).
(** A metric family, with the samples given to [add_metric].  What prometheus_client makes of it (suffixes such as
    _total, the text format) is not modelled. *)
Record pfamily := PFam {
  pf_kind : pkind; pf_name : str; pf_doc : str; pf_labels : list str; pf_unit : str; pf_samples : list (list str * pvalue) }.
(** What a scrape yields: families, and the target info with its labels *)
Inductive pyield := YFamily (f : pfamily) | YTarget (labels : dict str str).

(** [sorted(attributes.items())]; the keys are different, so the values are not compared. *)
Fixpoint str_ltb (a b : str) : bool :=
  match a, b with
  | _, [] => false
  | [], _ :: _ => true
  | x :: a', y :: b' => N.ltb x y || (N.eqb x y && str_ltb a' b')
  end.
Fixpoint insert_item (kv : str * pyval) (l : list (str * pyval)) : list (str * pyval) :=
  match l with
  | [] => [kv]
  | x :: l' => if str_ltb (fst kv) (fst x) then kv :: l else x :: insert_item kv l'
  end.
Fixpoint sort_items (l : list (str * pyval)) : list (str * pyval) :=
  match l with [] => [] | x :: l' => insert_item x (sort_items l') end.

Section Prometheus.
(** [str.isdigit] for characters that are not ASCII *)
Variable other_digit : N -> bool.
(** [json.dumps(value, default=str)] *)
Variable dumps : pyval -> str.

Definition isdigit (c : N) : bool := if N.ltb c 128 then is_digit c else other_digit c.
(** mapping 78-87 [sanitize_full_name] and 96-104 [sanitize_attribute] *)
Definition fix_first (s : str) : str := match s with c :: s' => if isdigit c then chr "_" :: s' else s | [] => s end.
Definition sanitize_full_name (s : str) : str := sanitize_name (fix_first s).
Definition sanitize_attribute (s : str) : str := sub_runs key_char false (fix_first s).
(** init 367-371 [_check_value] *)
Definition check_value (v : pyval) : str := match v with PStr _ s => s | _ => dumps v end.

(** init 237-257: the labels and the id of a data point; 296, 316, 336: with the class of the family *)
Definition label_keys (attrs : dict str pyval) : list str := map (fun kv => sanitize_attribute (fst kv)) (sort_items attrs).
Definition label_values (attrs : dict str pyval) : list str := map (fun kv => check_value (snd kv)) (sort_items attrs).
Definition family_id (name descr : str) (keys : list str) (unit : str) (k : pkind) : str :=
  join (lit "|") [join (lit "|") [name; descr; join (lit "%") keys; unit]; kind_name k].
(** init 295-360: the family of the point is made if it is new, and the sample added to it *)
Definition add_sample (name descr : str) (keys : list str) (unit : str) (k : pkind) (sample : list str * pvalue) (fams : dict str pfamily)
    : dict str pfamily :=
  let id := family_id name descr keys unit k in
  let f := match dget id fams with Some f => f | None => PFam k name descr keys unit [] end in
  dset id (PFam (pf_kind f) (pf_name f) (pf_doc f) (pf_labels f) (pf_unit f) (pf_samples f ++ [sample])) fams.
(** init 258-269 *)
Definition number_points (l : list num_point) : list (dict str pyval * pvalue) := map (fun p => (n_attrs p, PVNumber (n_value p))) l.
Definition histogram_points (l : list hist_point) : list (dict str pyval * pvalue) :=
  map (fun p => (h_attrs p, PVHistogram (convert_buckets (h_buckets p) (h_bounds p)) (h_sum p))) l.
(** init 214-364 [_translate_to_prometheus], one metric.  None: an exception, as for a point without a value. *)
Definition translate_metric (fams : dict str pfamily) (m : sdk_metric) : option (dict str pfamily) :=
  match sm_unit m with
  | None => None
  | Some unit0 =>
      let name := sanitize_full_name (sm_name m) in
      let descr := match sm_descr m with Some d => d | None => [] end in
      let unit := map_unit unit0 in
      let add (k : pkind) (points : list (dict str pyval * pvalue)) :=
        fold_left (fun fs (p : dict str pyval * pvalue) =>
                     add_sample name descr (label_keys (fst p)) unit k (label_values (fst p), snd p) fs) points fams in
      match sm_data m with
      | MSum l temporality monotonic =>
          Some (add (if negb monotonic && Z.eqb temporality 2 then KGauge else KCounter) (number_points l))
      | MGauge l => Some (add KGauge (number_points l))
      | MHistogram l _ => Some (add KHistogram (histogram_points l))
      | MExponential [] _ => Some fams
      | MExponential _ _ => None
      | MUnknown => None
      end
  end.
Definition metrics_data := list (resource * list (scope * list sdk_metric)).
(** init 221-225: the metrics of all resources and scopes *)
Definition all_metrics (d : metrics_data) : list sdk_metric := flat_map (fun r : resource * list (scope * list sdk_metric) => flat_map snd (snd r)) d.
Fixpoint translate (ms : list sdk_metric) (fams : dict str pfamily) : option (dict str pfamily) :=
  match ms with
  | [] => Some fams
  | m :: ms' => let? f := translate_metric fams m in translate ms' f
  end.

(** init 170-174, 373-385: the collector *)
Record collector := Collector { co_disabled : bool; co_target : option (dict str str); co_queue : list metrics_data }.
Definition target_labels (d : metrics_data) : dict str str :=
  let attrs := fold_left (fun (a : dict str pyval) (r : resource * list (scope * list sdk_metric)) => dupdate a (r_attrs (fst r))) d [] in
  dict_of (map (fun kv => (sanitize_attribute (fst kv), check_value (snd kv))) attrs).
(** init 176-178 [add_metrics_data], called by [_receive_metrics] (149-157) for what the reader collected *)
Definition receive (d : option metrics_data) (c : collector) : collector :=
  match d with None => c | Some d => Collector (co_disabled c) (co_target c) (co_queue c ++ [d]) end.
(** init 205-211: one translation after the other, into the same families; after each of them all families are yielded *)
Fixpoint drain (q : list metrics_data) (target : option (dict str str)) (fams : dict str pfamily) : option (list pyield) :=
  match q with
  | [] => Some []
  | d :: q' =>
      let? f := translate (all_metrics d) fams in
      let? rest := drain q' target f in
      Some ((match target with Some t => [YTarget t] | None => [] end) ++ map (fun kf => YFamily (snd kf)) f ++ rest)
  end.
(** init 180-211 [collect], where [d] is what the callback (the reader's [collect]) delivers.  An exception loses the
    entries of the queue that were taken; that is not modelled (the state after one is the empty queue). *)
Definition scrape (d : option metrics_data) (c0 : collector) : collector * option (list pyield) :=
  let c := receive d c0 in
  let target := match co_queue c with
                | [] => co_target c
                | d0 :: _ => if co_disabled c then co_target c
                             else match co_target c with Some t => Some t | None => Some (target_labels d0) end
                end in
  (Collector (co_disabled c) target [], drain (co_queue c) (if co_disabled c then None else target) []).
End Prometheus.
