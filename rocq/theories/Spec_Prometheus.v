(** What Prometheus should be shown. *)
From Verif Require Export Model_Prometheus.
From Coq Require Export Permutation Sorted.
Local Open Scope Z_scope.

(** Metric names are [a-zA-Z_:][a-zA-Z0-9_:]*, label names [a-zA-Z_][a-zA-Z0-9_]*. *)
Definition letter (c : N) : Prop := (97 <= c <= 122)%N \/ (65 <= c <= 90)%N.
Definition digit (c : N) : Prop := (48 <= c <= 57)%N.
Definition underscore (c : N) : Prop := c = chr "_".
Definition colon (c : N) : Prop := c = chr ":".
Definition label_tail (s : str) : Prop := Forall (fun c => letter c \/ digit c \/ underscore c) s.
Definition name_tail (s : str) : Prop := Forall (fun c => letter c \/ digit c \/ underscore c \/ colon c) s.
Definition legal_label (s : str) : Prop := exists c s', s = c :: s' /\ (letter c \/ underscore c) /\ label_tail s'.
Definition legal_name (s : str) : Prop := exists c s', s = c :: s' /\ (letter c \/ underscore c \/ colon c) /\ name_tail s'.
(** Two underscores in a row are reserved. *)
Definition no_double_underscore (s : str) : Prop := forall a b, s <> a ++ lit "__" ++ b.

(** Histograms *)
Definition total (l : list Z) : Z := fold_right Z.add 0 l.
Fixpoint differences (previous : Z) (l : list Z) : list Z := match l with [] => [] | x :: l' => (x - previous) :: differences x l' end.

(** ** Families *)
(** What the points of a family have in common *)
Record pident := PId { pi_kind : pkind; pi_name : str; pi_doc : str; pi_labels : list str; pi_unit : str }.
Definition ident_of (f : pfamily) : pident := PId (pf_kind f) (pf_name f) (pf_doc f) (pf_labels f) (pf_unit f).
Definition pident_eq_dec : forall a b : pident, {a = b} + {a <> b}.
Proof. repeat decide equality. Defined.

Section Points.
Variable other_digit : N -> bool.
Variable dumps : pyval -> str.
(** The labels of a point: its attributes in the order of their keys *)
Definition in_key_order (l : list (str * pyval)) : Prop := StronglySorted (fun a b => str_ltb (fst b) (fst a) = false) l.
(** The points of a metric: sums that only grow and sums of differences are counters, other sums and gauges are gauges *)
Definition point (m : sdk_metric) (unit : str) (k : pkind) (attrs : dict str pyval) (v : pvalue) : pident * (list str * pvalue) :=
  (PId k (sanitize_full_name other_digit (sm_name m)) (match sm_descr m with Some d => d | None => [] end)
       (label_keys other_digit attrs) (map_unit unit),
   (label_values dumps attrs, v)).
Definition points_of (m : sdk_metric) : list (pident * (list str * pvalue)) :=
  match sm_unit m with
  | None => []
  | Some u =>
      match sm_data m with
      | MGauge l => map (fun p => point m u KGauge (n_attrs p) (PVNumber (n_value p))) l
      | MSum l temporality monotonic =>
          map (fun p => point m u (if monotonic then KCounter else if Z.eqb temporality 2 then KGauge else KCounter) (n_attrs p) (PVNumber (n_value p))) l
      | MHistogram l _ => map (fun p => point m u KHistogram (h_attrs p) (PVHistogram (convert_buckets (h_buckets p) (h_bounds p)) (h_sum p))) l
      | _ => []
      end
  end.
(** The attributes of the points *)
Definition attrs_of (m : sdk_metric) : list (dict str pyval) :=
  match sm_data m with
  | MGauge l | MSum l _ _ => map n_attrs l
  | MHistogram l _ => map h_attrs l
  | MExponential l _ => map e_attrs l
  | MUnknown => []
  end.
Definition keys_given (m : sdk_metric) : Prop := Forall (fun a => ~ In [] (keys a)) (attrs_of m).
(** The metrics of all resources and scopes, in their order *)
Definition every_metric (d : list (resource * list (scope * list sdk_metric))) : list sdk_metric := concat (map snd (concat (map snd d))).
(** Metrics that can be shown: with a unit, and no exponential histogram *)
Definition showable (m : sdk_metric) : Prop := sm_unit m <> None /\ match sm_data m with MExponential (_ :: _) _ | MUnknown => False | _ => True end.
(** The samples of the points with one identity, in their order *)
Definition samples_at (i : pident) (l : list (pident * (list str * pvalue))) : list (list str * pvalue) :=
  map snd (filter (fun p => if pident_eq_dec (fst p) i then true else false) l).
End Points.
