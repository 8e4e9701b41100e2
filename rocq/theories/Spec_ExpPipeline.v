(** Specification vocabulary: what a collection should report about a stream with an exponential histogram. *)
From Verif Require Export Spec_ExpHist Spec_Streams Model_ExpPipeline.
Local Open Scope Z_scope.

(** The sizes and scales that an exponential histogram can have. *)
Definition legal (max_size max_scale : Z) : Prop := 2 <= max_size <= 16384 /\ -10 <= max_scale <= 20.

Section Views.
Variable fnmatch : str -> str -> bool.
Context {Scope : Type} `{EqDec Scope}.
Variable the_scope : Scope -> scope.
Variable obj : N -> instr.
Variable scope_of : N -> Scope.
Context {G0 A0 D0 : Type}.
Variable default0 : G0.
Variable is_default0 is_explicit0 : G0 -> bool.
Variable views : list (@view (xconf G0)).
Definition asks_buckets (g : xconf G0) : bool := match g with Other g => is_explicit0 g | Exponential _ _ => false end.
Notation applies := (applies fnmatch (fun s => sco_name (the_scope s)) (fun s => sco_version (the_scope s)) (fun s => sco_schema (the_scope s)) obj scope_of asks_buckets).

(** The views through which an instrument is seen: those that apply, or the one that changes nothing. *)
Definition x_seen_through (i : N) (v : @view (xconf G0)) : Prop :=
  (In v views /\ applies i v)
  \/ ((forall v', In v' views -> ~ applies i v') /\ v_name v = None /\ v_descr v = None /\ v_keys v = None /\ v_agg v = Other default0).
(** An exponential histogram is asked for: by the view, or else by the reader for the kind of instrument. *)
Definition x_asked (rd : @reader (xconf G0)) (i : N) (v : @view (xconf G0)) (max_size max_scale : Z) : Prop :=
  v_agg v = Exponential max_size max_scale
  \/ exists g, v_agg v = Other g /\ is_default0 g = true /\ rd_aggregation rd (in_kind (obj i)) = Exponential max_size max_scale.

(** An exponential histogram for [i], as [v] sees it, with these points is in what a collection delivers. *)
Definition reports (out : dict Scope (list (@metric (xpoint D0)))) (i : N) (v : @view (xconf G0)) (t : temporality) (points : list epoint) : Prop :=
  exists l m, dget (scope_of i) out = Some l /\ In m l
  /\ m_name m = renamed (v_name v) (in_name (obj i)) /\ m_descr m = renamed (v_descr v) (in_descr (obj i)) /\ m_unit m = in_unit (obj i)
  /\ m_shape m = ShExponential /\ m_temporality m = t /\ m_points m = map ExpPoint points.

(** Some aggregation could not be made, or a call on it raised. *)
Definition something_raised (cs : @consumer (xconf G0) (xstate A0)) : Prop :=
  exists st i ms m k a, In st cs /\ In (i, ms) st /\ In m ms /\ In (k, a) (vm_ser m)
  /\ (a = ExpRefused \/ exists h, a = ExpState h true).
End Views.

(** The point for the amounts [l] with attributes [a]. *)
Definition exp_point_is (log_floor : Z -> Z -> Z) (max_size : Z) (ks : option (list str)) (now : Z) (a : option mattrs) (s : Z) (l : list Z) (p : epoint) : Prop :=
  exp_histogram_of log_floor max_size l p /\ ep_attrs p = shown ks a /\ ep_start p = s /\ ep_time p = now.

(** ** In a request *)
Definition x_metric_in {Scope G0 : Type} (the_scope : Scope -> scope) (obj : N -> instr) (scope_of : N -> Scope)
    (res : resource) (i : N) (v : @view (xconf G0)) (req : list (pb_group pb_metric)) (d : pb_data) : Prop :=
  exists g sg m, req = [g] /\ resource_read res g /\ In sg (pr_scopes g) /\ scope_read (Some (the_scope (scope_of i))) sg /\ In m (pg_items sg)
  /\ pm_name m = renamed (v_name v) (in_name (obj i)) /\ pm_descr m = renamed (v_descr v) (in_descr (obj i)) /\ pm_unit m = in_unit (obj i)
  /\ pm_data m = d.
(** Buckets that are not in the message are empty. *)
Definition buckets_show (index : Z -> Z) (max_size : Z) (l : list Z) (b : option ebuckets) : Prop :=
  match b with Some b => shows index max_size l (eb_offset b) (eb_counts b) | None => l = [] end.
(** The message for the amounts [l] with attributes [a]; [dbl z] is the double z * 2^-1074. *)
Definition exp_message_is (log_floor : Z -> Z -> Z) (dbl : Z -> Z) (max_size : Z) (ks : option (list str)) (now : Z) (a : option mattrs) (s : Z) (l : list Z) (p : pb_exp) : Prop :=
  attributes_read (shown ks a) (px_at p) /\ px_start p = s /\ px_ti p = now
  /\ px_count p = Z.of_nat (length l) /\ px_sum p = dbl (total l)
  /\ (exists x, In x l /\ (forall y, In y l -> x <= y) /\ px_min p = Some (dbl x))
  /\ (exists x, In x l /\ (forall y, In y l -> y <= x) /\ px_max p = Some (dbl x))
  /\ px_zero p = count_in (fun v => v =? 0) l
  /\ -10 <= px_scale p <= 20
  /\ buckets_show (map_to_index log_floor (px_scale p)) max_size (positives l) (px_pos p)
  /\ buckets_show (map_to_index log_floor (px_scale p)) max_size (negatives l) (px_neg p).

(** The first amount is not zero, and the others are zero or have its sign. *)
Definition one_sided (l : list Z) : Prop :=
  match l with
  | [] => True
  | z :: _ => (0 < z /\ Forall (fun x => 0 <= x) l) \/ (z < 0 /\ Forall (fun x => x <= 0) l)
  end.
