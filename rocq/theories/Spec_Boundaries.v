(** Specification vocabulary: which bucket boundaries a histogram should have. *)
From Verif Require Export Spec_Streams Model_Boundaries.
Local Open Scope Z_scope.

Definition names_buckets (g : conf) : bool := match g with CfBuckets _ _ => true | _ => false end.

(** The boundaries that an instrument should get from an aggregation object made with [set]: those, or else the ones that the
    histogram was created with, or else the standard ones. *)
Definition own_boundaries (set : option (list Z)) (x : instr) (bounds : list Z) : Prop :=
  set = Some bounds
  \/ (set = None /\ in_kind x = IHistogram
      /\ ((in_adv x = Some bounds /\ bounds <> []) \/ ((in_adv x = None \/ in_adv x = Some []) /\ bounds = standard_boundaries))).

Section Views.
Variable fnmatch : str -> str -> bool.
Context {Scope : Type}.
Variable the_scope : Scope -> scope.
Variable obj : N -> instr.
Variable scope_of : N -> Scope.
Variable views : list (@view conf).
Variable readers : list (@reader conf).
Notation applies := (applies fnmatch (fun s => sco_name (the_scope s)) (fun s => sco_version (the_scope s)) (fun s => sco_schema (the_scope s)) obj scope_of names_buckets).

(** The views through which an instrument is seen: those that apply, or the one that changes nothing. *)
Definition b_seen_through (i : N) (v : @view conf) : Prop :=
  (In v views /\ applies i v)
  \/ ((forall v', In v' views -> ~ applies i v') /\ v_name v = None /\ v_descr v = None /\ v_keys v = None /\ v_agg v = CfDefault).
(** The view's aggregation, or else the one the reader has for the kind of instrument. *)
Definition b_asked (rd : @reader conf) (i : N) (v : @view conf) (g : conf) : Prop :=
  (v_agg v <> CfDefault /\ g = v_agg v) \/ (v_agg v = CfDefault /\ g = rd_aggregation rd (in_kind (obj i))).
(** The program uses an instrument: calls it, or gets observations from it. *)
Definition uses (h : list pcall) (i : N) : Prop :=
  (exists attrs z now, In (PCall i attrs z now) h) \/ (exists r obs t now attrs z, In (PCollect r obs t now) h /\ In (i, attrs, z) obs).
(** An instrument that the program uses gets its aggregation from an object. *)
Definition relies_on (h : list pcall) (i : N) (object : nat) : Prop :=
  uses h i /\ exists rd v r, In rd readers /\ b_seen_through i v /\ b_asked rd i v (CfBuckets object r).

Variable settings : heap.
(** Objects without boundaries are used by histograms only. *)
Definition only_histograms (h : list pcall) : Prop :=
  forall i o, relies_on h i o -> settings o = None -> in_kind (obj i) = IHistogram.
(** A histogram shares its object only with histograms that should have the same boundaries. *)
Definition agrees_with_others (h : list pcall) (i : N) : Prop :=
  forall o j b b', relies_on h i o -> relies_on h j o -> own_boundaries (settings o) (obj i) b -> own_boundaries (settings o) (obj j) b' -> b = b'.
(** What the aggregation gives a histogram: boundaries, and whether minimum and maximum are recorded. *)
Definition should_have (x : instr) (g : conf) (bounds : list Z) (extremes : bool) : Prop :=
  (exists o, g = CfBuckets o extremes /\ own_boundaries (settings o) x bounds)
  \/ (g = CfDefault /\ in_kind x = IHistogram /\ extremes = true /\ (in_adv x = Some bounds \/ (in_adv x = None /\ bounds = standard_boundaries))).
End Views.

(** A metric as [metric_in] of Spec_Streams. *)
Definition b_metric_in {Scope : Type} (the_scope : Scope -> scope) (obj : N -> instr) (scope_of : N -> Scope)
    (res : resource) (i : N) (v : @view conf) (req : list (pb_group pb_metric)) (d : pb_data) : Prop :=
  exists g sg m, req = [g] /\ resource_read res g /\ In sg (pr_scopes g) /\ scope_read (Some (the_scope (scope_of i))) sg /\ In m (pg_items sg)
  /\ pm_name m = renamed (v_name v) (in_name (obj i)) /\ pm_descr m = renamed (v_descr v) (in_descr (obj i)) /\ pm_unit m = in_unit (obj i)
  /\ pm_data m = d.
