(** Specification vocabulary: what a request should say about an instrument, in terms of the program's calls. *)
From Verif Require Export Spec_Otlp Spec_Storage Model_Pipeline.
Local Open Scope Z_scope.

(** An aggregation with explicit buckets. *)
Definition wants_buckets (g : aggregation) : bool := match g with ExplicitBuckets _ _ => true | _ => false end.

(** The boundaries of a histogram when nothing else is said, as in the OpenTelemetry specification (metrics/sdk, "Explicit Bucket Histogram Aggregation"). *)
Definition standard_boundaries : list Z := [0; 5; 10; 25; 50; 75; 100; 250; 500; 750; 1000; 2500; 5000; 7500; 10000]%Z.

Section Pipeline.
Variable float_int : Z -> option Z.
Variable obj_hash : N -> bool.
Variable obj : N -> instr.
Notation same_attributes := (same_stream float_int obj_hash None).
Notation usable := (usable float_int obj_hash None).

(** How OTLP writes a temporality: AGGREGATION_TEMPORALITY_DELTA is 1, AGGREGATION_TEMPORALITY_CUMULATIVE is 2. *)
Definition temporality_code (t : temporality) : Z := match t with DELTA => 1 | CUMULATIVE => 2 | UNSPECIFIED => 0 end.
(** Counters and histograms take no negative amounts. *)
Definition counts (k : ikind) (z : Z) : Prop := match k with ICounter | IHistogram => 0 <= z | _ => True end.
(** The call measures [z] on instrument [i], with attributes that are equal to [a]. *)
Definition measures (i : N) (a : option mattrs) (c : pcall) (z : Z) : Prop :=
  exists b now, c = PCall i b z now /\ same_attributes a b /\ counts (in_kind (obj i)) z.
(** All the amounts measured in some calls on [i] with attributes [a], in order. *)
Inductive amounts (i : N) (a : option mattrs) : list pcall -> list Z -> Prop :=
| am_nil : amounts i a [] []
| am_take c z h l : measures i a c z -> amounts i a h l -> amounts i a (c :: h) (z :: l)
| am_skip c h l : (forall z, ~ measures i a c z) -> amounts i a h l -> amounts i a (c :: h) l.

(** Calls that the API allows: synchronous instruments are called, observable ones have callbacks; attributes are dicts
    with hashable values. *)
Definition api_call (c : pcall) : Prop :=
  match c with
  | PCall i attrs _ _ => synchronous (in_kind (obj i)) = true /\ usable attrs
  | PCollect _ obs _ _ =>
      Forall (fun ob : observation => synchronous (in_kind (obj (fst (fst ob)))) = false /\ usable (snd (fst ob))) obs
  end.

(** A collection by reader [r] that was completed; the calls after the last one. *)
Definition collects (r : nat) (c : pcall) (now : Z) : Prop := exists obs, c = PCollect r obs false now.
Definition since (r : nat) (h h0 part : list pcall) : Prop :=
  h = h0 ++ part /\ (forall c now, In c part -> ~ collects r c now)
  /\ (h0 = [] \/ exists h1 c now, h0 = h1 ++ [c] /\ collects r c now).

(** The calls a collection reports on, after the calls [h]: all of them, or those since the last collection. *)
Definition covers (t : temporality) (r : nat) (h h0 part : list pcall) : Prop :=
  (t = CUMULATIVE /\ h0 = [] /\ part = h) \/ (t = DELTA /\ since r h h0 part).

(** [reps] has every set of attributes with which [i] was measured in [part], once. *)
Definition each_set (i : N) (part : list pcall) (reps : list (option mattrs)) : Prop :=
  ForallOrdPairs (fun a b => ~ same_attributes a b) reps
  /\ (forall a, In a reps -> exists l, amounts i a part l /\ l <> [])
  /\ (forall a l, amounts i a part l -> l <> [] -> exists a', In a' reps /\ same_attributes a' a).

(** The start time of a point: the time of the last collection if the attributes were measured before it, otherwise the
    time of the first measurement with these attributes. *)
Definition first_measured (i : N) (a : option mattrs) (part : list pcall) (s : Z) : Prop :=
  exists b z p1 p2, part = p1 ++ PCall i b z s :: p2 /\ same_attributes a b /\ counts (in_kind (obj i)) z /\ amounts i a p1 [].
Definition start_time (i : N) (a : option mattrs) (r : nat) (h0 part : list pcall) (s : Z) : Prop :=
  (exists l h1 c, amounts i a h0 l /\ l <> [] /\ h0 = h1 ++ [c] /\ collects r c s)
  \/ (amounts i a h0 [] /\ first_measured i a part s).

Definition given (a : option mattrs) : mattrs := match a with Some d => d | None => [] end.

(** A point with a number; a histogram point of some amounts, its buckets given by [bounds]. *)
Definition says_number (now : Z) (a : option mattrs) (s v : Z) (p : pb_num) : Prop :=
  attributes_read (given a) (pn_attrs p) /\ pn_start p = s /\ pn_time p = now /\ pn_value p = NInt v.
Definition says_histogram (to_float : Z -> option Z) (bounds : list Z) (now : Z) (a : option mattrs) (s : Z) (l : list Z) (p : pb_hist) : Prop :=
  attributes_read (given a) (ph_attrs p) /\ ph_start p = s /\ ph_time p = now
  /\ ph_count p = Z.of_nat (length l) /\ to_float (total l) = Some (ph_sum p)
  /\ length (ph_buckets p) = S (length bounds)
  /\ (forall n, (n <= length bounds)%nat -> nth n (ph_buckets p) 0 = count_in (in_bucket bounds n) l)
  /\ Forall2 (fun b f => to_float b = Some f) bounds (ph_bounds p)
  /\ (exists x f, In x l /\ (forall y, In y l -> x <= y) /\ to_float x = Some f /\ ph_min p = Some f)
  /\ (exists x f, In x l /\ (forall y, In y l -> y <= x) /\ to_float x = Some f /\ ph_max p = Some f).

(** The group of the scope and the metric of an instrument in a request. *)
Definition in_request (res : resource) (s : scope) (i : N) (req : list (pb_group pb_metric)) (d : pb_data) : Prop :=
  exists g sg m, req = [g] /\ resource_read res g /\ In sg (pr_scopes g) /\ scope_read (Some s) sg /\ In m (pg_items sg)
  /\ pm_name m = in_name (obj i) /\ pm_descr m = in_descr (obj i) /\ pm_unit m = in_unit (obj i) /\ pm_data m = d.
End Pipeline.
