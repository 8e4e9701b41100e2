(** What the requests should be that a large export is split into. *)
From Verif Require Export Model_Split Spec_Otlp.
Local Open Scope Z_scope.

(** What a metric says apart from its points *)
Inductive mkind := MKGauge | MKSum (temporality : Z) (monotonic : bool) | MKHistogram (temporality : Z) | MKExponential (temporality : Z) | MKUnknown.
Definition kind_of (m : sdk_metric) : mkind :=
  match sm_data m with
  | MGauge _ => MKGauge
  | MSum _ t mono => MKSum t mono
  | MHistogram _ t => MKHistogram t
  | MExponential _ t => MKExponential t
  | MUnknown => MKUnknown
  end.
Definition about (m : sdk_metric) : str * option str * option str * mkind := (sm_name m, sm_descr m, sm_unit m, kind_of m).
(** Every data point, with the resource, the scope and the metric that it is under, in order *)
Definition all_points (d : data) : list (resource * scope * (str * option str * option str * mkind) * dpoint) :=
  flat_map (fun r : resource * list (scope * list sdk_metric) =>
    flat_map (fun s => flat_map (fun m => map (fun p => (fst r, fst s, about m, p)) (data_points m)) (snd s)) (snd r)) d.

(** [l'] is [l] with some entries left out; those that stay are related by [same]. *)
Inductive some_of {A} (same : A -> A -> Prop) : list A -> list A -> Prop :=
| so_end : some_of same [] []
| so_stays a' a l' l : same a' a -> some_of same l' l -> some_of same (a' :: l') (a :: l)
| so_out a l' l : some_of same l' l -> some_of same l' (a :: l).
Definition part_of_metric (m' m : sdk_metric) : Prop := about m' = about m /\ some_of eq (data_points m') (data_points m).
Definition part_of_scope (s' s : scope * list sdk_metric) : Prop := fst s' = fst s /\ some_of part_of_metric (snd s') (snd s).
Definition part_of_resource (r' r : resource * list (scope * list sdk_metric)) : Prop := fst r' = fst r /\ some_of part_of_scope (snd r') (snd r).
Definition part_of : data -> data -> Prop := some_of part_of_resource.
(** There is a point under everything. *)
Definition nothing_empty (d : data) : Prop :=
  d <> [] /\ Forall (fun r => snd r <> [] /\ Forall (fun s => snd s <> [] /\ Forall (fun m => data_points m <> []) (snd s)) (snd r)) d.

(** The calls of [_export] on each of the batches in turn, their results and what they leave *)
Inductive exported_in_turn {W} (export_one : data -> W -> bool * W + W) : list data -> W -> list bool -> W -> Prop :=
| et_end w : exported_in_turn export_one [] w [] w
| et_next d l w ok w' oks w'' : export_one d w = inl (ok, w') -> exported_in_turn export_one l w' oks w'' ->
    exported_in_turn export_one (d :: l) w (ok :: oks) w''.
