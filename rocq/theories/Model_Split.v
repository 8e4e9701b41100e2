(** The gRPC metric exporter with max_export_batch_size.

    Source: exporter/opentelemetry-exporter-otlp-proto-grpc/src/opentelemetry/exporter/otlp/proto/grpc/metric_exporter/__init__.py. *)
From Verif Require Export Model_Otlp.
Local Open Scope Z_scope.

(** The three classes of data points of the SDK (sdk/metrics/_internal/point.py 31-102) *)
Inductive dpoint := DNum (p : num_point) | DHist (p : hist_point) | DExp (p : exp_point).
(** metric.data.data_points *)
Definition data_points (m : sdk_metric) : list dpoint :=
  match sm_data m with
  | MGauge l | MSum l _ _ => map DNum l
  | MHistogram l _ => map DHist l
  | MExponential l _ => map DExp l
  | MUnknown => []
  end.
(** replace(metric, data=replace(metric.data, data_points=l)); all points of [l] are of the metric's own class. *)
Definition with_points (m : sdk_metric) (l : list dpoint) : sdk_metric :=
  let nums := flat_map (fun p => match p with DNum p => [p] | _ => [] end) l in
  SMetric (sm_name m) (sm_descr m) (sm_unit m)
    match sm_data m with
    | MGauge _ => MGauge nums
    | MSum _ t mono => MSum nums t mono
    | MHistogram _ t => MHistogram (flat_map (fun p => match p with DHist p => [p] | _ => [] end) l) t
    | MExponential _ t => MExponential (flat_map (fun p => match p with DExp p => [p] | _ => [] end) l) t
    | MUnknown => MUnknown
    end.

(** ** metric_exporter 178-259 [_split_metrics_data]
    The lists that the loops fill are mutable and reachable from each other: [split_metrics] is in the last entry of [split_scope_metrics],
    which is in the last entry of [split_resource_metrics].  Here each of them holds its entries without the one that is being filled,
    which is put in when the loop over it ends or when the batch is yielded.  After a yield all of them are new lists, so that what was
    yielded does not change any more. *)
Section Split.
Context {R S M P : Type}.
Variable max_batch : Z.
Definition group (A B : Type) : Type := A * list B.
Definition tree : Type := list (group R (group S (group M P))).
Record split_st := SplitSt {
  batch_size : Z;
  split_resources : tree; split_scopes : list (group S (group M P)); split_metrics : list (group M P); split_points : list P;
  yielded : list tree }.
(** 215-246: the loop over the data points *)
Definition split_point (r : R) (s : S) (m : M) (st : split_st) (p : P) : split_st :=
  let points := split_points st ++ [p] in
  let n := batch_size st + 1 in
  if max_batch <=? n then
    SplitSt 0 [] [] [] []
      (yielded st ++ [split_resources st ++ [(r, split_scopes st ++ [(s, split_metrics st ++ [(m, points)])])]])
  else SplitSt n (split_resources st) (split_scopes st) (split_metrics st) points (yielded st).
(** 203-213, 248-250: an entry whose list of points is empty at the end is removed *)
Definition split_metric (r : R) (s : S) (st : split_st) (m : group M P) : split_st :=
  let st := fold_left (split_point r s (fst m)) (snd m)
              (SplitSt (batch_size st) (split_resources st) (split_scopes st) (split_metrics st) [] (yielded st)) in
  match split_points st with
  | [] => st
  | points => SplitSt (batch_size st) (split_resources st) (split_scopes st) (split_metrics st ++ [(fst m, points)]) [] (yielded st)
  end.
(** 195-202, 252-254 *)
Definition split_scope (r : R) (st : split_st) (s : group S (group M P)) : split_st :=
  let st := fold_left (split_metric r (fst s)) (snd s)
              (SplitSt (batch_size st) (split_resources st) (split_scopes st) [] [] (yielded st)) in
  match split_metrics st with
  | [] => st
  | metrics => SplitSt (batch_size st) (split_resources st) (split_scopes st ++ [(fst s, metrics)]) [] [] (yielded st)
  end.
(** 186-194, 256-258 *)
Definition split_resource (st : split_st) (r : group R (group S (group M P))) : split_st :=
  let st := fold_left (split_scope (fst r)) (snd r)
              (SplitSt (batch_size st) (split_resources st) [] [] [] (yielded st)) in
  match split_scopes st with
  | [] => st
  | scopes => SplitSt (batch_size st) (split_resources st ++ [(fst r, scopes)]) [] [] [] (yielded st)
  end.
(** 182-184, 258-259 *)
Definition split_tree (d : tree) : list tree :=
  let st := fold_left split_resource d (SplitSt 0 [] [] [] [] []) in
  yielded st ++ (if 0 <? batch_size st then [split_resources st] else []).
End Split.

Definition data := list (resource * list (scope * list sdk_metric)).
(** Only resource_metrics.schema_url and scope_metrics.schema_url, which [replace] keeps and encode_metrics does not read, are left out. *)
Definition split_metrics_data (max_batch : Z) (d : data) : list data :=
  map (map (fun r => (fst r, map (fun s => (fst s, map (fun m => with_points (fst m) (snd m)) (snd s))) (snd r))))
    (split_tree max_batch (map (fun r => (fst r, map (fun s => (fst s, map (fun m => (m, data_points m)) (snd s))) (snd r))) d)).

(** ** 157-176 [export]
    [_export] is a parameter: the data it is given, whatever it looks at and changes, and its result, or an exception. *)
Section Export.
Context {W : Type}.
Variable export_one : data -> W -> bool * W + W.       (* SUCCESS or FAILURE and what it left, or what it left when it raised *)
Fixpoint export_batches (l : list data) (w : W) (result : bool) : bool * W + W :=
  match l with
  | [] => inl (result, w)
  | d :: l' => match export_one d w with
               | inl (ok, w') => export_batches l' w' (if ok then result else false)
               | inr w' => inr w'
               end
  end.
Definition export_metrics (max_export_batch_size : option Z) (d : data) (w : W) : bool * W + W :=
  match max_export_batch_size with
  | None => export_one d w
  | Some n => export_batches (split_metrics_data n d) w true
  end.
End Export.
