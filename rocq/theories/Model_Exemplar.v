(** Exemplar reservoirs.

    Source: opentelemetry-sdk/src/opentelemetry/sdk/metrics/_internal/exemplar/exemplar_reservoir.py,
    exemplar_filter.py and exemplar.py. *)
From Verif Require Export Model_Metrics.
Local Open Scope Z_scope.

(** A measurement as the reservoir gets it (measurement.py 23-48).  [me_span]: span id, trace id and the
    sampled flag of the current span of the measurement's context; [None] if that is INVALID_SPAN. *)
Record meas := Meas { me_value : Z; me_time : Z; me_attrs : option mattrs; me_span : option (N * N * bool) }.

(** exemplar.py 21-50 *)
Record exemplar := Ex { ex_filtered : option mattrs; ex_value : Z; ex_time : Z; ex_span_id : option N; ex_trace_id : option N }.

(** [ExemplarBucket] 85-156 *)
Record ebucket := EB { eb_value : Z; eb_attrs : option mattrs; eb_time : Z; eb_span_id : option N; eb_trace_id : option N; eb_offered : bool }.
(** 86-92 *)
Definition eb_new : ebucket := EB 0 None 0 None None false.
(** 94-118: outside of a span the ids stay as they are. *)
Definition eb_offer (m : meas) (b : ebucket) : ebucket :=
  match me_span m with
  | Some (span_id, trace_id, _) => EB (me_value m) (me_attrs m) (me_time m) (Some span_id) (Some trace_id) true
  | None => EB (me_value m) (me_attrs m) (me_time m) (eb_span_id b) (eb_trace_id b) true
  end.
(** 129-137 *)
Definition filtered (attrs : option mattrs) (point : mattrs) : option mattrs :=
  match attrs with
  | None | Some [] => None
  | Some d => Some (filter (fun kv => negb (dmem (fst kv) point)) d)
  end.
(** 148-155 *)
Definition eb_reset : ebucket := EB 0 (Some []) 0 None None false.
(** 120-146 *)
Definition eb_collect (point : mattrs) (b : ebucket) : ebucket * option exemplar :=
  if eb_offered b
  then (eb_reset, Some (Ex (filtered (eb_attrs b) point) (eb_value b) (eb_time b) (eb_span_id b) (eb_trace_id b)))
  else (b, None).

(** [FixedSizeExemplarReservoirABC] 162-249: the storage is a defaultdict from index to bucket. *)
Definition estorage := dict nat ebucket.
Definition store_offer (i : nat) (m : meas) (st : estorage) : estorage :=
  dset i (eb_offer m (match dget i st with Some b => b | None => eb_new end)) st.
(** [sorted(storage.items())]: the keys are distinct. *)
Fixpoint insert_key (kb : nat * ebucket) (l : list (nat * ebucket)) : list (nat * ebucket) :=
  match l with
  | [] => [kb]
  | x :: l' => if Nat.ltb (fst kb) (fst x) then kb :: l else x :: insert_key kb l'
  end.
Fixpoint sort_keys (l : estorage) : list (nat * ebucket) :=
  match l with [] => [] | x :: l' => insert_key x (sort_keys l') end.
(** 172-193, without [_reset] *)
Definition store_collect (point : mattrs) (st : estorage) : estorage * list exemplar :=
  (map (fun kb => (fst kb, fst (eb_collect point (snd kb)))) st,
   flat_map (fun kb => match snd (eb_collect point (snd kb)) with Some e => [e] | None => [] end) (sort_keys st)).

(** The two kinds of reservoirs. *)
Inductive reservoir :=
| Simple (size : Z) (seen : Z) (st : estorage)              (* 251-283 *)
| Aligned (boundaries : list Z) (st : estorage).            (* 286-330 *)
Definition simple_new (size : Z) : reservoir := Simple size 0 [].
Definition aligned_new (boundaries : list Z) : reservoir := Aligned boundaries [].
(** 268-283 [_find_bucket_index]; [draw] is the result of [randrange(0, seen)], if it is called.
    [None]: BucketIndexError. *)
Definition simple_index (size seen draw : Z) : option nat :=
  if seen <? size then Some (Z.to_nat (seen - 1))
  else if draw <? size then Some (Z.to_nat draw) else None.
(** 314-324 *)
Fixpoint aligned_index (boundaries : list Z) (v : Z) : nat :=
  match boundaries with
  | [] => 0
  | b :: l => if v <=? b then 0 else S (aligned_index l v)
  end.
(** 195-220, 299-312 *)
Definition offer (m : meas) (draw : Z) (r : reservoir) : reservoir :=
  match r with
  | Simple size seen st =>
      let seen := seen + 1 in
      match simple_index size seen draw with
      | Some i => Simple size seen (store_offer i m st)
      | None => Simple size seen st
      end
  | Aligned bounds st => Aligned bounds (store_offer (aligned_index bounds (me_value m)) m st)
  end.
(** 172-193, with [_reset] 247-249, 264-266 *)
Definition rcollect (point : mattrs) (r : reservoir) : reservoir * list exemplar :=
  match r with
  | Simple size seen st => let (st, es) := store_collect point st in (Simple size 0 st, es)
  | Aligned bounds st => let (st, es) := store_collect point st in (Aligned bounds st, es)
  end.

(** Histories of one reservoir: [offer] and [collect] calls and what the collections returned. *)
Inductive rop := Offer (m : meas) (draw : Z) | RCollect (point : mattrs).
Definition rstep (s : reservoir * list (list exemplar)) (o : rop) : reservoir * list (list exemplar) :=
  match o with
  | Offer m draw => (offer m draw (fst s), snd s)
  | RCollect point => let (r, es) := rcollect point (fst s) in (r, snd s ++ [es])
  end.
Definition rrun (r : reservoir) (l : list rop) : reservoir * list (list exemplar) := fold_left rstep l (r, []).

(** exemplar_filter.py 54-134 *)
Inductive efilter := AlwaysOnFilter | AlwaysOffFilter | TraceBasedFilter.
Definition filter_should_sample (f : efilter) (m : meas) : bool :=
  match f with
  | AlwaysOnFilter => true
  | AlwaysOffFilter => false
  | TraceBasedFilter => match me_span m with None => false | Some (_, _, sampled) => sampled end
  end.
(** aggregation.py 131-148 [_sample_exemplar], with the filter's answer *)
Definition sample_exemplar (f : efilter) (m : meas) (draw : Z) (r : reservoir) : reservoir :=
  if filter_should_sample f m then offer m draw r else r.
(** Histories in which the measurements go through the filter first. *)
Definition fstep (f : efilter) (s : reservoir * list (list exemplar)) (o : rop) : reservoir * list (list exemplar) :=
  match o with
  | Offer m draw => (sample_exemplar f m draw (fst s), snd s)
  | RCollect point => let (r, es) := rcollect point (fst s) in (r, snd s ++ [es])
  end.
Definition frun (f : efilter) (r : reservoir) (l : list rop) : reservoir * list (list exemplar) := fold_left (fstep f) l (r, []).
