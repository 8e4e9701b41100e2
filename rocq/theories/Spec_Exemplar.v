(** Specification vocabulary for exemplars. *)
From Verif Require Export Spec_Metrics Model_Exemplar.
Local Open Scope Z_scope.

(** The intervals of a history: what was offered (with the draws) before each collection, since the one
    before it. *)
Fixpoint intervals (since : list (meas * Z)) (h : list rop) : list (list (meas * Z) * mattrs) :=
  match h with
  | [] => []
  | Offer m d :: h' => intervals (since ++ [(m, d)]) h'
  | RCollect point :: h' => (since, point) :: intervals [] h'
  end.
(** [randrange(0, n)] returns one of 0, ..., n-1, where n counts the offers since the last collection. *)
Definition draws_ok (since : list (meas * Z)) : Prop :=
  forall i m d, nth_error since i = Some (m, d) -> 0 <= d <= Z.of_nat i.

(** The value, time and attributes of an exemplar are those of one measurement; of the attributes only
    those that the point does not have. *)
Definition exemplar_of (point : mattrs) (m : meas) (e : exemplar) : Prop :=
  ex_value e = me_value m /\ ex_time e = me_time m
  /\ match me_attrs m with
     | None => ex_filtered e = None
     | Some d => match ex_filtered e with
                 | None => d = []
                 | Some f => d <> [] /\ f = filter (fun kv => if in_dec eq_dec (fst kv) (keys point) then false else true) d
                 end
     end.
(** The exemplars [es] are taken from different measurements of [offered]. *)
Definition taken_from (point : mattrs) (offered : list meas) (es : list exemplar) : Prop :=
  exists positions, NoDup positions
  /\ Forall2 (fun i e => exists m, nth_error offered i = Some m /\ exemplar_of point m e) positions es.

(** The last element with a property. *)
Definition last_with {A} (p : A -> bool) (l : list A) : option A := hd_error (rev (filter p l)).

(** All ways the draws of [n] offers can go: the i-th is one of 0, ..., i-1. *)
Fixpoint all_draws (n : nat) : list (list Z) :=
  match n with
  | O => [[]]
  | S n' => flat_map (fun l => map (fun d => l ++ [Z.of_nat d]) (seq 0 (S n'))) (all_draws n')
  end.
(** The values of the exemplars of a reservoir of this size after [ms] were offered with these draws. *)
Definition sampled (size : Z) (ms : list meas) (draws : list Z) : list Z :=
  map ex_value (snd (rcollect [] (fold_left (fun r md => offer (fst md) (snd md) r) (combine ms draws) (simple_new size)))).
Definition ways {A} (p : A -> Prop) (dec : forall x, {p x} + {~ p x}) (l : list A) : Z :=
  Z.of_nat (length (filter (fun x => if dec x then true else false) l)).
(** In how many of the ways the draws can go is the measured value [v] among the exemplars? *)
Definition ways_kept (size : Z) (ms : list meas) (v : Z) : Z :=
  ways (fun draws => In v (sampled size ms draws)) (fun draws => in_dec Z.eq_dec v (sampled size ms draws)) (all_draws (length ms)).

(** The exemplar has the ids of the span the measurement was made in, or none. *)
Definition names_span (m : meas) (e : exemplar) : Prop :=
  match me_span m with
  | Some (span_id, trace_id, _) => ex_span_id e = Some span_id /\ ex_trace_id e = Some trace_id
  | None => ex_span_id e = None /\ ex_trace_id e = None
  end.
(** As [taken_from], with [P] of each measurement and its exemplar. *)
Definition taken_with (P : meas -> exemplar -> Prop) (point : mattrs) (offered : list meas) (es : list exemplar) : Prop :=
  exists positions, NoDup positions
  /\ Forall2 (fun i e => exists m, nth_error offered i = Some m /\ exemplar_of point m e /\ P m e) positions es.

(** If the measurement was made in a span, or no measurement of the interval was, the exemplar names the
    right span; in any case it names no span or one in which some measurement of the interval was made. *)
Definition span_rule (offered : list meas) (m : meas) (e : exemplar) : Prop :=
  (me_span m <> None \/ (forall m', In m' offered -> me_span m' = None) -> names_span m e)
  /\ ((ex_span_id e = None /\ ex_trace_id e = None)
      \/ exists m' s t sm, In m' offered /\ me_span m' = Some (s, t, sm) /\ ex_span_id e = Some s /\ ex_trace_id e = Some t).

(** The measurements that the filter lets through. *)
Definition lets_through (f : efilter) (m : meas) : bool :=
  match f, me_span m with
  | AlwaysOnFilter, _ => true
  | TraceBasedFilter, Some (_, _, true) => true
  | _, _ => false
  end.
