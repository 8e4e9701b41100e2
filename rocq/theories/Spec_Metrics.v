(** Specification vocabulary for the metric aggregations: what the points of a stream should be,
    as a function of its history only. *)
From Verif Require Export Model_Metrics.
Local Open Scope Z_scope.

(** The measurements of a history, and its collection times. *)
Definition measured (h : list mop) : list Z :=
  flat_map (fun o => match o with Measure v => [v] | Collect _ => [] end) h.
Definition collections (h : list mop) : list Z :=
  flat_map (fun o => match o with Measure _ => [] | Collect t => [t] end) h.

(** What happened up to a collection: [w_before], the operations before the previous collection
    (that collection included), [w_since] the measurements since, [w_now] the time of this one. *)
Record window := W { w_before : list mop; w_since : list Z; w_now : Z }.
(** All windows of a history, one for each collection, in order. *)
Fixpoint windows_from (before : list mop) (since : list Z) (h : list mop) : list window :=
  match h with
  | [] => []
  | Measure v :: h' => windows_from before (since ++ [v]) h'
  | Collect t :: h' =>
      W before since t :: windows_from (before ++ map Measure since ++ [Collect t]) [] h'
  end.
Definition windows (h : list mop) : list window := windows_from [] [] h.
(** The measurements after the last collection. *)
Fixpoint since_last (since : list Z) (h : list mop) : list Z :=
  match h with
  | [] => since
  | Measure v :: h' => since_last (since ++ [v]) h'
  | Collect _ :: h' => since_last [] h'
  end.

(** The sum, smallest and largest of a list. *)
Definition total (l : list Z) : Z := fold_right Z.add 0 l.
Definition is_min (l : list Z) (m : ext) : Prop :=
  (l = [] /\ m = PosInf) \/ (exists x, m = Fin x /\ In x l /\ forall y, In y l -> x <= y).
Definition is_max (l : list Z) (m : ext) : Prop :=
  (l = [] /\ m = NegInf) \/ (exists x, m = Fin x /\ In x l /\ forall y, In y l -> y <= x).

(** All measurements up to a collection; the time of the collection before it, or the start. *)
Definition so_far (w : window) : list Z := measured (w_before w) ++ w_since w.
Definition previous_time (start : Z) (w : window) : Z := last (collections (w_before w)) start.

(** The value an observable instrument last reported before a window, if any: the total of the last
    nonempty interval. *)
Fixpoint last_nonempty (ws : list window) : option window :=
  match ws with
  | [] => None
  | w :: ws' =>
      match last_nonempty ws' with
      | Some w' => Some w'
      | None => match w_since w with [] => None | _ => Some w end
      end
  end.
Definition last_report (w : window) : option window := last_nonempty (windows (w_before w)).

(** Bucket [i] of sorted boundaries b is the interval (b[i-1], b[i]]; the first has no lower, the last
    no upper end. *)
Definition in_bucket (bounds : list Z) (i : nat) (v : Z) : bool :=
  match i with
  | O => true
  | S j => match nth_error bounds j with Some lo => Z.ltb lo v | None => true end
  end
  && match nth_error bounds i with Some hi => Z.leb v hi | None => true end.
Definition count_in (p : Z -> bool) (l : list Z) : Z := Z.of_nat (length (filter p l)).
Definition sorted (l : list Z) : Prop := forall i j, (i <= j < length l)%nat -> nth i l 0 <= nth j l 0.

(** A histogram of the measurements [l]. *)
Definition histogram_of (bounds : list Z) (record : bool) (l : list Z) (p : hpoint) : Prop :=
  hp_bounds p = bounds
  /\ length (hp_counts p) = S (length bounds)
  /\ hp_count p = Z.of_nat (length l)
  /\ total (hp_counts p) = hp_count p
  /\ hp_sum p = total l
  /\ (forall i, (i <= length bounds)%nat -> nth i (hp_counts p) 0 = count_in (in_bucket bounds i) l)
  /\ (record = true -> is_min l (hp_min p) /\ is_max l (hp_max p))
  /\ (record = false -> hp_min p = PosInf /\ hp_max p = NegInf).

(** Values of the points that were reported, in order. *)
Definition numbers (out : list (option point)) : list Z :=
  flat_map (fun p => match p with Some (NumberPoint n) => [np_value n] | _ => [] end) out.

Definition nondecreasing (l : list Z) : Prop := sorted l.

(** What successive reads of an add-only counter show: the total of the amounts so far, without the
    negative ones. *)
Fixpoint readings (sum : Z) (h : list icall) : list Z :=
  match h with
  | [] => []
  | Call z :: h' => readings (if 0 <=? z then sum + z else sum) h'
  | Read _ :: h' => sum :: readings sum h'
  end.
