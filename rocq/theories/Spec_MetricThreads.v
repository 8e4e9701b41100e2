(** Specification vocabulary for the metrics SDK with threads: who did what to a stream, and when. *)
From Verif Require Export Model_MetricThreads.
Local Open Scope Z_scope.

Section Spec.
Context {V T K A D : Type}.
Variable keq : K -> K -> bool.
Variable key_of : V -> T -> option K.
Variable new_agg : V -> T -> Z -> A.
Variable aggregate1 : A -> Z -> A.
Variable collect1 : V -> A -> Z -> A * option D.
Variable views_of : nat -> N -> list V.

(** A call is named by the place in the record where it begins.  [n] is the place of an entry. *)
Record entry := Entry { e_pos : nat; e_call : nat; e_act : @action D }.
(** The call that thread [t] began last. *)
Fixpoint began (log : list (@lev T D)) (n : nat) (cur : nat -> nat) : nat -> nat :=
  match log with
  | [] => cur
  | LBegin t _ :: l => began l (S n) (upd cur t n)
  | _ :: l => began l (S n) cur
  end.
(** What was done to aggregation [a], in order. *)
Fixpoint scan (a : nat) (log : list (@lev T D)) (n : nat) (cur : nat -> nat) : list entry :=
  match log with
  | [] => []
  | LBegin t _ :: l => scan a l (S n) (upd cur t n)
  | LDid t a' act :: l => if Nat.eqb a' a then Entry n (cur t) act :: scan a l (S n) cur else scan a l (S n) cur
  | LEnd _ _ _ :: l => scan a l (S n) cur
  end.
Definition entries (a : nat) (log : list lev) : list entry := scan a log 0 (fun _ => O).
Definition call_at (log : list (@lev T D)) (b : nat) (c : @call T) : Prop := exists t, nth_error log b = Some (LBegin t c).
(** The call that began at [b] ended at [e]. *)
Definition ended (log : list (@lev T D)) (b e : nat) (c : @call T) (res : @result D) : Prop :=
  (b < e)%nat /\ exists t, nth_error log b = Some (LBegin t c) /\ nth_error log e = Some (LEnd t c res)
  /\ forall n c', (b < n < e)%nat -> nth_error log n <> Some (LBegin t c').

(** The aggregation that has the measurements of instrument [i] with attributes [k], by the j-th view, for reader [r]. *)
Definition stream (W : @mem V K A) (r : nat) (i : N) (j : nat) (k : K) : option nat :=
  match find_i i (tS W r) with
  | Some ms => match nth_error ms j with Some m => find_k keq k (tM W m) | None => None end
  | None => None
  end.

(** The aggregation as if it were used by one thread: [acts] are possible from [x] on, and lead to [y]. *)
Inductive sequential (w : V) : A -> list (@action D) -> A -> Prop :=
| seq_nil x : sequential w x [] x
| seq_measure x v l y : sequential w (aggregate1 x v) l y -> sequential w x (AMeasure v :: l) y
| seq_collect x now l y : sequential w (fst (collect1 w x now)) l y -> sequential w x (ACollect now (snd (collect1 w x now)) :: l) y.

(** What a program may call: readers that exist, callbacks that do not create observable instruments. *)
Definition may_call (readers : nat) (c : @call T) : Prop :=
  match c with
  | Collect r ds _ _ => (r < readers)%nat /\ ~ In CreatesObservable ds
  | _ => True
  end.
Definition calls_ok (readers : nat) (es : list yev) : Prop := forall t c, In (YBegin t c) es -> may_call readers c.

(** The values that a call is to add to the stream of instrument [i], view [w] and attributes [k] in reader [r]. *)
Definition fits (w : V) (k : K) (attrs : T) : bool := match key_of w attrs with Some k' => keq k k' | None => false end.
Definition work (r : nat) (i : N) (w : V) (k : K) (c : @call T) : list Z :=
  match c with
  | Measure i' attrs v _ => if (N.eqb i' i && fits w k attrs)%bool then [v] else []
  | CreateObservable => []
  | Collect r' ds _ _ =>
      flat_map (fun d =>
        match d with
        | Observes i' attrs v => if (Nat.eqb r' r && N.eqb i' i && fits w k attrs)%bool then [v] else []
        | Records i' attrs v _ => if (N.eqb i' i && fits w k attrs)%bool then [v] else []
        | CreatesObservable => []
        end) ds
  end.
(** The call uses instrument [i] with these attributes at this time, in reader [r]. *)
Definition uses (c : @call T) (r : nat) (i : N) (attrs : T) (now : Z) : Prop :=
  match c with
  | Measure i' attrs' _ now' => i' = i /\ attrs' = attrs /\ now' = now
  | CreateObservable => False
  | Collect r' ds _ now' =>
      exists v, (r' = r /\ now' = now /\ In (Observes i attrs v) ds) \/ In (Records i attrs v now) ds
  end.
(** The history of a stream. *)
Definition history (W : @mem V K A) (log : list (@lev T D)) (r : nat) (i : N) (j : nat) (k : K) : list entry :=
  match stream W r i j k with Some a => entries a log | None => [] end.
Definition by_call (b : nat) (h : list (entry)) : list (@action D) := map e_act (filter (fun e => Nat.eqb (e_call e) b) h).
(** An entry lies between the beginning and the end of its call. *)
Definition within (log : list (@lev T D)) (e : entry) : Prop :=
  (e_call e < e_pos e)%nat /\ (exists c, call_at log (e_call e) c)
  /\ forall x c res, ended log (e_call e) x c res -> (e_pos e < x)%nat.
(** The points that collections were given. *)
Definition points_of (acts : list (@action D)) : list D :=
  flat_map (fun act => match act with ACollect _ (Some d) => [d] | _ => [] end) acts.
(** [ps] is what the streams of instrument [i] and its j-th view gave to call [b], each once. *)
Definition reports (W : @mem V K A) (log : list (@lev T D)) (r b : nat) (i : N) (j : nat) (ps : list D) : Prop :=
  exists ks, ForallOrdPairs (fun k k' => keq k k' = false) ks
  /\ (forall k, points_of (by_call b (history W log r i j k)) <> [] -> exists k', In k' ks /\ keq k k' = true)
  /\ ps = flat_map (fun k => points_of (by_call b (history W log r i j k))) ks.
(** What a call that has ended has done to a stream with history [h], where it had to add [ws].  A collection of the stream's
    reader has also collected it, unless nothing was done to it before the collection began. *)
Definition completes (r b : nat) (h : list entry) (ws : list Z) (c : @call T) (res : @result D) : Prop :=
  match res with
  | RDone | RTimeout => by_call b h = map AMeasure ws
  | RTypeError => exists l, map AMeasure ws = by_call b h ++ l
  | RMetrics _ =>
      exists r' ds tmo now, c = Collect r' ds tmo now /\
      if Nat.eqb r' r then
        (exists p, by_call b h = map AMeasure ws ++ [ACollect now p])
        \/ (by_call b h = [] /\ ws = [] /\ forall e, In e h -> (b <= e_pos e)%nat)
      else by_call b h = map AMeasure ws
  | RKeyError | RRuntimeError => False
  end.
(** How far a call that has not ended may have come. *)
Definition underway (r b : nat) (h : list entry) (ws : list Z) (c : @call T) : Prop :=
  exists l rest, by_call b h ++ l = map AMeasure ws ++ rest
  /\ (rest = [] \/ exists ds tmo now p, c = Collect r ds tmo now /\ rest = [ACollect now p]).
(** The attributes that a call uses cannot be hashed. *)
Definition unhashable_in (readers : nat) (c : @call T) : Prop :=
  exists r i attrs now j w, (r < readers)%nat /\ uses c r i attrs now /\ nth_error (views_of r i) j = Some w /\ key_of w attrs = None.
(** Whatever the schedule, every call that has begun ends. *)
Inductive settles (y : @sys V T K A D) : Prop :=
| settles_idle : (forall t, y_thr y t = None) -> settles y
| settles_step : (exists t, tstep keq y t <> None) -> (forall t y', tstep keq y t = Some y' -> settles y') -> settles y.
End Spec.
