(** The metrics SDK with threads: any number of threads call instruments while readers collect.

    Sources: opentelemetry-sdk/src/opentelemetry/sdk/metrics/_internal/measurement_consumer.py 58-145,
    metric_reader_storage.py 62-251, _view_instrument_match.py 90-153, aggregation.py (the locks of the aggregations).

    The code of a call is a program of reads and writes of the shared objects and of taking and giving back locks; a thread
    can be interrupted between any two of them.  Objects (matches of a view with an instrument, aggregations) have numbers and
    are made by the program, so that two threads that both make one make two. *)
From Verif Require Export Model_Dict.
Local Open Scope Z_scope.

(** The lock of the measurement consumer, of a reader's storage, of a match, of an aggregation. *)
Inductive lock := LC | LS (r : nat) | LM (m : nat) | LA (a : nat).
Definition lock_eqb (a b : lock) : bool :=
  match a, b with
  | LC, LC => true
  | LS x, LS y | LM x, LM y | LA x, LA y => Nat.eqb x y
  | _, _ => false
  end.

Section Threads.
(** [V]: a view matched with an instrument, in the storage of a reader (all that does not change in a match); [T]: the
    attributes of a measurement; [K]: frozenset(attributes.items()), compared by [keq]; [A]: the state of an aggregation;
    [D]: a data point. *)
Context {V T K A D : Type}.
Variable keq : K -> K -> bool.
(** _view_instrument_match.py 93-105; None: the attributes are not hashable *)
Variable key_of : V -> T -> option K.
(** 110-129, aggregate, collect *)
Variable new_agg : V -> T -> Z -> A.
Variable aggregate1 : A -> Z -> A.
Variable collect1 : V -> A -> Z -> A * option D.
(** metric_reader_storage.py 94-113: what an instrument is matched with in a reader's storage *)
Variable views_of : nat -> N -> list V.
Variable readers : nat.

(** What is done to an aggregation (recorded when it is done; no step depends on it). *)
Inductive action := AMeasure (v : Z) | ACollect (now : Z) (p : option D).

(** A program: the instructions that other threads can tell. *)
Inductive prog (R : Type) : Type :=
| Ret (r : R)
| Acquire (l : lock) (p : prog R)
| Release (l : lock) (p : prog R)
| GetS (r : nat) (f : list (N * list nat) -> prog R)         (* read _instrument_view_instrument_matches of reader r *)
| SetS (r : nat) (i : N) (ms : list nat) (p : prog R)        (* put an entry into it *)
| NewM (v : V) (f : nat -> prog R)                           (* make a match *)
| GetV (m : nat) (f : V -> prog R)                           (* read what does not change in it *)
| GetM (m : nat) (f : list (K * nat) -> prog R)              (* read its _attributes_aggregation *)
| SetM (m : nat) (k : K) (a : nat) (p : prog R)              (* put an entry into it *)
| NewA (x : A) (f : nat -> prog R)                           (* make an aggregation *)
| GetA (a : nat) (f : A -> prog R)                           (* read its fields *)
| SetA (a : nat) (x : A) (act : action) (p : prog R).        (* write them *)
#[local] Arguments Ret {R}. #[local] Arguments Acquire {R}. #[local] Arguments Release {R}. #[local] Arguments GetS {R}.
#[local] Arguments SetS {R}. #[local] Arguments NewM {R}. #[local] Arguments GetV {R}. #[local] Arguments GetM {R}.
#[local] Arguments SetM {R}. #[local] Arguments NewA {R}. #[local] Arguments GetA {R}. #[local] Arguments SetA {R}.
Fixpoint bind {R R'} (p : prog R) (g : R -> prog R') : prog R' :=
  match p with
  | Ret r => g r
  | Acquire l q => Acquire l (bind q g)
  | Release l q => Release l (bind q g)
  | GetS r f => GetS r (fun x => bind (f x) g)
  | SetS r i ms q => SetS r i ms (bind q g)
  | NewM v f => NewM v (fun x => bind (f x) g)
  | GetV m f => GetV m (fun x => bind (f x) g)
  | GetM m f => GetM m (fun x => bind (f x) g)
  | SetM m k a q => SetM m k a (bind q g)
  | NewA x f => NewA x (fun y => bind (f y) g)
  | GetA a f => GetA a (fun x => bind (f x) g)
  | SetA a x act q => SetA a x act (bind q g)
  end.

(** ** The code *)
Fixpoint find_i (i : N) (tab : list (N * list nat)) : option (list nat) :=
  match tab with [] => None | (j, ms) :: tab' => if N.eqb i j then Some ms else find_i i tab' end.
Fixpoint find_k (k : K) (tab : list (K * nat)) : option nat :=
  match tab with [] => None | (k', a) :: tab' => if keq k k' then Some a else find_k k tab' end.
(** d[i] = ms: the entry with an equal key is replaced. *)
Fixpoint put_i (i : N) (ms : list nat) (tab : list (N * list nat)) : list (N * list nat) :=
  match tab with [] => [(i, ms)] | (j, ms') :: tab' => if N.eqb i j then (j, ms) :: tab' else (j, ms') :: put_i i ms tab' end.
Fixpoint put_k (k : K) (a : nat) (tab : list (K * nat)) : list (K * nat) :=
  match tab with [] => [(k, a)] | (k', a') :: tab' => if keq k k' then (k', a) :: tab' else (k', a') :: put_k k a tab' end.

(** How a call ends: it returns; TypeError (attributes that are not hashable), MetricsTimeoutError, KeyError, RuntimeError
    (a dict that changes while it is iterated over); a collection returns the points of each instrument, by view. *)
Inductive result := RDone | RTypeError | RTimeout | RKeyError | RRuntimeError | RMetrics (out : list (N * list (list D))).

(** aggregation.py 178-185 and the same in the others: [aggregate], under the aggregation's lock *)
Definition aggregate_in (a : nat) (v : Z) : prog result :=
  Acquire (LA a) (GetA a (fun x => SetA a (aggregate1 x v) (AMeasure v) (Release (LA a) (Ret RDone)))).
(** _view_instrument_match.py 91-134 [consume_measurement] *)
Definition consume_match (attrs : T) (v now : Z) (m : nat) : prog result :=
  GetV m (fun w =>
  match key_of w attrs with
  | None => Ret RTypeError
  | Some k =>
      let go := GetM m (fun tab => match find_k k tab with None => Ret RKeyError | Some a => aggregate_in a v end) in
      GetM m (fun tab =>
      match find_k k tab with
      | Some _ => go
      | None =>
          Acquire (LM m) (GetM m (fun tab =>
          match find_k k tab with
          | Some _ => Release (LM m) go
          | None => NewA (new_agg w attrs now) (fun a => SetM m k a (Release (LM m) go))
          end))
      end)
  end).
Fixpoint new_matches (vs : list V) (g : list nat -> prog (list nat)) : prog (list nat) :=
  match vs with [] => g [] | v :: vs' => NewM v (fun m => new_matches vs' (fun ms => g (m :: ms))) end.
(** metric_reader_storage.py 79-117 [_get_or_init_view_instrument_match].  (The test and the look-up of 85-86, and of 90-91,
    are one step; entries are never removed.) *)
Definition get_or_init (r : nat) (i : N) : prog (list nat) :=
  GetS r (fun tab =>
  match find_i i tab with
  | Some ms => Ret ms
  | None =>
      Acquire (LS r) (GetS r (fun tab =>
      match find_i i tab with
      | Some ms => Release (LS r) (Ret ms)
      | None => new_matches (views_of r i) (fun ms => SetS r i ms (Release (LS r) (Ret ms)))
      end))
  end).
(** 119-128 [consume_measurement] *)
Fixpoint feed_matches (attrs : T) (v now : Z) (ms : list nat) : prog result :=
  match ms with
  | [] => Ret RDone
  | m :: ms' => bind (consume_match attrs v now m) (fun o => match o with RDone => feed_matches attrs v now ms' | _ => Ret o end)
  end.
Definition consume_storage (i : N) (attrs : T) (v now : Z) (r : nat) : prog result :=
  bind (get_or_init r i) (feed_matches attrs v now).
(** measurement_consumer.py 80-92 [consume_measurement] *)
Fixpoint consume_in (i : N) (attrs : T) (v now : Z) (rs : list nat) : prog result :=
  match rs with
  | [] => Ret RDone
  | r :: rs' => bind (consume_storage i attrs v now r) (fun o => match o with RDone => consume_in i attrs v now rs' | _ => Ret o end)
  end.
Definition consume (i : N) (attrs : T) (v now : Z) : prog result := consume_in i attrs v now (seq 0 readers).

(** _view_instrument_match.py 136-153 [collect]: iterating over the dict's values.  [left]: how many are left; the iterator
    raises RuntimeError if the size of the dict is not [size]. *)
Fixpoint iter_aggs (m size left : nat) (now : Z) (ps : list D) : prog (option (list D)) :=
  GetM m (fun tab =>
  if negb (Nat.eqb (length tab) size) then Ret None
  else
    match left with
    | O => Ret (Some ps)
    | S left' =>
        match nth_error tab (size - left) with
        | None => Ret None
        | Some (_, a) =>
            GetV m (fun w =>
            Acquire (LA a) (GetA a (fun x =>
              let (x', p) := collect1 w x now in
              SetA a x' (ACollect now p) (Release (LA a)
                (iter_aggs m size left' now (match p with Some d => ps ++ [d] | None => ps end))))))
        end
    end).
Definition collect_match (now : Z) (m : nat) : prog (option (list D)) :=
  Acquire (LM m) (GetM m (fun tab => bind (iter_aggs m (length tab) (length tab) now []) (fun o => Release (LM m) (Ret o)))).
Fixpoint collect_matches (now : Z) (ms : list nat) (out : list (list D)) : prog (option (list (list D))) :=
  match ms with
  | [] => Ret (Some out)
  | m :: ms' => bind (collect_match now m) (fun o => match o with None => Ret None | Some ps => collect_matches now ms' (out ++ [ps]) end)
  end.
(** metric_reader_storage.py 130-251 [collect], without making metrics out of the points *)
Fixpoint iter_instruments (r size left : nat) (now : Z) (out : list (N * list (list D))) : prog (option (list (N * list (list D)))) :=
  GetS r (fun tab =>
  if negb (Nat.eqb (length tab) size) then Ret None
  else
    match left with
    | O => Ret (Some out)
    | S left' =>
        match nth_error tab (size - left) with
        | None => Ret None
        | Some (i, ms) =>
            bind (collect_matches now ms []) (fun o =>
            match o with None => Ret None | Some l => iter_instruments r size left' now (out ++ [(i, l)]) end)
        end
    end).
Definition collect_storage (r : nat) (now : Z) : prog (option (list (N * list (list D)))) :=
  Acquire (LS r) (GetS r (fun tab =>
  bind (iter_instruments r (length tab) (length tab) now []) (fun o => Release (LS r) (Ret o)))).
(** What the callbacks do while a reader collects: they observe, use instruments that are not observable, or create another
    observable instrument. *)
Inductive during := Observes (i : N) (attrs : T) (v : Z) | Records (i : N) (attrs : T) (v now : Z) | CreatesObservable.
(** measurement_consumer.py 94-101 [register_asynchronous_instrument] *)
Definition register : prog result := Acquire LC (Release LC (Ret RDone)).
(** 116-141 *)
Fixpoint observe_in (r : nat) (ds : list during) (now : Z) : prog result :=
  match ds with
  | [] => Ret RDone
  | d :: ds' =>
      bind (match d with
            | Observes i attrs v => consume_storage i attrs v now r
            | Records i attrs v now' => consume i attrs v now'
            | CreatesObservable => register
            end)
        (fun o => match o with RDone => observe_in r ds' now | _ => Ret o end)
  end.
(** 103-145 [collect]; [timeout]: MetricsTimeoutError is raised after [ds] *)
Definition collect (r : nat) (ds : list during) (timeout : bool) (now : Z) : prog result :=
  Acquire LC (bind (observe_in r ds now) (fun o =>
  match o with
  | RDone =>
      if timeout then Release LC (Ret RTimeout)
      else bind (collect_storage r now) (fun o =>
           Release LC (Ret (match o with Some out => RMetrics out | None => RRuntimeError end)))
  | _ => Release LC (Ret o)
  end)).

(** ** The system *)
Inductive call :=
| Measure (i : N) (attrs : T) (v now : Z)
| CreateObservable
| Collect (r : nat) (ds : list during) (timeout : bool) (now : Z).
Definition code (c : call) : prog result :=
  match c with
  | Measure i attrs v now => consume i attrs v now
  | CreateObservable => register
  | Collect r ds timeout now => collect r ds timeout now
  end.

(** The shared objects; those with numbers from [nM] or [nA] on do not exist yet. *)
Record mem := Mem {
  tS : nat -> list (N * list nat); tM : nat -> list (K * nat); vw : nat -> option V; st : nat -> option A; nM : nat; nA : nat }.
Definition upd {B} (f : nat -> B) (n : nat) (x : B) : nat -> B := fun m => if Nat.eqb m n then x else f m.
Definition mem0 : mem := Mem (fun _ => []) (fun _ => []) (fun _ => None) (fun _ => None) 0 0.
(** What has happened, for the record: calls beginning and ending, and what was done to aggregations. *)
Inductive lev := LBegin (t : nat) (c : call) | LDid (t a : nat) (act : action) | LEnd (t : nat) (c : call) (res : result).
Record sys := Sys { y_mem : mem; y_lock : lock -> option nat; y_thr : nat -> option (call * prog result); y_log : list lev }.
Definition sys0 : sys := Sys mem0 (fun _ => None) (fun _ => None) [].
Definition lupd (f : lock -> option nat) (l : lock) (o : option nat) : lock -> option nat := fun l' => if lock_eqb l' l then o else f l'.

(** A step of thread [t] in its call; None: it waits for a lock, or is in no call. *)
Definition tstep (y : sys) (t : nat) : option sys :=
  match y_thr y t with
  | None => None
  | Some (c, p) =>
      let W := y_mem y in
      let next q := upd (y_thr y) t (Some (c, q)) in
      match p with
      | Ret res => Some (Sys W (y_lock y) (upd (y_thr y) t None) (y_log y ++ [LEnd t c res]))
      | Acquire l q => match y_lock y l with None => Some (Sys W (lupd (y_lock y) l (Some t)) (next q) (y_log y)) | Some _ => None end
      | Release l q => Some (Sys W (lupd (y_lock y) l None) (next q) (y_log y))
      | GetS r f => Some (Sys W (y_lock y) (next (f (tS W r))) (y_log y))
      | SetS r i ms q =>
          Some (Sys (Mem (upd (tS W) r (put_i i ms (tS W r))) (tM W) (vw W) (st W) (nM W) (nA W)) (y_lock y) (next q) (y_log y))
      | NewM v f =>
          Some (Sys (Mem (tS W) (tM W) (upd (vw W) (nM W) (Some v)) (st W) (S (nM W)) (nA W)) (y_lock y) (next (f (nM W))) (y_log y))
      | GetV m f => match vw W m with Some w => Some (Sys W (y_lock y) (next (f w)) (y_log y)) | None => None end
      | GetM m f => Some (Sys W (y_lock y) (next (f (tM W m))) (y_log y))
      | SetM m k a q =>
          Some (Sys (Mem (tS W) (upd (tM W) m (put_k k a (tM W m))) (vw W) (st W) (nM W) (nA W)) (y_lock y) (next q) (y_log y))
      | NewA x f =>
          Some (Sys (Mem (tS W) (tM W) (vw W) (upd (st W) (nA W) (Some x)) (nM W) (S (nA W))) (y_lock y) (next (f (nA W))) (y_log y))
      | GetA a f => match st W a with Some x => Some (Sys W (y_lock y) (next (f x)) (y_log y)) | None => None end
      | SetA a x act q =>
          Some (Sys (Mem (tS W) (tM W) (vw W) (upd (st W) a (Some x)) (nM W) (nA W)) (y_lock y) (next q) (y_log y ++ [LDid t a act]))
      end
  end.
Inductive yev := YBegin (t : nat) (c : call) | YStep (t : nat).
Definition ystep (y : sys) (e : yev) : option sys :=
  match e with
  | YBegin t c =>
      match y_thr y t with
      | None => Some (Sys (y_mem y) (y_lock y) (upd (y_thr y) t (Some (c, code c))) (y_log y ++ [LBegin t c]))
      | Some _ => None
      end
  | YStep t => tstep y t
  end.
(** A schedule; what cannot be done is skipped. *)
Definition yrun (es : list yev) (y : sys) : sys := fold_left (fun y e => match ystep y e with Some y' => y' | None => y end) es y.

(** os.fork() in thread [t]: the child has this thread only, and the locks as they are (none of the locks above is renewed;
    metrics/_internal/export/__init__.py 512-518 [_at_fork_reinit] only starts a new ticker thread).  The record is copied too. *)
Definition fork (t : nat) (y : sys) : sys :=
  Sys (y_mem y) (y_lock y) (fun t' => if Nat.eqb t' t then y_thr y t' else None) (y_log y).
End Threads.
Arguments Ret {V K A D R}. Arguments Acquire {V K A D R}. Arguments Release {V K A D R}. Arguments GetS {V K A D R}.
Arguments SetS {V K A D R}. Arguments NewM {V K A D R}. Arguments GetV {V K A D R}. Arguments GetM {V K A D R}.
Arguments SetM {V K A D R}. Arguments NewA {V K A D R}. Arguments GetA {V K A D R}. Arguments SetA {V K A D R}.
