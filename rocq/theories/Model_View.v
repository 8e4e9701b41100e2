(** One metric stream: a view matched with an instrument, sequentially and with threads.

    Source: opentelemetry-sdk/src/opentelemetry/sdk/metrics/_internal/_view_instrument_match.py. *)
From Verif Require Export Model_Metrics.
Local Open Scope Z_scope.

(** ** [frozenset(attributes.items())] (line 105) *)

(** What Python's [==] and [hash] see of an attribute value: booleans, integers and floats of the
    same value are the same, a subclass instance is like its base. *)
Inductive ckey :=
| CNone | CNum (z : Z) | CFloat (f : Z) | CStr (s : str) | CBytes (b : list N)
| CTuple (l : list ckey) | CObj (id : N).

Section Canon.
(** The integer that equals a float, if there is one.  (nan, which differs from itself, is not modelled.) *)
Variable float_int : Z -> option Z.
(** Whether an object is hashable (dicts and sets are not); objects are compared by identity. *)
Variable obj_hash : N -> bool.

(** [None]: unhashable, [TypeError]. *)
Fixpoint canon (v : pyval) : option ckey :=
  match v with
  | PNone => Some CNone
  | PBool b => Some (CNum (if b then 1 else 0))
  | PInt _ z => Some (CNum z)
  | PFloat _ f => Some (match float_int f with Some z => CNum z | None => CFloat f end)
  | PStr _ s => Some (CStr s)
  | PBytes _ b => Some (CBytes b)
  | PSeq true l =>
      option_map CTuple
        ((fix go (l : list pyval) : option (list ckey) :=
            match l with
            | [] => Some []
            | x :: l' => match canon x, go l' with Some c, Some cs => Some (c :: cs) | _, _ => None end
            end) l)
  | PSeq false _ => None
  | PObj id => if obj_hash id then Some (CObj id) else None
  end.

Fixpoint ckey_eqb (a b : ckey) : bool :=
  match a, b with
  | CNone, CNone => true
  | CNum x, CNum y => Z.eqb x y
  | CFloat x, CFloat y => Z.eqb x y
  | CStr x, CStr y => str_eqb x y
  | CBytes x, CBytes y => str_eqb x y
  | CTuple l, CTuple m =>
      (fix go (l m : list ckey) : bool :=
         match l, m with
         | [], [] => true
         | x :: l', y :: m' => ckey_eqb x y && go l' m'
         | _, _ => false
         end) l m
  | CObj x, CObj y => N.eqb x y
  | _, _ => false
  end.

Definition fset := list (str * ckey).
(** [None]: some value is unhashable. *)
Fixpoint frozen (attrs : mattrs) : option fset :=
  match attrs with
  | [] => Some []
  | (k, v) :: a' =>
      match canon v, frozen a' with Some c, Some f => Some ((k, c) :: f) | _, _ => None end
  end.
Definition pair_eqb (a b : str * ckey) : bool := str_eqb (fst a) (fst b) && ckey_eqb (snd a) (snd b).
Definition subset (a b : fset) : bool := forallb (fun x => existsb (pair_eqb x) b) a.
Definition fs_eqb (a b : fset) : bool := subset a b && subset b a.

(** ** Consuming a measurement *)

(** Lines 94-103: the attributes of the stream.  [keys] is the view's [attribute_keys]. *)
Definition stream_attrs (keys : option (list str)) (attrs : option mattrs) : mattrs :=
  let attrs := match attrs with Some a => a | None => [] end in
  match keys with
  | Some ks => filter (fun kv => existsb (str_eqb (fst kv)) ks) attrs
  | None => attrs
  end.

(** Aggregations are parameters: how one is created for attributes at a time (lines 110-129), fed and
    collected (under its own lock). *)
Section Match.
Context {A D : Type} (create1 : mattrs -> Z -> A) (aggregate1 : A -> Z -> A)
  (collect1 : A -> Z -> A * option D).
Variable view_keys : option (list str).

Definition series := list (fset * A).
Fixpoint find_series (k : fset) (s : series) : option A :=
  match s with [] => None | (k', a) :: s' => if fs_eqb k k' then Some a else find_series k s' end.
Fixpoint upd_series (k : fset) (f : A -> A) (s : series) : series :=
  match s with
  | [] => []
  | (k', a) :: s' => if fs_eqb k k' then (k', f a) :: s' else (k', a) :: upd_series k f s'
  end.

(** [consume_measurement] 91-134, by one thread; [now] is what time_ns() returns if a new series is
    needed.  [None]: TypeError. *)
Definition vm_consume (s : series) (attrs : option mattrs) (v : Z) (now : Z) : option series :=
  let sa := stream_attrs view_keys attrs in
  match frozen sa with
  | None => None
  | Some k =>
      let s1 := match find_series k s with Some _ => s | None => s ++ [(k, create1 sa now)] end in
      Some (upd_series k (fun a => aggregate1 a v) s1)
  end.
(** [collect] 136-153; an empty list of points stands for None. *)
Fixpoint vm_collect (s : series) (now : Z) : series * list D :=
  match s with
  | [] => ([], [])
  | (k, a) :: s' =>
      let (a', p) := collect1 a now in
      let (s'', ps) := vm_collect s' now in
      ((k, a') :: s'', match p with Some d => d :: ps | None => ps end)
  end.

Inductive vop := VMeasure (attrs : option mattrs) (v : Z) (now : Z) | VCollect (now : Z).
(** A measurement whose attributes are unhashable raises and changes nothing. *)
Definition vm_step (s : series) (o : vop) : series :=
  match o with
  | VMeasure attrs v now => match vm_consume s attrs v now with Some s' => s' | None => s end
  | VCollect now => fst (vm_collect s now)
  end.
Definition vm_run (h : list vop) : series := fold_left vm_step h [].

(** ** The same with threads

    Each thread makes one call.  A step is: the unlocked membership test (107), taking the lock (108),
    the second test with creation and insertion (109-130, under the lock), releasing the lock, the
    aggregation (132-134, atomic under the aggregation's lock); for [collect]: taking the lock (142),
    collecting one aggregation (143-148, atomic under its lock), releasing the lock and returning.
    Dict look-ups and insertions are atomic (GIL). *)
Record mcall := MC { mc_attrs : option mattrs; mc_value : Z; mc_now : Z }.
Inductive vpc :=
| VNew
| VTest (c : mcall) (sa : mattrs) (k : fset)       (* about to run line 107 *)
| VWant (c : mcall) (sa : mattrs) (k : fset)       (* line 108, waiting for the lock *)
| VHold (c : mcall) (sa : mattrs) (k : fset)       (* lines 109-130, lock held *)
| VRelease (c : mcall) (k : fset)                  (* end of the with block *)
| VAggregate (c : mcall) (k : fset)                (* line 132 *)
| VDone (c : mcall) (k : fset)
| VTypeError (c : mcall)
| VCWant (now : Z)                                 (* collect: waiting for the lock *)
| VCHold (now : Z) (i : nat) (ps : list D)         (* about to collect aggregation i *)
| VCDone (now : Z) (ps : list D).
Inductive vev := VCallConsume (t : nat) (c : mcall) | VCallCollect (t : nat) (now : Z) | VStep (t : nat).

(** [vs_log] is history only: what was done to which series by whom, in order. *)
Inductive vlog := LMeasure (t : nat) (k : fset) (v : Z) | LCollect (t : nat) (k : fset) (now : Z) (p : option D).
Record vsys := VS {
  vs_series : series; vs_lock : option nat; vs_pc : nat -> vpc; vs_log : list vlog
}.
Definition vs_init : vsys := VS [] None (fun _ => VNew) [].
Definition set_pc (f : nat -> vpc) (t : nat) (p : vpc) : nat -> vpc :=
  fun t' => if Nat.eqb t t' then p else f t'.

Definition vstep (s : vsys) (e : vev) : vsys :=
  let ser := vs_series s in
  let go t p := VS ser (vs_lock s) (set_pc (vs_pc s) t p) (vs_log s) in
  match e with
  | VCallConsume t c =>
      match vs_pc s t with
      | VNew => let sa := stream_attrs view_keys (mc_attrs c) in
                match frozen sa with
                | None => go t (VTypeError c)
                | Some k => go t (VTest c sa k)
                end
      | _ => s
      end
  | VCallCollect t now => match vs_pc s t with VNew => go t (VCWant now) | _ => s end
  | VStep t =>
      match vs_pc s t with
      | VTest c sa k =>
          match find_series k ser with Some _ => go t (VAggregate c k) | None => go t (VWant c sa k) end
      | VWant c sa k =>
          match vs_lock s with
          | Some _ => s
          | None => VS ser (Some t) (set_pc (vs_pc s) t (VHold c sa k)) (vs_log s)
          end
      | VHold c sa k =>
          let ser' := match find_series k ser with Some _ => ser | None => ser ++ [(k, create1 sa (mc_now c))] end in
          VS ser' (vs_lock s) (set_pc (vs_pc s) t (VRelease c k)) (vs_log s)
      | VRelease c k => VS ser None (set_pc (vs_pc s) t (VAggregate c k)) (vs_log s)
      | VAggregate c k =>
          VS (upd_series k (fun a => aggregate1 a (mc_value c)) ser) (vs_lock s)
             (set_pc (vs_pc s) t (VDone c k)) (vs_log s ++ [LMeasure t k (mc_value c)])
      | VCWant now =>
          match vs_lock s with
          | Some _ => s
          | None => VS ser (Some t) (set_pc (vs_pc s) t (VCHold now 0 [])) (vs_log s)
          end
      | VCHold now i ps =>
          match nth_error ser i with
          | Some (k, a) =>
              let (a', p) := collect1 a now in
              VS (upd_series k (fun _ => a') ser) (vs_lock s)
                 (set_pc (vs_pc s) t (VCHold now (S i) (match p with Some d => ps ++ [d] | None => ps end)))
                 (vs_log s ++ [LCollect t k now p])
          | None => VS ser None (set_pc (vs_pc s) t (VCDone now ps)) (vs_log s)
          end
      | _ => s
      end
  end.
Definition vs_run (evs : list vev) : vsys := fold_left vstep evs vs_init.
End Match.
End Canon.
