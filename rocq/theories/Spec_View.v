(** Specification vocabulary for metric streams: which measurements belong together. *)
From Verif Require Export Spec_Metrics Model_View.
Local Open Scope Z_scope.

Section View.
Variable float_int : Z -> option Z.
Variable obj_hash : N -> bool.
(** The view's attribute keys; [None] keeps all. *)
Variable view_keys : option (list str).

Definition kept (k : str) : Prop := match view_keys with None => True | Some ks => In k ks end.
(** [attrs.get(k)] of the attributes given to the instrument (which may be None). *)
Definition look (attrs : option mattrs) (k : str) : option pyval :=
  match attrs with Some a => dget k a | None => None end.
(** Attributes an instrument can be given: a dict (no key twice) whose kept values are hashable. *)
Definition usable (attrs : option mattrs) : Prop :=
  (forall a, attrs = Some a -> NoDup (keys a))
  /\ forall k v, kept k -> look attrs k = Some v -> canon float_int obj_hash v <> None.

(** Two attribute sets belong to the same stream iff each kept key has equal values (for Python's
    [==]) in both, or is in neither. *)
Definition equal_values (v w : option pyval) : Prop :=
  match v, w with
  | None, None => True
  | Some v, Some w => canon float_int obj_hash v = canon float_int obj_hash w
  | _, _ => False
  end.
Definition same_stream (a b : option mattrs) : Prop :=
  forall k, kept k -> equal_values (look a k) (look b k).

Definition op_usable (o : vop) : Prop := match o with VMeasure a _ _ => usable a | VCollect _ => True end.

(** What happens to one stream: its measurements, and the collections after the first of them.
    [P] tells which attributes belong to it. *)
Fixpoint stream_ops (P : option mattrs -> bool) (started : bool) (h : list vop) : list mop :=
  match h with
  | [] => []
  | VMeasure a v _ :: h' => if P a then Measure v :: stream_ops P true h' else stream_ops P started h'
  | VCollect now :: h' => if started then Collect now :: stream_ops P true h' else stream_ops P started h'
  end.
Definition decides (P : option mattrs -> bool) (a : option mattrs) : Prop :=
  forall b, usable b -> P b = true <-> same_stream a b.

(** The part of a concurrent history that concerns one stream; what a thread did. *)
Definition log_ops {D} (k : fset) (l : list (@vlog D)) : list mop :=
  flat_map (fun e => match e with
                     | LMeasure _ k' v => if fs_eqb k k' then [Measure v] else []
                     | LCollect _ k' now _ => if fs_eqb k k' then [Collect now] else []
                     end) l.
Definition log_points {D} (k : fset) (l : list (@vlog D)) : list (option D) :=
  flat_map (fun e => match e with
                     | LMeasure _ _ _ => []
                     | LCollect _ k' _ p => if fs_eqb k k' then [p] else []
                     end) l.
Definition log_of {D} (t : nat) (l : list (@vlog D)) : list (@vlog D) :=
  filter (fun e => match e with LMeasure t' _ _ | LCollect t' _ _ _ => Nat.eqb t t' end) l.
Definition collected_points {D} (l : list (@vlog D)) : list D :=
  flat_map (fun e => match e with LCollect _ _ _ (Some d) => [d] | _ => [] end) l.
Definition collected_keys {D} (l : list (@vlog D)) : list fset :=
  flat_map (fun e => match e with LCollect _ k _ _ => [k] | _ => [] end) l.
End View.
