(** Specification vocabulary: which measurement should end up where. *)
From Verif Require Export Spec_View Model_Storage.
Local Open Scope Z_scope.

Section Storage.
Variable float_int : Z -> option Z.
Variable obj_hash : N -> bool.
Variable fnmatch : str -> str -> bool.
Context {Scope : Type} `{EqDec Scope}.
Variable sc_name : Scope -> str.
Variable sc_version : Scope -> option str.
Variable sc_schema : Scope -> str.
Variable obj : N -> instr.
Variable scope_of : N -> Scope.
Context {G A D : Type}.
Variable default : G.
Variable is_default : G -> bool.
Variable is_explicit : G -> bool.
Variable create_agg : G -> N -> mattrs -> Z -> A.
Variable aggregate1 : A -> Z -> A.
Variable collect1 : temporality -> A -> Z -> A * option D.
Variable shape_of : G -> N -> shape.

(** A view applies to an instrument iff every criterion it has holds, and it does not ask for explicit buckets
    of an observable instrument. *)
Definition applies (i : N) (v : @view G) : Prop :=
  (forall t, v_type v = Some t -> t (in_kind (obj i)) = true)
  /\ (forall p, v_iname v = Some p -> fnmatch (in_name (obj i)) p = true)
  /\ (forall p, v_iunit v = Some p -> fnmatch (in_unit (obj i)) p = true)
  /\ (forall n, v_mname v = Some n -> sc_name (scope_of i) = n)
  /\ (forall n, v_mversion v = Some n -> sc_version (scope_of i) = Some n)
  /\ (forall n, v_mschema v = Some n -> sc_schema (scope_of i) = n)
  /\ ~ (synchronous (in_kind (obj i)) = false /\ is_explicit (v_agg v) = true).

Variable views : list (@view G).
(** The views of an instrument: all that apply, or the default view if none does. *)
Definition streams (applying : N -> @view G -> bool) (i : N) : list (@view G) :=
  match filter (applying i) views with [] => [DEFAULT_VIEW default] | vs => vs end.

(** What concerns reader [r] and instrument [i] in a history. *)
Definition ops_of (r : nat) (i : N) (o : cop) : list vop :=
  match o with
  | CMeasure j attrs v now => if N.eqb j i then [VMeasure attrs v now] else []
  | CCollect r' obs timeout now =>
      if Nat.eqb r' r
      then flat_map (fun ob : observation => let '(j, attrs, v) := ob in if N.eqb j i then [VMeasure attrs v now] else []) obs
           ++ (if timeout then [] else [VCollect now])
      else []
  end.
Definition ops_for (r : nat) (i : N) (h : list cop) : list vop := flat_map (ops_of r i) h.
Definition used (r : nat) (h : list cop) : list N :=
  flat_map (fun o => match o with
                     | CMeasure j _ _ _ => [j]
                     | CCollect r' obs _ _ => if Nat.eqb r' r then map (fun ob : observation => fst (fst ob)) obs else []
                     end) h.
(** The operations that are not collections of other readers. *)
Definition concerns (r : nat) (o : cop) : bool := match o with CMeasure _ _ _ _ => true | CCollect r' _ _ _ => Nat.eqb r' r end.
Definition nonempty {B} (l : list B) : option (list B) := match l with [] => None | _ => Some l end.
(** Each once, in the order of the first occurrence. *)
Fixpoint once (seen l : list N) : list N :=
  match l with
  | [] => []
  | x :: l' => if in_dec N.eq_dec x seen then once seen l' else x :: once (x :: seen) l'
  end.

(** The series of one view of one instrument for one reader: see C46 for what [vm_run] does. *)
Definition series_of (rd : @reader G) (r : nat) (i : N) (h : list cop) (v : @view G) : @series A :=
  vm_run float_int obj_hash (create_agg (agg_for obj is_default rd v i) i) aggregate1
    (collect1 (rd_temporality rd (in_kind (obj i)))) (v_keys v) (ops_for r i h).
Definition storage_of (applying : N -> @view G -> bool) (rd : @reader G) (r : nat) (h : list cop) : @storage G A :=
  map (fun i => (i, map (fun v => VMch v (series_of rd r i h v)) (streams applying i))) (once [] (used r h)).

(** The metric that a view reports of an instrument, if there are points and it is not dropped. *)
Definition reported (rd : @reader G) (i : N) (v : @view G) (points : list D) : list (@metric D) :=
  let g := if is_default (v_agg v) then rd_aggregation rd (in_kind (obj i)) else v_agg v in
  match points, shape_of g i with
  | [], _ | _, ShDrop => []
  | _, sh =>
      [Metric (match v_name v with Some (c :: s) => c :: s | _ => in_name (obj i) end)
              (match v_descr v with Some (c :: s) => c :: s | _ => in_descr (obj i) end)
              (in_unit (obj i)) sh (rd_temporality rd (in_kind (obj i)))
              (match in_kind (obj i) with ICounter | IObservableCounter => true | _ => false end) points]
  end.
Definition metrics_of (applying : N -> @view G -> bool) (rd : @reader G) (r : nat) (h : list cop) (now : Z) (i : N) : list (@metric D) :=
  flat_map (fun v => reported rd i v (snd (vm_collect (collect1 (rd_temporality rd (in_kind (obj i)))) (series_of rd r i h v) now)))
    (streams applying i).

(** The attribute values of all measurements are hashable. *)
Definition hashable (attrs : option mattrs) : Prop :=
  forall a k v, attrs = Some a -> In (k, v) a -> canon float_int obj_hash v <> None.
Definition cop_hashable (o : cop) : Prop :=
  match o with
  | CMeasure _ attrs _ _ => hashable attrs
  | CCollect _ obs _ _ => Forall (fun ob : observation => hashable (snd (fst ob))) obs
  end.
End Storage.
