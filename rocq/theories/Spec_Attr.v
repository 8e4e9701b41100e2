(** Specifications for attributes and bounded containers. *)
From Verif Require Export Model_Attr.
From Verif Require Import Spec_Utf8.

(** The last [n] elements. *)
Definition lastn {A} (n : nat) (l : list A) : list A := skipn (length l - n) l.

(** Of each key the last assignment, in the order of these assignments. *)
Fixpoint latest {K V} `{EqDec K} (l : list (K * V)) : list (K * V) :=
  match l with
  | [] => []
  | (k, v) :: l' => if in_dec eq_dec k (map fst l') then latest l' else (k, v) :: latest l'
  end.

(** ** Cleaning *)

(** [s'] is [s] cut to the limit. *)
Definition cut_to (limit : option nat) (s s' : str) : Prop :=
  match limit with
  | None => s' = s
  | Some n => (exists r, s = s' ++ r) /\ length s' = Nat.min n (length s)
  end.

(** A primitive value and what is stored for it: byte strings are decoded, strings cut. *)
Inductive cleaned_prim (limit : option nat) : pyval -> pyval -> Prop :=
| cl_bool b : cleaned_prim limit (PBool b) (PBool b)
| cl_int sub z : cleaned_prim limit (PInt sub z) (PInt sub z)
| cl_float sub f : cleaned_prim limit (PFloat sub f) (PFloat sub f)
| cl_str sub s s' : cut_to limit s s' ->
    cleaned_prim limit (PStr sub s) (PStr (match limit with None => sub | Some _ => false end) s')
| cl_bytes sub b s s' : utf8_text s b -> cut_to limit s s' ->
    cleaned_prim limit (PBytes sub b) (PStr false s').

(** The four types of the elements of a stored sequence. *)
Definition elem_type (t : pytype) : Prop := t = TBool \/ t = TInt \/ t = TFloat \/ t = TStr.

(** Elements of sequences may also be None; undecodable byte strings become None. *)
Inductive cleaned_elem (limit : option nat) : pyval -> pyval -> Prop :=
| cl_none : cleaned_elem limit PNone PNone
| cl_undecodable sub b : (forall s, ~ utf8_text s b) -> cleaned_elem limit (PBytes sub b) PNone
| cl_prim v v' : cleaned_prim limit v v' -> cleaned_elem limit v v'.

Definition homogeneous (l : list pyval) : Prop :=
  exists t, elem_type t /\ Forall (fun e => e = PNone \/ type_of e = t) l.

(** A value and what is stored for it; values that are not in this relation are invalid. *)
Inductive cleaned (limit : option nat) : pyval -> pyval -> Prop :=
| cl_primitive v v' : cleaned_prim limit v v' -> cleaned limit v v'
| cl_sequence tup l l' : Forall2 (cleaned_elem limit) l l' -> homogeneous l' ->
    cleaned limit (PSeq tup l) (PSeq true l').

(** The values that may be stored: a primitive or a homogeneous tuple of primitives and None, no
    string in it longer than the limit. *)
Definition str_within (limit : option nat) (v : pyval) : Prop :=
  match v, limit with PStr _ s, Some n => length s <= n | _, _ => True end.
Definition storable (limit : option nat) (v : pyval) : Prop :=
  match v with
  | PBool _ | PInt _ _ | PFloat _ _ | PStr _ _ => str_within limit v
  | PSeq tup l => tup = true /\ homogeneous l /\ Forall (str_within limit) l
  | _ => False
  end.

(** ** Counting *)

(** Keys of [a'] that [a] does not have. *)
Definition new_keys {K V} `{EqDec K} (a a' : dict K V) : nat :=
  length (filter (fun k => if in_dec eq_dec k (keys a) then false else true) (keys a')).

(** New keys that assignments entered, and entries that deletions took away, along a run. *)
Fixpoint ba_entered (a : battrs) (ops : list baop) : nat :=
  match ops with
  | [] => 0
  | o :: ops' => new_keys (ba_dict a) (ba_dict (ba_step a o)) + ba_entered (ba_step a o) ops'
  end.
Fixpoint ba_deleted (a : battrs) (ops : list baop) : nat :=
  match ops with
  | [] => 0
  | o :: ops' =>
      match o with BDel _ => length (ba_dict a) - length (ba_dict (ba_step a o)) | _ => 0 end
      + ba_deleted (ba_step a o) ops'
  end.

(** The assignments of a list that are taken, with the values stored for them. *)
Inductive takes (limit : option nat) : list (pyval * pyval) -> list (str * pyval) -> Prop :=
| tk_nil : takes limit [] []
| tk_yes sub k v v' rest l : k <> [] -> cleaned limit v v' -> takes limit rest l ->
    takes limit ((PStr sub k, v) :: rest) ((k, v') :: l)
| tk_no key v rest l : (forall sub k v', key = PStr sub k -> k <> [] -> ~ cleaned limit v v') ->
    takes limit rest l -> takes limit ((key, v) :: rest) l.

(** The items that calls on a BoundedList offer. *)
Definition offered {A} (o : blop A) : list A := match o with LAppend x => [x] | LExtend xs => xs end.

(** A length limit as the code gets it: any natural number, or none. *)
Definition zlim (limit : option nat) : option Z := option_map Z.of_nat limit.
