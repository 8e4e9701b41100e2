(** Python dictionaries ([dict] and [OrderedDict]) as association lists in insertion order. *)
From Verif Require Export Model_Str.

Class EqDec (A : Type) := eq_dec : forall x y : A, {x = y} + {x <> y}.
#[export] Instance EqDec_str : EqDec str := str_eq_dec.
#[export] Instance EqDec_N : EqDec N := N.eq_dec.
#[export] Instance EqDec_Z : EqDec Z := Z.eq_dec.
#[export] Instance EqDec_nat : EqDec nat := Nat.eq_dec.
#[export] Instance EqDec_bool : EqDec bool := bool_dec.

Section Dict.
Context {K V : Type} `{EqDec K}.

Definition dict := list (K * V).

Definition keys (d : dict) : list K := map fst d.
Definition values (d : dict) : list V := map snd d.

(** [d.get(k)] *)
Fixpoint dget (k : K) (d : dict) : option V :=
  match d with
  | [] => None
  | (k', v) :: d' => if eq_dec k k' then Some v else dget k d'
  end.

(** [k in d] *)
Definition dmem (k : K) (d : dict) : bool :=
  match dget k d with Some _ => true | None => false end.

(** [d[k] = v]: an existing key keeps its position, a new key goes last. *)
Fixpoint dset (k : K) (v : V) (d : dict) : dict :=
  match d with
  | [] => [(k, v)]
  | (k', v') :: d' => if eq_dec k k' then (k', v) :: d' else (k', v') :: dset k v d'
  end.

(** [d.pop(k, None)] without its result. *)
Fixpoint ddel (k : K) (d : dict) : dict :=
  match d with
  | [] => []
  | (k', v') :: d' => if eq_dec k k' then d' else (k', v') :: ddel k d'
  end.

(** [d.update(e)] *)
Definition dupdate (d e : dict) : dict :=
  fold_left (fun acc kv => dset (fst kv) (snd kv) acc) e d.

(** [dict(pairs)] *)
Definition dict_of (l : list (K * V)) : dict := dupdate [] l.

(** Same content, ignoring order: Python's [==] on dicts up to value equality. *)
Definition dict_equiv (d e : dict) : Prop := forall k, dget k d = dget k e.

End Dict.
Arguments dict : clear implicits.
