(** Attribute cleaning, BoundedAttributes, BoundedList and BoundedDict.

    Sources: opentelemetry-api/src/opentelemetry/attributes/__init__.py,
    opentelemetry-sdk/src/opentelemetry/sdk/util/__init__.py. *)
From Verif Require Export Model_Dict Model_Url.

(** ** Python values that can be offered as attribute keys or values *)

(** [sub] marks an instance of a proper subclass (IntEnum, a str subclass, ...).
    Floats are opaque; [PObj] is any value that is neither None, primitive nor a [Sequence]
    (a dict, a set, a user object). *)
Inductive pyval :=
| PNone
| PBool (b : bool)
| PInt (sub : bool) (z : Z)
| PFloat (sub : bool) (f : Z)
| PStr (sub : bool) (s : str)
| PBytes (sub : bool) (b : list N)
| PSeq (tuple : bool) (l : list pyval)
| PObj (id : N).

(** [value.decode()] (strict UTF-8): the bytes are well-formed exactly when encoding what the
    replacing decoder makes of them gives them back. *)
Definition strict_decode (b : list N) : option str :=
  match utf8_encode (decode_replace b) with
  | Some b' => if list_eq_dec N.eq_dec b' b then Some (decode_replace b) else None
  | None => None
  end.

(** [s[:n]] *)
Definition slice_to (n : Z) (s : str) : str :=
  firstn (Z.to_nat (if Z.ltb n 0 then Z.of_nat (length s) + n else n)) s.

(** attributes/__init__.py 110-125 [_clean_attribute_value]; [None] stands for Python's None. *)
Definition clean_value (v : pyval) (limit : option Z) : option pyval :=
  let cut sub s :=
    match limit with
    | Some n => PStr false (slice_to n s)
    | None => PStr sub s
    end in
  match v with
  | PNone => None
  | PBytes _ b => match strict_decode b with Some s => Some (cut false s) | None => None end
  | PStr sub s => Some (cut sub s)
  | _ => Some v
  end.

(** [type(element)], as far as it matters here: [TOther] is not in [_VALID_ATTR_VALUE_TYPES]. *)
Inductive pytype := TBool | TInt | TFloat | TStr | TBytes | TOther.
Definition type_of (v : pyval) : pytype :=
  match v with
  | PBool _ => TBool
  | PInt false _ => TInt
  | PFloat false _ => TFloat
  | PStr false _ => TStr
  | PBytes false _ => TBytes
  | _ => TOther
  end.
Definition pytype_eq_dec : forall a b : pytype, {a = b} + {a <> b}.
Proof. decide equality. Defined.

(** attributes/__init__.py 65-98: the loop over a sequence. *)
Fixpoint clean_seq (first : option pytype) (l : list pyval) (limit : option Z) : option (list pyval) :=
  match l with
  | [] => Some []
  | e :: l' =>
      match clean_value e limit with
      | None => option_map (cons PNone) (clean_seq first l' limit)
      | Some e' =>
          match type_of e' with
          | TOther => None
          | t =>
              match first with
              | None => option_map (cons e') (clean_seq (Some t) l' limit)
              | Some t0 => if pytype_eq_dec t t0
                           then option_map (cons e') (clean_seq first l' limit)
                           else None
              end
          end
      end
  end.

(** attributes/__init__.py 31-107 [_clean_attribute].  The logging is not modelled. *)
Definition valid_key (k : pyval) : option str :=
  match k with PStr _ (c :: s) => Some (c :: s) | _ => None end.
Definition clean_attribute (key value : pyval) (limit : option Z) : option pyval :=
  match valid_key key with
  | None => None
  | Some _ =>
      match value with
      | PBool _ | PStr _ _ | PBytes _ _ | PInt _ _ | PFloat _ _ => clean_value value limit
      | PSeq _ l => option_map (PSeq true) (clean_seq None l limit)
      | PNone | PObj _ => None
      end
  end.

(** ** Bounded dictionaries *)

(** The common part of attributes/__init__.py 177-188 and sdk/util/__init__.py 129-134: delete the
    old entry or make room, then insert at the end. *)
Section Bounded.
Context {K V : Type} `{EqDec K}.
Definition bput (maxlen : option nat) (k : K) (v : V) (d : dict K V) (dropped : nat) : dict K V * nat :=
  if dmem k d then (ddel k d ++ [(k, v)], dropped)
  else match maxlen with
       | Some m => if Nat.eqb (length d) m then (tl d ++ [(k, v)], S dropped) else (d ++ [(k, v)], dropped)
       | None => (d ++ [(k, v)], dropped)
       end.
End Bounded.

(** attributes/__init__.py 128-204 [BoundedAttributes] *)
Record battrs := BA {
  ba_maxlen : option nat; ba_max_value_len : option Z; ba_immutable : bool;
  ba_dict : dict str pyval; ba_dropped : nat
}.

(** The outcome of a call that may raise. *)
Inductive outcome_of (A : Type) := Ok (a : A) | Raises (e : string).
Arguments Ok {A} a. Arguments Raises {A} e.

(** [__setitem__] 168-188 *)
Definition ba_set_raw (key value : pyval) (a : battrs) : battrs :=
  let put d n := BA (ba_maxlen a) (ba_max_value_len a) (ba_immutable a) d n in
  match ba_maxlen a with
  | Some O => put (ba_dict a) (S (ba_dropped a))
  | _ =>
      match valid_key key, clean_attribute key value (ba_max_value_len a) with
      | Some k, Some v => let (d, n) := bput (ba_maxlen a) k v (ba_dict a) (ba_dropped a) in put d n
      | _, _ => a
      end
  end.
Definition ba_set (key value : pyval) (a : battrs) : outcome_of battrs :=
  if ba_immutable a then Raises "TypeError" else Ok (ba_set_raw key value a).
(** [__delitem__] 190-194 *)
Definition ba_del (key : pyval) (a : battrs) : outcome_of battrs :=
  if ba_immutable a then Raises "TypeError"
  else match key with
       | PStr _ k => if dmem k (ba_dict a)
                     then Ok (BA (ba_maxlen a) (ba_max_value_len a) false (ddel k (ba_dict a)) (ba_dropped a))
                     else Raises "KeyError"
       | _ => Raises "KeyError"
       end.
(** [__init__] 135-160 *)
Definition ba_new (maxlen : option Z) (attrs : list (pyval * pyval)) (immutable : bool)
    (max_value_len : option Z) : outcome_of battrs :=
  let go m :=
    let a := fold_left (fun a kv => ba_set_raw (fst kv) (snd kv) a) attrs (BA m max_value_len false [] 0) in
    Ok (BA m max_value_len immutable (ba_dict a) (ba_dropped a)) in
  match maxlen with
  | None => go None
  | Some z => if Z.ltb z 0 then Raises "ValueError" else go (Some (Z.to_nat z))
  end.

Inductive baop := BSet (k v : pyval) | BDel (k : pyval).
(** A call that raises changes nothing. *)
Definition ba_step (a : battrs) (o : baop) : battrs :=
  match (match o with BSet k v => ba_set k v a | BDel k => ba_del k a end) with
  | Ok a' => a'
  | Raises _ => a
  end.

(** sdk/util/__init__.py 46-93 [BoundedList] over [deque(maxlen)] *)
Section BList.
Context {A : Type}.
Record blist := BL { bl_maxlen : option nat; bl_items : list A; bl_dropped : nat }.
Definition bl_new (maxlen : option nat) : blist := BL maxlen [] 0.
(** [deque.append] with a bound drops from the left. *)
Definition dq_append (maxlen : option nat) (x : A) (l : list A) : list A :=
  match maxlen with
  | Some m => skipn (S (length l) - m) (l ++ [x])
  | None => l ++ [x]
  end.
(** 71-78 *)
Definition bl_append (x : A) (b : blist) : blist :=
  BL (bl_maxlen b) (dq_append (bl_maxlen b) x (bl_items b))
     (match bl_maxlen b with
      | Some m => if Nat.eqb (length (bl_items b)) m then S (bl_dropped b) else bl_dropped b
      | None => bl_dropped b
      end).
(** 80-86 *)
Definition bl_extend (xs : list A) (b : blist) : blist :=
  BL (bl_maxlen b) (fold_left (fun l x => dq_append (bl_maxlen b) x l) xs (bl_items b))
     (match bl_maxlen b with
      | Some m => bl_dropped b + (length xs + length (bl_items b) - m)
      | None => bl_dropped b
      end).
(** 88-93 *)
Definition bl_from_seq (maxlen : option nat) (xs : list A) : blist := bl_extend xs (bl_new maxlen).
Inductive blop := LAppend (x : A) | LExtend (xs : list A).
Definition bl_step (b : blist) (o : blop) : blist :=
  match o with LAppend x => bl_append x b | LExtend xs => bl_extend xs b end.
End BList.
Arguments blist : clear implicits. Arguments blop : clear implicits.

(** sdk/util/__init__.py 97-152 [BoundedDict] *)
Section BDict.
Context {K V : Type} `{EqDec K}.
Record bdict := BD { bd_maxlen : option nat; bd_dict : dict K V; bd_dropped : nat }.
(** 123-134 *)
Definition bd_set (k : K) (v : V) (b : bdict) : bdict :=
  match bd_maxlen b with
  | Some O => BD (bd_maxlen b) (bd_dict b) (S (bd_dropped b))
  | _ => let (d, n) := bput (bd_maxlen b) k v (bd_dict b) (bd_dropped b) in BD (bd_maxlen b) d n
  end.
(** 136-137; a missing key raises KeyError *)
Definition bd_del (k : K) (b : bdict) : bdict :=
  BD (bd_maxlen b) (ddel k (bd_dict b)) (bd_dropped b).
Inductive bdop := DSet (k : K) (v : V) | DDel (k : K).
Definition bd_step (b : bdict) (o : bdop) : bdict :=
  match o with DSet k v => bd_set k v b | DDel k => bd_del k b end.
(** 146-152 [from_map] *)
Definition bd_from_map (maxlen : option nat) (m : list (K * V)) : bdict :=
  fold_left (fun b kv => bd_set (fst kv) (snd kv) b) m (BD maxlen [] 0).
End BDict.
Arguments bdict : clear implicits. Arguments bdop : clear implicits.
