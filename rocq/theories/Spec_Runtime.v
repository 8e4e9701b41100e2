(** Specifications for the runtime properties. *)
From Verif Require Export Spec_Context Model_Runtime.
From Verif Require Import Spec_Utf8.

(** ** Header lists in environment variables *)

(** [m] is [h] without the whitespace around it. *)
Definition stripped (h m : str) : Prop :=
  exists a b, h = a ++ m ++ b /\ Forall whitespace a /\ Forall whitespace b /\ trimmed m.

(** The text of a name or value in a header: unescaped, decoded, without whitespace around it. *)
Definition entry_text (plus : bool) (raw t : str) : Prop :=
  exists u, text_read (if plus then plus_is_blank raw else raw) u /\ stripped u t.

(** [n = v] where [n] is a token and [v] a word of value characters, each between optional blanks. *)
Definition env_pair (vchr : N -> Prop) (m n v : str) : Prop :=
  m = n ++ [61%N] ++ v
  /\ (exists w1 k w2, n = w1 ++ k ++ w2 /\ blanks w1 /\ token k /\ blanks w2)
  /\ (exists w1 x w2, v = w1 ++ x ++ w2 /\ blanks w1 /\ Forall vchr x /\ blanks w2).

Definition strict_pair := env_pair bval_chr.
Definition liberal_pair := env_pair (fun c => c = 32%N \/ bval_chr c).

(** What a well-formed member [h] of the list means: a strict member is url-decoded; with [liberal]
    a member with blanks inside its value is also taken, literally. *)
Inductive env_member (pylower : str -> str) (liberal : bool) (h : str) : str * str -> Prop :=
| em_strict m n v tn tv : stripped h m -> strict_pair m n v ->
    entry_text false n tn -> entry_text false v tv ->
    env_member pylower liberal h (pylower tn, tv)
| em_liberal m n v tn tv : liberal = true -> stripped h m ->
    (forall n' v', ~ strict_pair m n' v') -> liberal_pair m n v ->
    stripped n tn -> stripped v tv ->
    env_member pylower liberal h (pylower tn, tv).

(** The well-formed members of a list of pieces, in order. *)
Inductive env_members (pylower : str -> str) (liberal : bool) : list str -> list (str * str) -> Prop :=
| ems_nil : env_members pylower liberal [] []
| ems_yes p ps nv nvs : env_member pylower liberal p nv -> env_members pylower liberal ps nvs ->
    env_members pylower liberal (p :: ps) (nv :: nvs)
| ems_no p ps nvs : (forall nv, ~ env_member pylower liberal p nv) ->
    env_members pylower liberal ps nvs -> env_members pylower liberal (p :: ps) nvs.

(** ** Nesting *)

(** Nested use of attach/detach by unit [u], with anything going on in other units, and with
    detaches of dead or foreign tokens thrown in. *)
Inductive nested (u : nat) : runtime -> runtime -> Prop :=
| nest_nil s : nested u s s
| nest_block s c s2 s' :
    nested u (fst (attach u c s)) s2 ->
    nested u (detach u (snd (attach u c s)) s2) s' -> nested u s s'
| nest_other s o s' : rop_unit o <> u -> nested u (rt_step s o) s' -> nested u s s'
| nest_stray s t s' :
    (forall k, nth_error (rt_toks s) t = Some k -> tk_used k = true \/ tk_unit k <> u) ->
    nested u (detach u t s) s' -> nested u s s'.
