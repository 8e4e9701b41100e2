(** Specifications for trace state and trace context, written from the W3C Trace Context
    recommendation and independent of the model's functions. *)
From Verif Require Export Model_Str Model_Dict.

Definition blank (c : N) : Prop := c = 32%N \/ c = 9%N.         (* space or tab *)
Definition blanks (w : str) : Prop := Forall blank w.

Definition lcalpha (c : N) : Prop := (97 <= c <= 122)%N.
Definition digit (c : N) : Prop := (48 <= c <= 57)%N.
(** lcalpha / DIGIT / "_" / "-" / "*" / "/" *)
Definition key_chr (c : N) : Prop :=
  lcalpha c \/ digit c \/ c = 95%N \/ c = 45%N \/ c = 42%N \/ c = 47%N.

(** key = lcalpha 0*255( key-chr )  |  ( lcalpha / DIGIT ) 0*240 key-chr "@" lcalpha 0*13 key-chr *)
Definition w3c_key (k : str) : Prop :=
  (exists a r, k = a :: r /\ lcalpha a /\ Forall key_chr r /\ length r <= 255)
  \/ (exists a t b s,
        k = a :: t ++ [64%N] ++ b :: s /\ (lcalpha a \/ digit a) /\ lcalpha b
        /\ Forall key_chr t /\ length t <= 240 /\ Forall key_chr s /\ length s <= 13).

(** chr: printable ASCII except "," and "="; value = 0*255(chr) nblk-chr *)
Definition value_chr (c : N) : Prop := (32 <= c <= 126)%N /\ c <> 44%N /\ c <> 61%N.
Definition w3c_value (v : str) : Prop :=
  exists r c, v = r ++ [c] /\ Forall value_chr r /\ length r <= 255
              /\ value_chr c /\ c <> 32%N.

Definition w3c_pair (kv : str * str) : Prop := w3c_key (fst kv) /\ w3c_value (snd kv).

(** A well-formed trace state: at most 32 members, distinct keys, W3C grammar. *)
Definition ts_wf (d : list (str * str)) : Prop :=
  length d <= 32 /\ NoDup (map fst d) /\ Forall w3c_pair d.

(** A header member [k=v] with optional trailing blanks. *)
Definition is_member (m : str) (kv : str * str) : Prop :=
  w3c_pair kv /\ exists w, blanks w /\ m = fst kv ++ [61%N] ++ snd kv ++ w.

(** The pieces of a header between delimiters [OWS "," OWS], where a delimiter takes all
    blanks around its comma.  [first] tells whether the piece stands at the beginning. *)
Inductive ows_split : bool -> str -> list str -> Prop :=
| os_last first p :
    ~ In 44%N p ->
    (first = true \/ forall c t, p = c :: t -> ~ blank c) ->
    ows_split first p [p]
| os_cons first p w1 w2 h ps :
    ~ In 44%N p ->
    (first = true \/ forall c t, p = c :: t -> ~ blank c) ->
    (forall c t, p = t ++ [c] -> ~ blank c) ->
    blanks w1 -> blanks w2 ->
    ows_split false h ps ->
    ows_split first (p ++ w1 ++ [44%N] ++ w2 ++ h) (p :: ps).

Definition nonempty (m : str) : bool := match m with [] => false | _ => true end.

(** The non-empty members of a list of tracestate headers, in order. *)
Definition header_members (hs : list str) (ms : list str) : Prop :=
  exists pss, Forall2 (ows_split true) hs pss /\ ms = filter nonempty (concat pss).

(** The entries of a trace state other than that of key [k], in order. *)
Definition others (k : str) (d : list (str * str)) : list (str * str) :=
  filter (fun kv => if str_eq_dec k (fst kv) then false else true) d.
