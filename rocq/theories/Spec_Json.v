(** The grammar of JSON (RFC 8259), with what each text stands for; independent of the functions of Model_Json.

    [python]: also the texts NaN, Infinity and -Infinity, and escaped surrogates that are not a pair. *)
From Verif Require Export Model_Json.

(** ws = *( blank / tab / line feed / carriage return ) *)
Definition ws (s : str) : Prop := Forall (fun c => In c [32; 9; 10; 13]%N) s.
Definition digit (c : N) : Prop := In c (lit "0123456789").
Definition digits (s : str) : Prop := s <> [] /\ Forall digit s.
Fixpoint number (s : str) (acc : Z) : Z := match s with [] => acc | c :: r => number r (10 * acc + (Z.of_N c - 48))%Z end.
(** int = zero / ( digit1-9 *DIGIT ) *)
Definition int_part (s : str) : Prop := digits s /\ (s = lit "0" \/ hd 0%N s <> chr "0").
Definition minus (neg : bool) : str := if neg then lit "-" else [].
(** frac = decimal-point 1*DIGIT; exp = e [ minus / plus ] 1*DIGIT *)
Definition frac_part (s : str) : Prop := exists ds, digits ds /\ s = lit "." ++ ds.
Definition exp_part (s : str) : Prop :=
  exists e sign ds, (e = lit "e" \/ e = lit "E") /\ (sign = [] \/ sign = lit "+" \/ sign = lit "-") /\ digits ds /\ s = e ++ sign ++ ds.
(** A number with a fraction or an exponent *)
Definition float_text (s : str) : Prop :=
  exists neg i fe, int_part i /\ s = minus neg ++ i ++ fe
  /\ (frac_part fe \/ exp_part fe \/ exists f e, frac_part f /\ exp_part e /\ fe = f ++ e).

(** %x5C followed by one of these *)
Definition escapes : list (N * N) :=
  [(chr "/", chr "/"); (chr "\", chr "\"); (34, 34); (chr "b", 8); (chr "f", 12); (chr "n", 10); (chr "r", 13); (chr "t", 9)]%N.
Definition hexd (c v : N) : Prop :=
  In (c, v) (combine (lit "0123456789abcdefABCDEF") [0; 1; 2; 3; 4; 5; 6; 7; 8; 9; 10; 11; 12; 13; 14; 15; 10; 11; 12; 13; 14; 15]%N).
(** uXXXX *)
Definition u_text (s : str) (v : N) : Prop :=
  exists a b c d w x y z, s = lit "\u" ++ [a; b; c; d] /\ hexd a w /\ hexd b x /\ hexd c y /\ hexd d z
  /\ v = (4096 * w + 256 * x + 16 * y + z)%N.
Definition high (v : N) : Prop := (55296 <= v <= 56319)%N.
Definition low (v : N) : Prop := (56320 <= v <= 57343)%N.

Section Grammar.
Variable python : bool.
(** Which float a number stands for *)
Variable means : str -> Z -> Prop.

(** The characters between quotation marks, and the text *)
Inductive chars : str -> str -> Prop :=
| ch_nil : chars [] []
| ch_plain c s t : (32 <= c)%N -> c <> 34%N -> c <> chr "\" -> chars s t -> chars (c :: s) (c :: t)
| ch_escape e c s t : In (e, c) escapes -> chars s t -> chars (chr "\" :: e :: s) (c :: t)
| ch_unit u v s t : u_text u v -> ~ high v -> ~ low v -> chars s t -> chars (u ++ s) (v :: t)
| ch_pair u v u' v' s t : u_text u v -> u_text u' v' -> high v -> low v' -> chars s t ->
    chars (u ++ u' ++ s) ((65536 + (v - 55296) * 1024 + (v' - 56320))%N :: t)
| ch_lone u v s t : python = true -> u_text u v -> (high v /\ (forall u' v' s', s = u' ++ s' -> u_text u' v' -> ~ low v')) \/ low v ->
    chars s t -> chars (u ++ s) (v :: t).
Definition quoted (s t : str) : Prop := exists c, chars c t /\ s = [34%N] ++ c ++ [34%N].

Inductive doc : str -> jv -> Prop :=
| d_null : doc (lit "null") JNull
| d_true : doc (lit "true") (JBool true)
| d_false : doc (lit "false") (JBool false)
| d_int neg i : int_part i -> doc (minus neg ++ i) (JInt (if neg then - number i 0 else number i 0))
| d_float s f : float_text s -> means s f -> doc s (JFloat f)
| d_other s f : python = true -> In s [lit "NaN"; lit "Infinity"; lit "-Infinity"] -> means s f -> doc s (JFloat f)
| d_str s t : quoted s t -> doc s (JStr t)
| d_arr0 w : ws w -> doc (lit "[" ++ w ++ lit "]") (JArr [])
| d_arr s l : items s l -> doc (lit "[" ++ s ++ lit "]") (JArr l)
| d_obj0 w : ws w -> doc (lit "{" ++ w ++ lit "}") (JObj [])
| d_obj s l : members s l -> doc (lit "{" ++ s ++ lit "}") (JObj l)
with items : str -> list jv -> Prop :=
| i_one a s b j : ws a -> doc s j -> ws b -> items (a ++ s ++ b) [j]
| i_more a s b j r l : ws a -> doc s j -> ws b -> items r l -> items (a ++ s ++ b ++ lit "," ++ r) (j :: l)
with members : str -> list (str * jv) -> Prop :=
| m_one a q k b c s d j : ws a -> quoted q k -> ws b -> ws c -> doc s j -> ws d ->
    members (a ++ q ++ b ++ lit ":" ++ c ++ s ++ d) [(k, j)]
| m_more a q k b c s d j r l : ws a -> quoted q k -> ws b -> ws c -> doc s j -> ws d -> members r l ->
    members (a ++ q ++ b ++ lit ":" ++ c ++ s ++ d ++ lit "," ++ r) ((k, j) :: l).
(** JSON-text = ws value ws *)
Definition json_text (s : str) (j : jv) : Prop := exists a t b, ws a /\ doc t j /\ ws b /\ s = a ++ t ++ b.
End Grammar.

(** Everywhere in a value *)
Inductive every (P : jv -> Prop) : jv -> Prop :=
| ev_leaf j : P j -> (forall l, j <> JArr l) -> (forall l, j <> JObj l) -> every P j
| ev_arr l : P (JArr l) -> Forall (every P) l -> every P (JArr l)
| ev_obj l : P (JObj l) -> Forall (fun kv => every P (snd kv)) l -> every P (JObj l).
(** The keys of an object differ. *)
Definition keys_differ (j : jv) : Prop := forall l, j = JObj l -> NoDup (map fst l).
(** The texts in it *)
Definition texts (P : str -> Prop) (j : jv) : Prop :=
  (forall s, j = JStr s -> P s) /\ (forall l, j = JObj l -> Forall (fun kv => P (fst kv)) l).
(** Unicode text: code points that are not surrogates.  A Python string may also have lone surrogates; [unpaired]: but none is
    followed by one with which it would be a pair. *)
Definition unicode (s : str) : Prop := Forall (fun c => (c <= 1114111)%N /\ ~ high c /\ ~ low c) s.
Definition unpaired (s : str) : Prop := Forall (fun c => (c <= 1114111)%N) s /\ forall a h l b, s = a ++ [h; l] ++ b -> high h -> ~ low l.
(** The floats in it are numbers. *)
Definition finite_floats (kind : Z -> float_kind) (j : jv) : Prop := forall f, j = JFloat f -> exists r, kind f = Finite r.

(** What is assumed of Python's floats: the repr of a finite float is a number that stands for it, and Python reads it so. *)
Definition python_floats (kind : Z -> float_kind) (read_float : str -> Z) (nan inf neg_inf : Z) : Prop :=
  forall f, match kind f with
            | Finite r => float_text r /\ read_float r = f
            | NaN => f = nan | PosInf => f = inf | NegInf => f = neg_inf
            end.
(** What texts mean to Python *)
Definition float_of (read_float : str -> Z) (nan inf neg_inf : Z) (s : str) (f : Z) : Prop :=
  (float_text s /\ f = read_float s) \/ (s = lit "NaN" /\ f = nan) \/ (s = lit "Infinity" /\ f = inf) \/ (s = lit "-Infinity" /\ f = neg_inf).

(** A value and what is in it *)
Inductive part (x : jv) : jv -> Prop :=
| part_here : part x x
| part_arr l j : In j l -> part x j -> part x (JArr l)
| part_obj l k j : In (k, j) l -> part x j -> part x (JObj l).
