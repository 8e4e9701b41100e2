(** Specifications for context propagation, independent of the model's parsers. *)
From Verif Require Export Spec_Trace Model_Context.

Definition lhex_digits (n : nat) (s : str) : Prop :=
  length s = n /\ Forall (fun c => (48 <= c <= 57)%N \/ (97 <= c <= 102)%N) s.

(** [h] is a traceparent header with the given fields: version, trace id, span id, flags and
    extension ([ext] is empty or starts with "-"), possibly between blanks, possibly ending in a newline. *)
Definition traceparent_text (h v t s f ext : str) : Prop :=
  lhex_digits 2 v /\ lhex_digits 32 t /\ lhex_digits 16 s /\ lhex_digits 2 f
  /\ (ext = [] \/ exists e, ext = 45%N :: e /\ ~ In 10%N e)
  /\ exists w1 w2 nl, blanks w1 /\ blanks w2 /\ (nl = [] \/ nl = [10%N])
     /\ h = w1 ++ v ++ [45%N] ++ t ++ [45%N] ++ s ++ [45%N] ++ f ++ ext ++ w2 ++ nl.

(** Acceptable fields: not version ff, no extension in version 00, ids not all zero. *)
Definition traceparent_acceptable (v t s ext : str) : Prop :=
  v <> lit "ff" /\ (v = lit "00" -> ext = [])
  /\ t <> repeat 48%N 32 /\ s <> repeat 48%N 16.

(** A Unicode text: code points without surrogates. *)
Definition unicode_text (s : str) : Prop :=
  Forall (fun c => (c <= 1114111)%N /\ ~ (55296 <= c <= 57343)%N) s.

(** Characters Python's [str.strip] removes. *)
Definition whitespace (c : N) : Prop :=
  (9 <= c <= 13)%N \/ (28 <= c <= 32)%N \/ c = 133%N \/ c = 160%N \/ c = 5760%N
  \/ (8192 <= c <= 8202)%N \/ c = 8232%N \/ c = 8233%N \/ c = 8239%N \/ c = 8287%N \/ c = 12288%N.

(** No whitespace at either end. *)
Definition trimmed (s : str) : Prop :=
  (forall c t, s = c :: t -> ~ whitespace c) /\ (forall c t, s = t ++ [c] -> ~ whitespace c).

(** ** Baggage *)

(** RFC 7230 token characters as the code lists them: printable ASCII except blank and the
    delimiters [DQUOTE ( ) , / : ; < = > ? @ backslash [ ] { }]. *)
Definition token_chr (c : N) : Prop :=
  (33 <= c <= 126)%N /\
  ~ In c [34; 40; 41; 44; 47; 58; 59; 60; 61; 62; 63; 64; 91; 92; 93; 123; 125]%N.
(** Printable ASCII except blank, DQUOTE, comma, semicolon and backslash. *)
Definition bval_chr (c : N) : Prop :=
  (33 <= c <= 126)%N /\ ~ In c [34; 44; 59; 92]%N.

Definition token (s : str) : Prop := s <> [] /\ Forall token_chr s.
Definition bval (s : str) : Prop := Forall bval_chr s.

(** A baggage property: [OWS token OWS] or [OWS token OWS = OWS value OWS]. *)
Definition bproperty (p : str) : Prop :=
  exists w1 k w2, blanks w1 /\ token k /\ blanks w2 /\
    (p = w1 ++ k ++ w2 \/
     exists w3 v w4, blanks w3 /\ bval v /\ blanks w4
       /\ p = w1 ++ k ++ w2 ++ [61%N] ++ w3 ++ v ++ w4).

(** value *( ";" property ) *)
Definition bvalue_text (v : str) : Prop :=
  exists p0 props, v = join [59%N] (p0 :: props) /\ bval p0 /\ Forall bproperty props
    /\ Forall (fun p => ~ In 59%N p) props.

(** A list member the extractor takes: at most 4096 characters, [name=value]. *)
Definition baggage_piece (p : str) (nv : str * str) : Prop :=
  (N.of_nat (length p) <= 4096)%N /\ p = fst nv ++ [61%N] ++ snd nv
  /\ token (fst nv) /\ bvalue_text (snd nv).

(** The members of a header that are taken, in order. *)
Inductive taken : list str -> list (str * str) -> Prop :=
| taken_nil : taken [] []
| taken_yes p ps nv nvs : baggage_piece p nv -> taken ps nvs -> taken (p :: ps) (nv :: nvs)
| taken_no p ps nvs : (forall nv, ~ baggage_piece p nv) -> taken ps nvs -> taken (p :: ps) nvs.

(** ** B3 and Jaeger *)

(** Hexadecimal digits as [\da-fA-F] and [int(_, 16)] accept them: ASCII digits, letters a-f in
    either case, and the decimal digits of other scripts ([nd] gives their values). *)
Definition hex_digit (nd : N -> option N) (c d : N) : Prop :=
  ((48 <= c <= 57)%N /\ d = (c - 48)%N) \/ ((65 <= c <= 70)%N /\ d = (c - 55)%N)
  \/ ((97 <= c <= 102)%N /\ d = (c - 87)%N) \/ ((128 <= c)%N /\ nd c = Some d).

(** [s] is written with [n] hexadecimal digits and denotes [z]. *)
Inductive hex_number (nd : N -> option N) : nat -> str -> Z -> Prop :=
| hexn_nil : hex_number nd 0 [] 0
| hexn_snoc n s z c d : hex_number nd n s z -> hex_digit nd c d ->
    hex_number nd (S n) (s ++ [c]) (16 * z + Z.of_N d).

(** The decimal digits of Unicode have the values 0 to 9. *)
Definition decimal (nd : N -> option N) : Prop := forall c d, nd c = Some d -> (d < 10)%N.

(** ** B3 *)

(** The first value of a header. *)
Definition header (g : getter) (k h : str) : Prop := exists r, g_get g k = Some (h :: r).
(** The sampling states that ask for sampling. *)
Definition b3_accept (sm : str) : Prop := In sm [lit "1"; lit "True"; lit "true"; lit "d"].
Definition no_dash (s : str) : Prop := ~ In 45%N s.

(** The carrier states the ids [t] and [s] and the sampling decision [b]: in a single header b3 =
    t-s, t-s-sampled or t-s-sampled-parent (the decision is deferred in the first), or, when that header is
    missing or empty, in the headers x-b3-traceid, x-b3-spanid, x-b3-sampled and x-b3-flags. *)
Inductive b3_states (g : getter) (t s : str) (b : bool) : Prop :=
| b3_deferred : header g (lit "b3") (t ++ [45%N] ++ s) -> no_dash t -> no_dash s -> b = true -> b3_states g t s b
| b3_sampled sm : header g (lit "b3") (t ++ [45%N] ++ s ++ [45%N] ++ sm) -> no_dash t -> no_dash s -> no_dash sm ->
    (b = true <-> b3_accept sm) -> b3_states g t s b
| b3_parent sm p : header g (lit "b3") (t ++ [45%N] ++ s ++ [45%N] ++ sm ++ [45%N] ++ p) ->
    no_dash t -> no_dash s -> no_dash sm -> no_dash p ->
    (b = true <-> b3_accept sm) -> b3_states g t s b
| b3_multi : (forall h, header g (lit "b3") h -> h = []) ->
    header g (lit "x-b3-traceid") t -> header g (lit "x-b3-spanid") s ->
    (b = true <-> (exists sm, header g (lit "x-b3-sampled") sm /\ b3_accept sm) \/ header g (lit "x-b3-flags") (lit "1")) ->
    b3_states g t s b.

(** [s] does not contain [p]. *)
Definition free_of (p s : str) : Prop := forall a b, s <> a ++ p ++ b.

(** ** Composite propagators *)

(** Extraction by [e] only writes the context entry [k], and what it writes depends only on the
    carrier and on the old value of that entry; it never raises. *)
Definition local_to (k : str) (e : getter -> context -> option context) : Prop :=
  exists f : getter -> obj -> obj, forall g ctx, exists ctx',
    e g ctx = Some ctx' /\ get_value k ctx' = f g (get_value k ctx)
    /\ forall k', k' <> k -> get_value k' ctx' = get_value k' ctx.

(** Two contexts that no reader can tell apart. *)
Definition same_context (a b : context) : Prop := forall k, get_value k a = get_value k b.
