(** Reading percent-encoded texts, after RFC 3986 and the Unicode standard. *)
From Verif Require Export Model_Str.
Local Open Scope N_scope.

(** Well-formed UTF-8 (Unicode standard, table 3-7): the bytes and the character they stand for. *)
Definition continuation (b : N) : Prop := 128 <= b <= 191.
Inductive utf8_form : list N -> N -> Prop :=
| uf1 b : b < 128 -> utf8_form [b] b
| uf2 b1 b2 : 194 <= b1 <= 223 -> continuation b2 -> utf8_form [b1; b2] (64 * (b1 - 192) + (b2 - 128))
| uf3 b1 b2 b3 : 224 <= b1 <= 239 -> continuation b2 -> continuation b3 -> (b1 = 224 -> 160 <= b2) -> (b1 = 237 -> b2 <= 159) ->
    utf8_form [b1; b2; b3] (64 * 64 * (b1 - 224) + 64 * (b2 - 128) + (b3 - 128))
| uf4 b1 b2 b3 b4 : 240 <= b1 <= 244 -> continuation b2 -> continuation b3 -> continuation b4 -> (b1 = 240 -> 144 <= b2) -> (b1 = 244 -> b2 <= 143) ->
    utf8_form [b1; b2; b3; b4] (64 * 64 * 64 * (b1 - 240) + 64 * 64 * (b2 - 128) + 64 * (b3 - 128) + (b4 - 128)).
(** Bytes that stand for a text, every one of them well formed. *)
Definition utf8_text (s : str) (b : list N) : Prop :=
  exists pieces, Forall2 (fun c bs => utf8_form bs c) s pieces /\ b = concat pieces.
Definition is_char (bs : list N) : Prop := exists c, utf8_form bs c.
(** The bytes p begin a character but are not all of it. *)
Definition begins (p : list N) : Prop := p <> [] /\ exists q, q <> [] /\ is_char (p ++ q).
(** The text that bytes stand for: character by character; a byte that begins no character, and the longest beginning of a character that does not
    go on, are replaced by one U+FFFD each (Unicode standard, "Best practices for using U+FFFD"). *)
Inductive decoded : list N -> str -> Prop :=
| dc_nil : decoded [] []
| dc_char bs c rest t : utf8_form bs c -> decoded rest t -> decoded (bs ++ rest) (c :: t)
| dc_cut p rest t : begins p -> match rest with [] => True | b :: _ => ~ begins (p ++ [b]) /\ ~ is_char (p ++ [b]) end -> decoded rest t ->
    decoded (p ++ rest) (65533 :: t)
| dc_bad b rest t : ~ begins [b] -> ~ is_char [b] -> decoded rest t -> decoded (b :: rest) (65533 :: t).

(** A hexadecimal digit and its value. *)
Definition hex_numeral_value (c v : N) : Prop := (48 <= c <= 57 /\ v = c - 48) \/ (65 <= c <= 70 /\ v = c - 55) \/ (97 <= c <= 102 /\ v = c - 87).
(** "%" and two hexadecimal digits stand for a byte; all else stands for itself. *)
Inductive unescaped : str -> list N -> Prop :=
| ue_nil : unescaped [] []
| ue_percent a b va vb s bs : hex_numeral_value a va -> hex_numeral_value b vb -> unescaped s bs -> unescaped (chr "%" :: a :: b :: s) (16 * va + vb :: bs)
| ue_other c s bs : (c = chr "%" -> forall a b s' va vb, s = a :: b :: s' -> ~ (hex_numeral_value a va /\ hex_numeral_value b vb)) ->
    unescaped s bs -> unescaped (c :: s) (c :: bs).
(** A text with escapes: each longest run of ASCII characters is unescaped and decoded; other characters stand for themselves. *)
Inductive text_read : str -> str -> Prop :=
| tr_nil : text_read [] []
| tr_wide c s t : 128 <= c -> text_read s t -> text_read (c :: s) (c :: t)
| tr_run r s bs t u : r <> [] -> Forall (fun c => c < 128) r -> match s with [] => True | c :: _ => 128 <= c end ->
    unescaped r bs -> decoded bs t -> text_read s u -> text_read (r ++ s) (t ++ u).
(** In forms and in the baggage header, "+" stands for a blank. *)
Definition plus_is_blank (s : str) : str := map (fun c => if N.eq_dec c (chr "+") then chr " " else c) s.
