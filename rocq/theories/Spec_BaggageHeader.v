(** Specification vocabulary: how a text is written in a baggage header. *)
From Verif Require Export Spec_Context Spec_Utf8.

(** The characters that are written as they are. *)
Definition unreserved : str := lit "ABCDEFGHIJKLMNOPQRSTUVWXYZabcdefghijklmnopqrstuvwxyz0123456789_.-~".
Definition hex_numeral (d : N) : N := nth (N.to_nat d) (lit "0123456789ABCDEF") 0%N.
Definition percent_byte (b : N) : str := [chr "%"; hex_numeral (b / 16)%N; hex_numeral (b mod 16)%N].
(** A character and how it is written: itself, or a "%" and two hexadecimal digits for each byte of its UTF-8 form.
    [plus]: as in forms, where a blank is "+"; otherwise as in paths, where "/" stands for itself. *)
Inductive written (plus : bool) : N -> str -> Prop :=
| wr_plain c : In c unreserved \/ (plus = false /\ c = chr "/") -> written plus c [c]
| wr_blank : plus = true -> written plus (chr " ") (lit "+")
| wr_percent c bs : ~ In c unreserved -> (plus = true -> c <> chr " ") -> (plus = false -> c <> chr "/") -> utf8_form bs c ->
    written plus c (flat_map percent_byte bs).
Definition text_written (plus : bool) (s out : str) : Prop := exists pieces, Forall2 (written plus) s pieces /\ out = concat pieces.
