(** UTF-8 and the percent encoding functions of [urllib.parse] (Python standard library),
    which baggage, Jaeger and environment header parsing rely on. *)
From Verif Require Export Model_Str.

(** ** UTF-8 *)

Definition is_surrogate (c : N) : bool := in_range 55296 57343 c.
Definition is_codepoint (c : N) : bool := N.leb c 1114111.

(** [chr(c).encode("utf-8")]; [None]: UnicodeEncodeError. *)
Definition utf8_char (c : N) : option (list N) :=
  if N.ltb c 128 then Some [c]
  else if N.ltb c 2048 then Some [192 + c / 64; 128 + c mod 64]%N
  else if is_surrogate c then None
  else if N.ltb c 65536 then Some [224 + c / 4096; 128 + (c / 64) mod 64; 128 + c mod 64]%N
  else if N.leb c 1114111 then
    Some [240 + c / 262144; 128 + (c / 4096) mod 64; 128 + (c / 64) mod 64; 128 + c mod 64]%N
  else None.

Fixpoint utf8_encode (s : str) : option (list N) :=
  match s with
  | [] => Some []
  | c :: s' => match utf8_char c, utf8_encode s' with
               | Some b, Some r => Some (b ++ r)
               | _, _ => None
               end
  end.

Definition REPLACEMENT : N := 65533.

(** Decoder state: inside a sequence, [need] continuation bytes are missing, the next one
    must be in [lo..hi], [acc] are the bits so far. *)
Inductive dstate := DStart | DCont (need : nat) (lo hi acc : N).

(** What a byte does at the start of a sequence: an output character or a new state. *)
Definition utf8_lead (b : N) : N + dstate :=
  if N.ltb b 128 then inl b
  else if in_range 194 223 b then inr (DCont 1 128 191 (b - 192)%N)
  else if N.eqb b 224 then inr (DCont 2 160 191 0%N)
  else if N.eqb b 237 then inr (DCont 2 128 159 13%N)
  else if in_range 225 239 b then inr (DCont 2 128 191 (b - 224)%N)
  else if N.eqb b 240 then inr (DCont 3 144 191 0%N)
  else if in_range 241 243 b then inr (DCont 3 128 191 (b - 240)%N)
  else if N.eqb b 244 then inr (DCont 3 128 143 4%N)
  else inl REPLACEMENT.

(** [bytes.decode("utf-8", "replace")]: an ill-formed sequence is replaced by one U+FFFD
    for its longest prefix that could start a well-formed one. *)
Fixpoint utf8_decode (st : dstate) (bs : list N) : str :=
  match bs with
  | [] => match st with DStart => [] | DCont _ _ _ _ => [REPLACEMENT] end
  | b :: rest =>
      let start := fun pre : str =>
        match utf8_lead b with
        | inl c => pre ++ c :: utf8_decode DStart rest
        | inr st' => pre ++ utf8_decode st' rest
        end in
      match st with
      | DStart => start []
      | DCont need lo hi acc =>
          if in_range lo hi b then
            let acc' := (acc * 64 + (b - 128))%N in
            match need with
            | S (S n) => utf8_decode (DCont (S n) 128 191 acc') rest
            | _ => acc' :: utf8_decode DStart rest
            end
          else start [REPLACEMENT]
      end
  end.
Definition decode_replace (bs : list N) : str := utf8_decode DStart bs.

(** ** Percent encoding *)

(** [urllib.parse._ALWAYS_SAFE]: letters, digits and "_.-~" *)
Definition always_safe (b : N) : bool :=
  is_upper b || is_lower b || is_digit b || N.eqb b 95 || N.eqb b 46 || N.eqb b 45 || N.eqb b 126.

Definition upper_hex_char (d : N) : N := if N.ltb d 10 then (48 + d)%N else (55 + d)%N.
(** "%{:02X}" *)
Definition percent (b : N) : str := [37%N; upper_hex_char (b / 16)%N; upper_hex_char (b mod 16)%N].

(** [quote(s)] (safe="/") and [quote_plus(s)] (safe="", blanks become "+"). *)
Definition quote_byte (b : N) : str := if always_safe b || N.eqb b 47 then [b] else percent b.
Definition quote (s : str) : option str := option_map (flat_map quote_byte) (utf8_encode s).
Definition quote_plus_byte (b : N) : str :=
  if N.eqb b 32 then [43%N] else if always_safe b then [b] else percent b.
Definition quote_plus (s : str) : option str := option_map (flat_map quote_plus_byte) (utf8_encode s).

(** [unquote_to_bytes] of an ASCII string: "%XX" becomes a byte, anything else stays. *)
Fixpoint unquote_bytes (s : str) : list N :=
  match s with
  | [] => []
  | c :: s' =>
      if N.eqb c 37 then
        match s' with
        | a :: b :: s'' =>
            if is_hex a && is_hex b then (16 * hex_val a + hex_val b)%N :: unquote_bytes s''
            else c :: unquote_bytes s'
        | _ => c :: unquote_bytes s'
        end
      else c :: unquote_bytes s'
  end.

(** [unquote(s)]: each maximal run of ASCII characters is unquoted and decoded by itself, other
    characters stay as they are. [run] is the current run, reversed. *)
Fixpoint unquote_runs (run : str) (s : str) : str :=
  match s with
  | [] => decode_replace (unquote_bytes (rev run))
  | c :: s' =>
      if N.ltb c 128 then unquote_runs (c :: run) s'
      else decode_replace (unquote_bytes (rev run)) ++ c :: unquote_runs [] s'
  end.
Definition unquote (s : str) : str := unquote_runs [] s.

(** [unquote_plus(s)] *)
Definition unquote_plus (s : str) : str :=
  unquote (map (fun c => if N.eqb c 43 then 32%N else c) s).
