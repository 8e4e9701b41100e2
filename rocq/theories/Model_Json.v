(** Python's json module, as far as the SDK uses it: [json.dumps(x, indent=..)] with the defaults, and [json.loads].

    Sources: Python 3.8-3.12 Lib/json/encoder.py ("encoder"), decoder.py ("decoder"), scanner.py ("scanner") and their C versions
    in Modules/_json.c, which the SDK's [to_json] methods call
    (opentelemetry-sdk/src/opentelemetry/sdk/trace/__init__.py 484-526, resources/__init__.py 300-310,
    metrics/_internal/point.py, util/instrumentation.py 152-163, _logs/_internal/__init__.py 219-250).
    Not modelled: the limits on recursion and on the number of digits of an int, keys that are not strings. *)
From Verif Require Export Model_Url Model_Dict.

(** The values that are written; a tuple is written as a list.  Floats are identities (Z), as in Model_Attr. *)
Inductive jv :=
| JNull | JBool (b : bool) | JInt (z : Z) | JFloat (f : Z) | JStr (s : str) | JArr (l : list jv) | JObj (l : list (str * jv)).

(** What a float is: a number with its [float.__repr__], or one of the three others. *)
Inductive float_kind := Finite (repr : str) | NaN | PosInf | NegInf.

(** ** Writing *)

(** encoder 20-33, 45-66 [py_encode_basestring_ascii] *)
Definition u_escape (v : N) : str :=
  lit "\u" ++ [hex_char (v / 4096); hex_char (v / 256 mod 16); hex_char (v / 16 mod 16); hex_char (v mod 16)]%N.
Definition esc_char (c : N) : str :=
  if N.eqb c 34 then [92; 34]%N
  else if N.eqb c 92 then [92; 92]%N
  else if N.eqb c 10 then lit "\n"
  else if N.eqb c 13 then lit "\r"
  else if N.eqb c 9 then lit "\t"
  else if N.eqb c 12 then lit "\f"
  else if N.eqb c 8 then lit "\b"
  else if in_range 32 126 c then [c]
  else if N.ltb c 65536 then u_escape c
  else let n := (c - 65536)%N in u_escape (55296 + n / 1024) ++ u_escape (56320 + n mod 1024).
Definition dump_str (s : str) : str := [34%N] ++ flat_map esc_char s ++ [34%N].

(** [int.__repr__] *)
Fixpoint dec_digits (fuel : nat) (n : N) (acc : str) : str :=
  match fuel with
  | O => acc
  | S k => let acc := (48 + n mod 10)%N :: acc in if N.ltb n 10 then acc else dec_digits k (n / 10) acc
  end.
Definition dec (n : N) : str := dec_digits (S (N.to_nat (N.log2 n))) n [].
Definition dump_int (z : Z) : str := match z with Zneg p => lit "-" ++ dec (Npos p) | _ => dec (Z.to_N z) end.

Section Json.
Variable kind : Z -> float_kind.
(** [float(text)] of the text of a number *)
Variable read_float : str -> Z.

(** encoder 223-246 [floatstr] *)
Definition dump_float (f : Z) : str :=
  match kind f with Finite r => r | NaN => lit "NaN" | PosInf => lit "Infinity" | NegInf => lit "-Infinity" end.
(** encoder 259-442 [_make_iterencode]: a new line and the indentation of a level; nothing if there is no indent, and then a blank
    comes after the comma. *)
Definition newline (indent : option nat) (level : nat) : str :=
  match indent with None => [] | Some n => 10%N :: repeat 32%N (n * level) end.
Definition item_sep (indent : option nat) (level : nat) : str :=
  match indent with None => lit ", " | Some _ => lit "," ++ newline indent level end.
Fixpoint dump (indent : option nat) (level : nat) (j : jv) : str :=
  match j with
  | JNull => lit "null"
  | JBool b => if b then lit "true" else lit "false"
  | JInt z => dump_int z
  | JFloat f => dump_float f
  | JStr s => dump_str s
  | JArr [] => lit "[]"
  | JArr l =>
      lit "[" ++ newline indent (S level) ++ join (item_sep indent (S level)) (map (dump indent (S level)) l) ++ newline indent level ++ lit "]"
  | JObj [] => lit "{}"
  | JObj l =>
      lit "{" ++ newline indent (S level)
      ++ join (item_sep indent (S level)) (map (fun kv => match kv with (k, x) => dump_str k ++ lit ": " ++ dump indent (S level) x end) l)
      ++ newline indent level ++ lit "}"
  end.
Definition dumps (indent : option nat) (j : jv) : str := dump indent 0 j.

(** ** Reading *)

(** decoder 77-131 [scanstring]: characters, and code units that were written as \uXXXX. *)
Inductive unit16 := Raw (c : N) | Esc (v : N).
Definition hex4 (a b c d : N) : option N :=
  if is_hex a && is_hex b && is_hex c && is_hex d
  then Some (4096 * hex_val a + 256 * hex_val b + 16 * hex_val c + hex_val d)%N else None.
(** decoder 62-65 BACKSLASH *)
Definition backslash (e : N) : option N :=
  if N.eqb e 34 then Some 34%N else if N.eqb e 92 then Some 92%N else if N.eqb e 47 then Some 47%N
  else if N.eqb e 98 then Some 8%N else if N.eqb e 102 then Some 12%N else if N.eqb e 110 then Some 10%N
  else if N.eqb e 114 then Some 13%N else if N.eqb e 116 then Some 9%N else None.
Fixpoint scan_units (s : str) : option (list unit16 * str) :=
  match s with
  | [] => None
  | c :: r =>
      if N.eqb c 34 then Some ([], r)
      else if N.eqb c 92 then
        match r with
        | [] => None
        | e :: r =>
            if N.eqb e 117 then
              match r with
              | a :: b :: c :: d :: r =>
                  match hex4 a b c d, scan_units r with
                  | Some v, Some (l, r) => Some (Esc v :: l, r)
                  | _, _ => None
                  end
              | _ => None
              end
            else match backslash e, scan_units r with Some v, Some (l, r) => Some (Raw v :: l, r) | _, _ => None end
        end
      else if N.ltb c 32 then None
      else match scan_units r with Some (l, r) => Some (Raw c :: l, r) | None => None end
  end.
(** decoder 123-128: a high and a low surrogate *)
Definition is_high (v : N) : bool := in_range 55296 56319 v.
Definition is_low (v : N) : bool := in_range 56320 57343 v.
Fixpoint join_units (l : list unit16) : str :=
  match l with
  | [] => []
  | Raw c :: l' => c :: join_units l'
  | Esc h :: l' =>
      match l' with
      | Esc v :: l'' => if is_high h && is_low v then (65536 + (h - 55296) * 1024 + (v - 56320))%N :: join_units l'' else h :: join_units l'
      | _ => h :: join_units l'
      end
  end.
Definition scan_str (s : str) : option (str * str) :=
  match scan_units s with Some (l, r) => Some (join_units l, r) | None => None end.

Fixpoint span_digits (s : str) : str * str :=
  match s with
  | c :: r => if is_digit c then let (a, b) := span_digits r in (c :: a, b) else ([], s)
  | [] => ([], [])
  end.
Definition dec_value (s : str) : N := fold_left (fun a c => (10 * a + (c - 48))%N) s 0%N.
(** scanner 16-18 NUMBER_RE, 60-66 *)
Definition scan_frac (s : str) : str * str :=
  match s with
  | c :: r => if N.eqb c 46 then match span_digits r with ([], _) => ([], s) | (ds, r') => (c :: ds, r') end else ([], s)
  | [] => ([], [])
  end.
Definition scan_exp (s : str) : str * str :=
  match s with
  | c :: r =>
      if N.eqb c 101 || N.eqb c 69 then
        let (sign, r1) := match r with d :: r1 => if N.eqb d 43 || N.eqb d 45 then ([d], r1) else ([], r) | [] => ([], r) end in
        match span_digits r1 with ([], _) => ([], s) | (ds, r') => (c :: sign ++ ds, r') end
      else ([], s)
  | [] => ([], [])
  end.
Definition scan_number (s : str) : option (jv * str) :=
  let (neg, s1) := match s with c :: r => if N.eqb c 45 then (true, r) else (false, s) | [] => (false, s) end in
  let (ds, s2) := match s1 with
                  | c :: r => if N.eqb c 48 then ([c], r) else span_digits s1
                  | [] => ([], [])
                  end in
  match ds with
  | [] => None
  | _ =>
      let (frac, s3) := scan_frac s2 in
      let (exp, s4) := scan_exp s3 in
      match frac ++ exp with
      | [] => Some (JInt (if neg then - Z.of_N (dec_value ds) else Z.of_N (dec_value ds)), s4)
      | fe => Some (JFloat (read_float ((if neg then lit "-" else []) ++ ds ++ fe)), s4)
      end
  end.
(** decoder 67-68, 139-260 [JSONObject], [JSONArray]: blanks *)
Definition json_ws (c : N) : bool := N.eqb c 32 || N.eqb c 9 || N.eqb c 10 || N.eqb c 13.
Definition skip_ws (s : str) : str := lstrip json_ws s.
(** [float("nan")] and the others, as identities *)
Variable nan inf neg_inf : Z.

(** scanner 30-68 [_scan_once]; [fuel] bounds the calls. *)
Fixpoint scan_once (fuel : nat) (s : str) {struct fuel} : option (jv * str) :=
  match fuel with
  | O => None
  | S n =>
      match s with
      | [] => None
      | c :: r =>
          if N.eqb c 34 then match scan_str r with Some (t, r) => Some (JStr t, r) | None => None end
          else if N.eqb c 123 then
            match skip_ws r with
            | d :: r' => if N.eqb d 125 then Some (JObj [], r')
                         else match scan_members n (d :: r') with Some (l, r) => Some (JObj (dict_of l), r) | None => None end
            | [] => None
            end
          else if N.eqb c 91 then
            match skip_ws r with
            | d :: r' => if N.eqb d 93 then Some (JArr [], r')
                         else match scan_items n (d :: r') with Some (l, r) => Some (JArr l, r) | None => None end
            | [] => None
            end
          else
            match strip_prefix (lit "null") s with Some r => Some (JNull, r) | None =>
            match strip_prefix (lit "true") s with Some r => Some (JBool true, r) | None =>
            match strip_prefix (lit "false") s with Some r => Some (JBool false, r) | None =>
            match strip_prefix (lit "NaN") s with Some r => Some (JFloat nan, r) | None =>
            match strip_prefix (lit "Infinity") s with Some r => Some (JFloat inf, r) | None =>
            match strip_prefix (lit "-Infinity") s with Some r => Some (JFloat neg_inf, r) | None =>
            scan_number s end end end end end end
      end
  end
with scan_items (fuel : nat) (s : str) {struct fuel} : option (list jv * str) :=
  match fuel with
  | O => None
  | S n =>
      match scan_once n s with
      | None => None
      | Some (j, r) =>
          match skip_ws r with
          | c :: r' =>
              if N.eqb c 93 then Some ([j], r')
              else if N.eqb c 44 then match scan_items n (skip_ws r') with Some (l, r) => Some (j :: l, r) | None => None end
              else None
          | [] => None
          end
      end
  end
with scan_members (fuel : nat) (s : str) {struct fuel} : option (list (str * jv) * str) :=
  match fuel with
  | O => None
  | S n =>
      match s with
      | q :: r0 =>
          if N.eqb q 34 then
            match scan_str r0 with
            | None => None
            | Some (k, r) =>
                match skip_ws r with
                | colon :: r1 =>
                    if N.eqb colon 58 then
                      match scan_once n (skip_ws r1) with
                      | None => None
                      | Some (j, r) =>
                          match skip_ws r with
                          | c :: r' =>
                              if N.eqb c 125 then Some ([(k, j)], r')
                              else if N.eqb c 44
                              then match scan_members n (skip_ws r') with Some (l, r) => Some ((k, j) :: l, r) | None => None end
                              else None
                          | [] => None
                          end
                      end
                    else None
                | [] => None
                end
            end
          else None
      | [] => None
      end
  end.
(** decoder 332-356 [decode], [raw_decode]; [None]: JSONDecodeError *)
Definition loads (s : str) : option jv :=
  match scan_once (length s) (skip_ws s) with
  | Some (j, r) => match skip_ws r with [] => Some j | _ => None end
  | None => None
  end.
End Json.
