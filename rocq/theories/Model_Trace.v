(** opentelemetry-api/src/opentelemetry/trace/span.py: TraceFlags, TraceState, SpanContext
    and the identifier formats. *)
From Verif Require Export Model_Str Model_Dict Model_Regex.

(** ** TraceState *)

(** span.py 22-26, characters [_0-9a-z\-\*\/] of a key. *)
Definition key_char (c : N) : bool :=
  N.eqb c 95 || is_digit c || is_lower c || N.eqb c 45 || N.eqb c 42 || N.eqb c 47.

(** span.py 22-26 [_KEY_FORMAT]:
    r"[a-z][_0-9a-z\-\*\/]{0,255}|[a-z0-9][_0-9a-z\-\*\/]{0,240}@[a-z][_0-9a-z\-\*\/]{0,13}" *)
Definition KEY_FORMAT : re :=
  RAlt (RCat (RCls is_lower) (rupto 255 (RCls key_char)))
       (RCat (RCls (fun c => is_lower c || is_digit c))
             (RCat (rupto 240 (RCls key_char))
                   (RCat (rchr 64) (RCat (RCls is_lower) (rupto 13 (RCls key_char)))))).

(** span.py 35-38, the two classes of [_VALUE_FORMAT]:
    r"[\x20-\x2b\x2d-\x3c\x3e-\x7e]{0,255}[\x21-\x2b\x2d-\x3c\x3e-\x7e]" *)
Definition value_char (c : N) : bool :=
  in_range 32 43 c || in_range 45 60 c || in_range 62 126 c.
Definition value_nblk (c : N) : bool :=
  in_range 33 43 c || in_range 45 60 c || in_range 62 126 c.
Definition VALUE_FORMAT : re := RCat (rupto 255 (RCls value_char)) (RCls value_nblk).

(** span.py 41 *)
Definition MAX_TRACESTATE_KEYS : nat := 32.

(** span.py 47-53 [_is_valid_pair]; arguments that are not [str] are not modelled. *)
Definition is_valid_pair (k v : str) : bool :=
  fullmatch KEY_FORMAT k && fullmatch VALUE_FORMAT v.

(** A TraceState is its [_dict] (an insertion-ordered dict); span.py 224. *)
Definition tracestate := dict str str.

(** span.py 248-260, the loop of [__init__]. *)
Fixpoint ts_load (entries : list (str * str)) (d : tracestate) : tracestate :=
  match entries with
  | [] => d
  | (k, v) :: rest =>
      if is_valid_pair k v
      then if dmem k d then ts_load rest d else ts_load rest (dset k v d)
      else ts_load rest d
  end.

(** span.py 235-260 [TraceState.__init__]; [entries=None] is [ts_empty].  Warnings are not modelled. *)
Definition ts_empty : tracestate := [].
Definition ts_new (entries : list (str * str)) : tracestate :=
  if Nat.ltb MAX_TRACESTATE_KEYS (length entries) then ts_empty
  else ts_load entries ts_empty.

(** span.py 281-310 [add] *)
Definition ts_add (d : tracestate) (k v : str) : tracestate :=
  if negb (is_valid_pair k v) then d
  else if Nat.leb MAX_TRACESTATE_KEYS (length d) then d
  else if dmem k d then d
  else ts_new ((k, v) :: d).

(** span.py 312-335 [update] *)
Definition ts_update (d : tracestate) (k v : str) : tracestate :=
  if negb (is_valid_pair k v) then d
  else ts_new ((k, v) :: ddel k d).

(** span.py 337-356 [delete] *)
Definition ts_delete (d : tracestate) (k : str) : tracestate :=
  if dmem k d then ts_new (ddel k d) else d.

(** span.py 358-365 [to_header] *)
Definition member_text (kv : str * str) : str := fst kv ++ [61%N] ++ snd kv.
Definition ts_to_header (d : tracestate) : str := join [44%N] (map member_text d).

(** [re.split(r"[ \t]*,[ \t]*", s)] (span.py 42 and 386, util/re.py 44): the pieces between
    commas, without the blanks next to the commas.  The outer blanks of the first and the last piece stay. *)
Fixpoint ows_pieces (first : bool) (ps : list str) : list str :=
  match ps with
  | [] => []
  | [p] => [if first then p else lstrip is_ows p]
  | p :: rest =>
      rstrip is_ows (if first then p else lstrip is_ows p) :: ows_pieces false rest
  end.
Definition split_delim (s : str) : list str := ows_pieces true (split_on 44 s).

(** span.py 43 and 391 [_member_pattern.fullmatch(member)] with its groups 1 and 3, where the
    pattern is "({_KEY_FORMAT})(=)({_VALUE_FORMAT})[ \t]*".  A key has no "=", so group 1 ends at the
    first "="; a value ends in a non-blank, so it is the rest without its trailing blanks.
    That this is the regular expression's meaning is lemma [match_member_spec]. *)
Definition match_member (m : str) : option (str * str) :=
  match split1 61 m with
  | (_, None) => None
  | (k, Some r) =>
      let v := rstrip is_ows r in
      if fullmatch KEY_FORMAT k && fullmatch VALUE_FORMAT v then Some (k, v) else None
  end.

(** span.py 387-403, the loop over the members of one header; [None] is the early [return cls()]. *)
Fixpoint load_members (ms : list str) (pairs : tracestate) : option tracestate :=
  match ms with
  | [] => Some pairs
  | m :: rest =>
      match m with
      | [] => load_members rest pairs
      | _ =>
          match match_member m with
          | None => None
          | Some (k, v) =>
              if dmem k pairs then None else load_members rest (dset k v pairs)
          end
      end
  end.

(** span.py 385, the loop over the headers. *)
Fixpoint load_headers (hs : list str) (pairs : tracestate) : option tracestate :=
  match hs with
  | [] => Some pairs
  | h :: rest =>
      match load_members (split_delim h) pairs with
      | None => None
      | Some pairs' => load_headers rest pairs'
      end
  end.

(** span.py 367-404 [from_header] *)
Definition ts_from_header (hs : list str) : tracestate :=
  match load_headers hs [] with
  | None => ts_empty
  | Some pairs => ts_new pairs
  end.

(** The edits of the public API (span.py 281-356), for histories. *)
Inductive ts_op := OpAdd (k v : str) | OpUpdate (k v : str) | OpDelete (k : str).
Definition ts_apply (d : tracestate) (o : ts_op) : tracestate :=
  match o with
  | OpAdd k v => ts_add d k v
  | OpUpdate k v => ts_update d k v
  | OpDelete k => ts_delete d k
  end.

(** ** SpanContext *)

(** span.py 420-422 *)
Definition TRACE_ID_MAX : Z := 2 ^ 128 - 1.
Definition SPAN_ID_MAX : Z := 2 ^ 64 - 1.

(** span.py 425-462: the tuple, without its derived last component. *)
Record span_context := SC {
  sc_trace_id : Z;
  sc_span_id : Z;
  sc_is_remote : bool;
  sc_flags : Z;
  sc_state : tracestate
}.

(** span.py 454-457 [is_valid] *)
Definition sc_is_valid (sc : span_context) : bool :=
  (0 <? sc_trace_id sc)%Z && (sc_trace_id sc <=? TRACE_ID_MAX)%Z
  && (0 <? sc_span_id sc)%Z && (sc_span_id sc <=? SPAN_ID_MAX)%Z.

(** span.py 577-585 *)
Definition INVALID_SPAN_CONTEXT : span_context := SC 0 0 false 0 [].

(** span.py 217-218 [TraceFlags.sampled] *)
Definition flags_sampled (f : Z) : bool := Z.testbit f 0.

(** ** Identifier formats *)

(** Python's [format(z, "0<w>x")]: zero padding between the sign and the digits. *)
Definition format_hex (w : nat) (z : Z) : str :=
  if (z <? 0)%Z then 45%N :: hex_pad (w - 1) (Z.to_N (- z)) else hex_pad w (Z.to_N z).

(** span.py 589-597 *)
Definition format_trace_id (z : Z) : str := format_hex 32 z.
(** span.py 600-608 *)
Definition format_span_id (z : Z) : str := format_hex 16 z.
