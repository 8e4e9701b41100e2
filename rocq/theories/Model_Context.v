(** Contexts, baggage, and the text map propagators.

    Sources: opentelemetry-api/src/opentelemetry/context/__init__.py, baggage/__init__.py,
    baggage/propagation/__init__.py, trace/propagation/__init__.py,
    trace/propagation/tracecontext.py, propagators/textmap.py, propagators/composite.py,
    propagator/opentelemetry-propagator-b3, propagator/opentelemetry-propagator-jaeger. *)
From Verif Require Export Model_Trace Model_Url.

(** Values stored in a context or in the baggage.  [OSpan sc rec parent] is a Span object: its
    span context, [is_recording()] and the span id of its parent (0 if none).  [OOther] is any
    other Python object. *)
Inductive obj :=
| ONone
| OStr (s : str)
| OInt (z : Z)
| OSpan (sc : span_context) (recording : bool) (parent_span_id : option Z)
| ODict (d : list (str * obj))
| OOther (tag : N).

(** context/context.py 22-24: a dict from str to object. *)
Definition context := dict str obj.

(** context/__init__.py 80-92 [get_value]; [None] and an absent key read the same. *)
Definition get_value (k : str) (ctx : context) : obj :=
  match dget k ctx with Some v => v | None => ONone end.

(** context/__init__.py 95-118 [set_value] (value semantics; Model_ContextHeap.v has the aliasing). *)
Definition set_value (k : str) (v : obj) (ctx : context) : context := dset k v ctx.

(** trace/propagation/__init__.py 20-21, baggage/__init__.py 28: [create_key] appends a random
    uuid to these names; the suffix is left out, the names differ without it. *)
Definition SPAN_KEY : str := lit "current-span".
Definition BAGGAGE_KEY : str := lit "baggage".

(** ** Current span *)

(** trace/propagation/__init__.py 24-35 *)
Definition set_span_in_context (s : obj) (ctx : context) : context := set_value SPAN_KEY s ctx.

(** span.py 586: INVALID_SPAN, a NonRecordingSpan of the invalid context *)
Definition INVALID_SPAN : obj := OSpan INVALID_SPAN_CONTEXT false None.

(** trace/propagation/__init__.py 38-51 [get_current_span] *)
Definition get_current_span (ctx : context) : obj :=
  match get_value SPAN_KEY ctx with
  | OSpan sc r p => OSpan sc r p
  | _ => INVALID_SPAN
  end.

(** [span.get_span_context()]; only ever applied to spans. *)
Definition span_context_of (s : obj) : span_context :=
  match s with OSpan sc _ _ => sc | _ => INVALID_SPAN_CONTEXT end.
Definition current_span_context (ctx : context) : span_context :=
  span_context_of (get_current_span ctx).

(** span.py 425: tuple equality with INVALID_SPAN_CONTEXT (the trace states are compared as mappings). *)
Definition is_invalid_context (sc : span_context) : bool :=
  Z.eqb (sc_trace_id sc) 0 && Z.eqb (sc_span_id sc) 0 && negb (sc_is_remote sc)
  && Z.eqb (sc_flags sc) 0 && (match sc_state sc with [] => true | _ => false end).

(** ** Baggage *)

(** baggage/__init__.py 113-117 [_get_baggage_value] *)
Definition get_all (ctx : context) : dict str obj :=
  match get_value BAGGAGE_KEY ctx with ODict d => d | _ => [] end.
(** baggage/__init__.py 50-64 *)
Definition get_baggage (name : str) (ctx : context) : obj :=
  match dget name (get_all ctx) with Some v => v | None => ONone end.
(** baggage/__init__.py 67-82 *)
Definition set_baggage (name : str) (v : obj) (ctx : context) : context :=
  set_value BAGGAGE_KEY (ODict (dset name v (get_all ctx))) ctx.
(** baggage/__init__.py 85-98 *)
Definition remove_baggage (name : str) (ctx : context) : context :=
  set_value BAGGAGE_KEY (ODict (ddel name (get_all ctx))) ctx.
(** baggage/__init__.py 101-110 *)
Definition clear_baggage (ctx : context) : context := set_value BAGGAGE_KEY (ODict []) ctx.

(** ** Carriers *)

(** propagators/textmap.py 22-56: what a Getter offers for one carrier. *)
Record getter := Getter {
  g_get : str -> option (list str);
  g_keys : list str
}.

(** A dict carrier whose values are strings or lists of strings. *)
Inductive carrier_val := CStr (s : str) | CList (l : list str).
Definition carrier := dict str carrier_val.

(** propagators/textmap.py 75-100 [DefaultGetter] *)
Definition default_getter (c : carrier) : getter :=
  {| g_get := fun k => match dget k c with
                       | None => None
                       | Some (CStr s) => Some [s]
                       | Some (CList l) => Some l
                       end;
     g_keys := keys c |}.

(** [setter.set] calls, in order; [raised] tells that an exception ended the injection. *)
Definition writes := list (str * str).
Record injected := Injected { inj_writes : writes; inj_raised : bool }.

(** propagators/textmap.py 103-118 [DefaultSetter] *)
Definition default_set (w : writes) (c : carrier) : carrier :=
  dupdate c (map (fun kv => (fst kv, CStr (snd kv))) w).

(** [_extract_first_element] (baggage/propagation 141-146, b3 205-210, jaeger 135-140) *)
Definition first_element (l : option (list str)) : option str :=
  match l with None => None | Some [] => None | Some (x :: _) => Some x end.

(** ** W3C trace context *)

Definition TRACEPARENT : str := lit "traceparent".    (* tracecontext.py 29 *)
Definition TRACESTATE : str := lit "tracestate".      (* tracecontext.py 30 *)

(** The first [n] characters, if they all are in the class, and the rest. *)
Fixpoint take_cls (p : N -> bool) (n : nat) (s : str) : option (str * str) :=
  match n with
  | O => Some ([], s)
  | S n' =>
      match s with
      | [] => None
      | c :: s' =>
          if p c then match take_cls p n' s' with
                      | None => None
                      | Some (a, r) => Some (c :: a, r)
                      end
          else None
      end
  end.
Definition take_chr (c : N) (s : str) : option str :=
  match s with x :: s' => if N.eqb x c then Some s' else None | [] => None end.

(** [$] matches at the end and before a final newline. *)
Definition drop_final_newline (s : str) : str :=
  match rev s with
  | c :: r => if N.eqb c 10 then rev r else s
  | [] => s
  end.

(** The rest of the pattern, an optional group 5 that is "-" and any characters but newline, then
    blanks, then [$]: [Some b] if it matches, [b] tells whether group 5 did. *)
Definition match_tail (s : str) : option bool :=
  let t := drop_final_newline s in
  match t with
  | c :: t' =>
      if N.eqb c 45 then
        if forallb (fun x => negb (N.eqb x 10)) t' then Some true else None
      else if forallb is_ows t then Some false else None
  | [] => Some false
  end.

(** tracecontext.py 31-35 and 53: [re.search] of [_TRACEPARENT_HEADER_FORMAT], which is
    [^[ \t]*([0-9a-f]{2})-([0-9a-f]{32})-([0-9a-f]{16})-([0-9a-f]{2})] followed by the rest
    that [match_tail] describes. *)
Record traceparent := TP {
  tp_version : str; tp_trace_id : str; tp_span_id : str; tp_flags : str; tp_group5 : bool
}.
Definition match_traceparent (h : str) : option traceparent :=
  match take_cls is_lhex 2 (lstrip is_ows h) with None => None | Some (v, r) =>
  match take_chr 45 r with None => None | Some r =>
  match take_cls is_lhex 32 r with None => None | Some (t, r) =>
  match take_chr 45 r with None => None | Some r =>
  match take_cls is_lhex 16 r with None => None | Some (s, r) =>
  match take_chr 45 r with None => None | Some r =>
  match take_cls is_lhex 2 r with None => None | Some (f, r) =>
  match match_tail r with None => None | Some g5 => Some (TP v t s f g5)
  end end end end end end end end.

(** tracecontext.py 37-84 [extract] *)
Definition tc_extract (g : getter) (ctx : context) : context :=
  match g_get g TRACEPARENT with
  | None | Some [] => ctx
  | Some (h :: _) =>
      match match_traceparent h with
      | None => ctx
      | Some tp =>
          if str_eqb (tp_trace_id tp) (repeat 48%N 32) || str_eqb (tp_span_id tp) (repeat 48%N 16)
          then ctx
          else if str_eqb (tp_version tp) (lit "00") && tp_group5 tp then ctx
          else if str_eqb (tp_version tp) (lit "ff") then ctx
          else
            let state := match g_get g TRACESTATE with
                         | None => ts_empty
                         | Some hs => ts_from_header hs
                         end in
            set_span_in_context
              (OSpan (SC (Z.of_N (hex_value (tp_trace_id tp)))
                         (Z.of_N (hex_value (tp_span_id tp)))
                         true
                         (Z.of_N (hex_value (tp_flags tp)))
                         state) false None) ctx
      end
  end.

(** tracecontext.py 86-108 [inject] *)
Definition tc_inject (ctx : context) : injected :=
  let sc := current_span_context ctx in
  if is_invalid_context sc then Injected [] false
  else
    let tp := lit "00-" ++ format_trace_id (sc_trace_id sc) ++ lit "-"
              ++ format_span_id (sc_span_id sc) ++ lit "-" ++ format_hex 2 (sc_flags sc) in
    Injected ((TRACEPARENT, tp)
              :: match sc_state sc with
                 | [] => []
                 | st => [(TRACESTATE, ts_to_header st)]
                 end) false.

Definition tc_fields : list str := [TRACEPARENT; TRACESTATE].   (* tracecontext.py 110-118 *)

(** ** Baggage propagator *)

(** util/re.py 29-31 [_KEY_FORMAT], 34 [_VALUE_FORMAT], 36 [_LIBERAL_VALUE_FORMAT] *)
Definition bkey_char (c : N) : bool :=
  N.eqb c 33 || in_range 35 39 c || N.eqb c 42 || N.eqb c 43 || N.eqb c 45 || N.eqb c 46
  || in_range 48 57 c || in_range 65 90 c || in_range 94 122 c || N.eqb c 124 || N.eqb c 126.
Definition bvalue_char (c : N) : bool :=
  N.eqb c 33 || in_range 35 43 c || in_range 45 58 c || in_range 60 91 c || in_range 93 126 c.
Definition lvalue_char (c : N) : bool := N.eqb c 32 || bvalue_char c.
Definition OWS_FORMAT : re := RStar (RCls is_ows).                    (* util/re.py 27 *)
Definition BKEY_FORMAT : re := rplus (RCls bkey_char).
Definition BVALUE_FORMAT : re := RStar (RCls bvalue_char).
Definition LVALUE_FORMAT : re := RStar (RCls lvalue_char).
(** util/re.py 38 [_KEY_VALUE_FORMAT] *)
Definition KEY_VALUE_FORMAT : re :=
  RCat OWS_FORMAT (RCat BKEY_FORMAT (RCat OWS_FORMAT (RCat (rchr 61)
    (RCat OWS_FORMAT (RCat BVALUE_FORMAT OWS_FORMAT))))).
(** util/re.py 41-43 [_LIBERAL_HEADER_PATTERN] *)
Definition LIBERAL_FORMAT : re :=
  RCat OWS_FORMAT (RCat BKEY_FORMAT (RCat OWS_FORMAT (RCat (rchr 61)
    (RCat OWS_FORMAT (RCat LVALUE_FORMAT OWS_FORMAT))))).
(** util/re.py 46 [_BAGGAGE_PROPERTY_FORMAT] *)
Definition PROPERTY_FORMAT : re :=
  RAlt KEY_VALUE_FORMAT (RCat OWS_FORMAT (RCat BKEY_FORMAT OWS_FORMAT)).

(** baggage/__init__.py 120-136 [_is_valid_key], [_is_valid_value], [_is_valid_pair] on strings *)
Definition is_valid_bkey (k : str) : bool := fullmatch BKEY_FORMAT k.
Definition is_valid_bvalue (v : str) : bool :=
  match split_on 59 v with
  | [] => false
  | p0 :: props => fullmatch BVALUE_FORMAT p0 && forallb (fullmatch PROPERTY_FORMAT) props
  end.
Definition is_valid_bpair (k v : str) : bool := is_valid_bkey k && is_valid_bvalue v.

Definition BAGGAGE : str := lit "baggage".          (* baggage/propagation 35 *)
Definition MAX_HEADER_LENGTH : N := 8192.           (* 32 *)
Definition MAX_PAIR_LENGTH : N := 4096.             (* 33 *)
Definition MAX_PAIRS : nat := 180.                  (* 34 *)
Definition nlen {A} (l : list A) : N := N.of_nat (length l).

(** baggage/propagation/__init__.py 75-106: the loop over the entries; [left] is
    [total_baggage_entries]. *)
Fixpoint bag_loop (entries : list str) (left : nat) (ctx : context) : context :=
  match entries with
  | [] => ctx
  | e :: rest =>
      if N.ltb MAX_PAIR_LENGTH (nlen e) then bag_loop rest left ctx
      else match e with
           | [] => bag_loop rest left ctx
           | _ =>
               match split1 61 e with
               | (_, None) => bag_loop rest left ctx
               | (name, Some value) =>
                   if is_valid_bpair name value then
                     let ctx' := set_baggage (strip py_space (unquote_plus name))
                                             (OStr (strip py_space (unquote_plus value))) ctx in
                     if Nat.eqb (left - 1) 0 then ctx' else bag_loop rest (left - 1) ctx'
                   else bag_loop rest left ctx
               end
           end
  end.

(** baggage/propagation/__init__.py 37-108 [extract] *)
Definition bag_extract (g : getter) (ctx : context) : context :=
  match first_element (g_get g BAGGAGE) with
  | None | Some [] => ctx
  | Some h =>
      if N.ltb MAX_HEADER_LENGTH (nlen h) then ctx
      else bag_loop (split_delim h) MAX_PAIRS ctx
  end.

Section PyStr.
(** [str(x)] for objects other than strings is an oracle. *)
Variable py_str : obj -> str.
Definition to_str (o : obj) : str := match o with OStr s => s | _ => py_str o end.

(** baggage/propagation/__init__.py 134-138 [_format_baggage]; [None]: [quote_plus] raised
    UnicodeEncodeError on a lone surrogate. *)
Fixpoint format_pairs (l : dict str obj) : option (list str) :=
  match l with
  | [] => Some []
  | (k, v) :: rest =>
      match quote_plus k, quote_plus (to_str v), format_pairs rest with
      | Some a, Some b, Some r => Some ((a ++ [61%N] ++ b) :: r)
      | _, _, _ => None
      end
  end.

(** baggage/propagation/__init__.py 110-126 [inject] *)
Definition bag_inject (ctx : context) : injected :=
  match get_all ctx with
  | [] => Injected [] false
  | l => match format_pairs l with
         | Some ps => Injected [(BAGGAGE, join [44%N] ps)] false
         | None => Injected [] true
         end
  end.

Definition bag_fields : list str := [BAGGAGE].      (* 128-131 *)

(** ** Jaeger *)
Definition UBER_TRACE_ID : str := lit "uber-trace-id".     (* jaeger/__init__.py 37 *)
Definition UBERCTX : str := lit "uberctx-".                (* 38 *)

(** jaeger/__init__.py 72-109 [inject] *)
Fixpoint jaeger_baggage_writes (l : dict str obj) : injected :=
  match l with
  | [] => Injected [] false
  | (k, v) :: rest =>
      match quote (to_str v) with
      | None => Injected [] true
      | Some q =>
          let r := jaeger_baggage_writes rest in
          Injected ((UBERCTX ++ k, q) :: inj_writes r) (inj_raised r)
      end
  end.
Definition jaeger_inject (ctx : context) : injected :=
  let span := get_current_span ctx in
  let sc := span_context_of span in
  if is_invalid_context sc then Injected [] false
  else
    let parent := match span with
                  | OSpan _ true (Some p) => p
                  | _ => 0%Z
                  end in
    let flags := if flags_sampled (sc_flags sc) then Z.lor (sc_flags sc) 2 else sc_flags sc in
    let h := format_trace_id (sc_trace_id sc) ++ lit ":" ++ format_span_id (sc_span_id sc)
             ++ lit ":" ++ format_span_id parent ++ lit ":" ++ format_hex 2 flags in
    let b := jaeger_baggage_writes (get_all ctx) in
    Injected ((UBER_TRACE_ID, h) :: inj_writes b) (inj_raised b).
End PyStr.

Section Nd.
(** Decimal value of a non-ASCII code point of Unicode category Nd (used by [\d] and [int]). *)
Variable nd : N -> option N.

(** ** Python's [int(s, 16)] *)

(** Value of one base-16 digit character; Unicode decimal digits count. *)
Definition digit16 (c : N) : option N :=
  if N.ltb c 128 then (if is_hex c then Some (hex_val c) else None) else nd c.

(** Blanks skipped by [int]: ASCII whitespace and, outside ASCII, Unicode whitespace.
    Simplification: a string that mixes U+001C..U+001F with non-ASCII characters is treated like an
    ASCII one. *)
Definition int_space (c : N) : bool :=
  in_range 9 13 c || N.eqb c 32 || (N.leb 127 c && py_space c).

(** digit ( "_"? digit )*; [us]: the previous character was an underscore. *)
Fixpoint int_digits (s : str) (us : bool) (acc : Z) : option Z :=
  match s with
  | [] => if us then None else Some acc
  | c :: s' =>
      match digit16 c with
      | Some d => int_digits s' false (16 * acc + Z.of_N d)%Z
      | None => if N.eqb c 95 && negb us then int_digits s' true acc else None
      end
  end.
Definition int_body (s : str) : option Z :=
  match s with
  | [] => None
  | c :: _ => if N.eqb c 95 then None else int_digits s false 0
  end.
Definition int_prefixed (s : str) : option Z :=
  match s with
  | z :: x :: r =>
      if N.eqb z 48 && (N.eqb x 120 || N.eqb x 88)
      then int_body (match r with u :: r' => if N.eqb u 95 then r' else r | [] => r end)
      else int_body s
  | _ => int_body s
  end.
Definition int16 (s : str) : option Z :=
  match strip int_space s with
  | [] => None
  | c :: r =>
      if N.eqb c 45 then option_map Z.opp (int_prefixed r)
      else if N.eqb c 43 then int_prefixed r
      else int_prefixed (c :: r)
  end.

(** jaeger/__init__.py 143-163 [_parse_trace_id_header] on the extracted header list *)
Definition jaeger_parse (items : list str) : Z * Z * Z :=
  match items with
  | [] => (0, 0, 0)%Z
  | h :: _ =>
      match split_on 58 h with
      | [t; s; _; f] =>
          match int16 f with
          | None => (0, 0, 0)%Z
          | Some flags =>
              (match int16 t with Some z => z | None => 0%Z end,
               match int16 s with Some z => z | None => 0%Z end,
               flags)
          end
      | _ => (0, 0, 0)%Z
      end
  end.

(** [key.replace(p, "")]: removes the non-overlapping occurrences from left to right. *)
Fixpoint remove_all (p : str) (skip : nat) (s : str) : str :=
  match s with
  | [] => []
  | c :: s' =>
      match skip with
      | S k => remove_all p k s'
      | O => match strip_prefix p s with
             | Some _ => remove_all p (length p - 1) s'
             | None => c :: remove_all p 0 s'
             end
      end
  end.

Definition starts_with (p s : str) : bool :=
  match strip_prefix p s with Some _ => true | None => false end.

(** jaeger/__init__.py 115-128 [_extract_baggage]; [None]: [unquote(None)] raised TypeError *)
Fixpoint jaeger_baggage (g : getter) (ks : list str) (ctx : context) : option context :=
  match ks with
  | [] => Some ctx
  | k :: rest =>
      if starts_with UBERCTX k then
        match first_element (g_get g k) with
        | None => None
        | Some v => jaeger_baggage g rest
                      (set_baggage (remove_all UBERCTX 0 k) (OStr (strip py_space (unquote v))) ctx)
        end
      else jaeger_baggage g rest ctx
  end.

(** jaeger/__init__.py 41-70 [extract] *)
Definition jaeger_extract (g : getter) (ctx : context) : option context :=
  match g_get g UBER_TRACE_ID with
  | None | Some [] => Some ctx
  | Some items =>
      match jaeger_baggage g (g_keys g) ctx with
      | None => None
      | Some ctx1 =>
          let '(t, s, f) := jaeger_parse items in
          if Z.eqb t 0 || Z.eqb s 0 then Some ctx1
          else Some (set_span_in_context
                       (OSpan (SC t s true (Z.land f 1) ts_empty) false None) ctx1)
      end
  end.

(** ** B3 *)
Definition B3 : str := lit "b3".                         (* b3/__init__.py 40-44 *)
Definition B3_TRACE_ID : str := lit "x-b3-traceid".
Definition B3_SPAN_ID : str := lit "x-b3-spanid".
Definition B3_SAMPLED : str := lit "x-b3-sampled".
Definition B3_FLAGS : str := lit "x-b3-flags".

(** b3/__init__.py 46-47: [\da-fA-F]; [\d] matches every Unicode decimal digit. *)
Definition b3_char (c : N) : bool := match digit16 c with Some _ => true | None => false end.
Definition b3_trace_re : re := RAlt (rrep 16 (RCls b3_char)) (rrep 32 (RCls b3_char)).
Definition b3_span_re : re := rrep 16 (RCls b3_char).

(** [int(s, 16)] of a string of digits *)
Definition digits_value (s : str) : Z :=
  fold_left (fun a c => (16 * a + match digit16 c with Some d => Z.of_N d | None => 0 end)%Z) s 0%Z.

(** [x or default] for an optional string: empty and missing give the default *)
Definition or_else (x : option str) (d : option str) : option str :=
  match x with None | Some [] => d | _ => x end.

(** [s.split("-", 4)]: at most five fields *)
Fixpoint splitn (n : nat) (c : N) (s : str) : list str :=
  match n with
  | O => [s]
  | S n' => match split1 c s with
            | (a, None) => [a]
            | (a, Some b) => a :: splitn n' c b
            end
  end.

(** b3/__init__.py 57-96: trace id, span id, sampled and flags fields.  [None] for the ids
    stands for the integer default 0 (INVALID_TRACE_ID / INVALID_SPAN_ID), for flags it is None. *)
Definition b3_fields_of (g : getter) : option str * option str * str * option str :=
  match first_element (g_get g B3) with
  | Some (c :: h) =>
      match splitn 4 45 (c :: h) with
      | [f0] => (None, None, f0, None)
      | [t; s] => (Some t, Some s, lit "1", None)
      | [t; s; sm] => (Some t, Some s, sm, None)
      | [t; s; sm; _] => (Some t, Some s, sm, None)
      | _ => (None, None, lit "1", None)
      end
  | _ =>
      (or_else (first_element (g_get g B3_TRACE_ID)) None,
       or_else (first_element (g_get g B3_SPAN_ID)) None,
       match or_else (first_element (g_get g B3_SAMPLED)) (Some (lit "0")) with
       | Some s => s | None => lit "0" end,
       or_else (first_element (g_get g B3_FLAGS)) None)
  end.

(** b3/__init__.py 49-128 [extract] *)
Definition b3_extract (g : getter) (ctx : context) : context :=
  match b3_fields_of g with
  | (Some t, Some s, sampled, flags) =>
      if fullmatch b3_trace_re t && fullmatch b3_span_re s then
        let opt := if (existsb (str_eqb sampled) [lit "1"; lit "True"; lit "true"; lit "d"]
                       || match flags with Some f => str_eqb f (lit "1") | None => false end)
                   then 1%Z else 0%Z in
        set_span_in_context
          (OSpan (SC (digits_value t) (digits_value s) true opt ts_empty) false None) ctx
      else ctx
  | _ => ctx
  end.
End Nd.

(** b3/__init__.py 130-151 [B3MultiFormat.inject] *)
Definition b3_multi_inject (ctx : context) : injected :=
  let sc := current_span_context ctx in
  if is_invalid_context sc then Injected [] false
  else Injected [(B3_TRACE_ID, format_trace_id (sc_trace_id sc));
                 (B3_SPAN_ID, format_span_id (sc_span_id sc));
                 (B3_SAMPLED, if flags_sampled (sc_flags sc) then lit "1" else lit "0")] false.

(** b3/__init__.py 169-189 [B3SingleFormat.inject] *)
Definition b3_single_inject (ctx : context) : injected :=
  let sc := current_span_context ctx in
  if is_invalid_context sc then Injected [] false
  else Injected [(B3, join [45%N] [format_trace_id (sc_trace_id sc);
                                   format_span_id (sc_span_id sc);
                                   if flags_sampled (sc_flags sc) then lit "1" else lit "0"])] false.

(** ** Composite propagator *)

(** propagators/textmap.py 121-197: the abstract propagator.  [None] from extract is an exception. *)
Record propagator := Propagator {
  p_extract : getter -> context -> option context;
  p_inject : context -> injected;
  p_fields : list str
}.

(** propagators/composite.py 38-54 [extract] *)
Fixpoint comp_extract (ps : list propagator) (g : getter) (ctx : context) : option context :=
  match ps with
  | [] => Some ctx
  | p :: rest => match p_extract p g ctx with
                 | None => None
                 | Some ctx' => comp_extract rest g ctx'
                 end
  end.
(** propagators/composite.py 56-70 [inject] *)
Fixpoint comp_inject (ps : list propagator) (ctx : context) : injected :=
  match ps with
  | [] => Injected [] false
  | p :: rest =>
      let a := p_inject p ctx in
      if inj_raised a then a
      else let b := comp_inject rest ctx in
           Injected (inj_writes a ++ inj_writes b) (inj_raised b)
  end.
(** propagators/composite.py 72-84 [fields]; a set, here a duplicate-free list *)
Definition set_add (f : str) (l : list str) : list str :=
  if in_dec str_eq_dec f l then l else l ++ [f].
Definition comp_fields (ps : list propagator) : list str :=
  fold_left (fun acc p => fold_left (fun a f => set_add f a) (p_fields p) acc) ps [].

(** propagate/__init__.py 124-156: the default global propagator. *)
Definition tc_propagator : propagator :=
  Propagator (fun g c => Some (tc_extract g c)) tc_inject tc_fields.
Definition bag_propagator (py_str : obj -> str) : propagator :=
  Propagator (fun g c => Some (bag_extract g c)) (bag_inject py_str) bag_fields.
Definition default_propagators (py_str : obj -> str) : list propagator :=
  [tc_propagator; bag_propagator py_str].

(** ** Environment variable header lists *)

(** util/re.py 67-114 [parse_env_headers].  [pylower] is [str.lower] (Unicode tables, not modelled);
    the warnings are not modelled. *)
Section EnvHeaders.
Variable pylower : str -> str.
Definition env_name_value (u : str -> str) (h : str) : option (str * str) :=
  match split1 61 h with
  | (n, Some v) => Some (pylower (strip py_space (u n)), strip py_space (u v))
  | (_, None) => None
  end.
Definition parse_env_member (liberal : bool) (h : str) : option (str * str) :=
  let hs := strip py_space h in
  if fullmatch KEY_VALUE_FORMAT hs then env_name_value unquote hs
  else if liberal && fullmatch LIBERAL_FORMAT hs then env_name_value (fun x => x) hs
  else None.
Definition parse_env_headers (s : str) (liberal : bool) : dict str str :=
  fold_left (fun acc h => match h with
                          | [] => acc
                          | _ => match parse_env_member liberal h with
                                 | Some (k, v) => dset k v acc
                                 | None => acc
                                 end
                          end) (split_delim s) [].
End EnvHeaders.

(** ** Extraction without an explicit context *)

(** tracecontext.py 47-48: [context = Context()] *)
Definition tc_extract_opt (current : context) (g : getter) (c : option context) : context :=
  tc_extract g (match c with Some x => x | None => [] end).
(** baggage/propagation/__init__.py 49-50: [context = get_current()] *)
Definition bag_extract_opt (current : context) (g : getter) (c : option context) : context :=
  bag_extract g (match c with Some x => x | None => current end).
(** composite.py 38-54 with [context=None]; the result of an empty composite is None. *)
Definition comp_extract_opt (ms : list (context -> getter -> option context -> context))
    (current : context) (g : getter) (c : option context) : option context :=
  fold_left (fun acc m => Some (m current g acc)) ms c.
