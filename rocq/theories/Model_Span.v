(** SDK spans: status, limits, recording calls, start and end.

    Sources: opentelemetry-sdk/src/opentelemetry/sdk/trace/__init__.py,
    opentelemetry-api/src/opentelemetry/trace/status.py. *)
From Verif Require Export Model_Attr Model_Trace Model_Runtime.

(** ** Limits *)

(** trace/__init__.py 567-722 [SpanLimits] *)
Record slimits := SLimits {
  max_attributes : option Z; max_events : option Z; max_links : option Z;
  max_span_attributes : option Z; max_event_attributes : option Z; max_link_attributes : option Z;
  max_attribute_length : option Z; max_span_attribute_length : option Z
}.

Section Limits.
(** [str.lower] and [int(str)]; [None] is a ValueError. *)
Variable pylower : str -> str.
Variable pyint : str -> option Z.
(** [os.environ] *)
Variable environ : str -> option str.

Definition bind_out {A B} (x : outcome_of A) (f : A -> outcome_of B) : outcome_of B :=
  match x with Ok a => f a | Raises e => Raises e end.

(** trace/__init__.py 688-715 [_from_env_if_absent]; arguments that are not int or None are not modelled. *)
Definition from_env_if_absent (value : option Z) (env_var : str) (default : option Z)
    : outcome_of (option Z) :=
  let check z := if Z.ltb z 0 then Raises "ValueError" else Ok (Some z) in
  match value with
  | Some z => if Z.eqb z (-1) then Ok None else check z
  | None =>
      match environ env_var with
      | None => Ok default
      | Some s =>
          match pylower (strip py_space s) with
          | [] => Ok None
          | t => match pyint t with Some z => check z | None => Raises "ValueError" end
          end
      end
  end.

(** 81-86 and 612-683 [SpanLimits.__init__]; the arguments are given as a record. *)
Definition or_default (g : option Z) : option Z := match g with Some z => Some z | None => Some 128%Z end.
Definition span_limits (a : slimits) : outcome_of slimits :=
  bind_out (from_env_if_absent (max_events a) (lit "OTEL_SPAN_EVENT_COUNT_LIMIT") (Some 128%Z)) (fun ev =>
  bind_out (from_env_if_absent (max_links a) (lit "OTEL_SPAN_LINK_COUNT_LIMIT") (Some 128%Z)) (fun lk =>
  bind_out (from_env_if_absent (max_attributes a) (lit "OTEL_ATTRIBUTE_COUNT_LIMIT") None) (fun glob =>
  bind_out (from_env_if_absent (max_span_attributes a) (lit "OTEL_SPAN_ATTRIBUTE_COUNT_LIMIT") (or_default glob)) (fun sa =>
  bind_out (from_env_if_absent (max_event_attributes a) (lit "OTEL_EVENT_ATTRIBUTE_COUNT_LIMIT") (or_default glob)) (fun ea =>
  bind_out (from_env_if_absent (max_link_attributes a) (lit "OTEL_LINK_ATTRIBUTE_COUNT_LIMIT") (or_default glob)) (fun la =>
  bind_out (from_env_if_absent (max_attribute_length a) (lit "OTEL_ATTRIBUTE_VALUE_LENGTH_LIMIT") None) (fun al =>
  bind_out (from_env_if_absent (max_span_attribute_length a) (lit "OTEL_SPAN_ATTRIBUTE_VALUE_LENGTH_LIMIT") al) (fun sl =>
  Ok (SLimits (or_default glob) ev lk sa ea la al sl))))))))).
End Limits.

(** ** Status *)

(** Python truth of a value.  Objects of other types count as true. *)
Definition truthy (v : pyval) : bool :=
  match v with
  | PNone => false
  | PBool b => b
  | PInt _ z => negb (Z.eqb z 0)
  | PFloat _ f => negb (Z.eqb f 0)
  | PStr _ s => match s with [] => false | _ => true end
  | PBytes _ b => match b with [] => false | _ => true end
  | PSeq _ l => match l with [] => false | _ => true end
  | PObj _ => true
  end.
Definition is_pystr (v : pyval) : bool := match v with PStr _ _ => true | _ => false end.

(** status.py 22-32 *)
Inductive status_code := UNSET | OK | ERROR.
Record status := St { st_code : status_code; st_desc : pyval }.
(** status.py 44-62 [Status.__init__]; the default description is [PNone]. *)
Definition new_status (c : status_code) (d : pyval) : status :=
  if truthy d then
    if negb (is_pystr d) then St c PNone
    else match c with ERROR => St c d | _ => St c PNone end
  else St c d.

(** ** Spans *)

(** trace/__init__.py 294-345 [Event] *)
Record event := Ev { ev_name : str; ev_ts : Z; ev_attrs : battrs }.
(** api/trace/__init__.py [Link] *)
Record link := Lk { lk_ctx : span_context; lk_attrs : battrs }.

(** The fields of ReadableSpan and Span (trace/__init__.py 377-408, 764-817) that calls can change, and the
    span context, parent and kind.  Resource, scope, sampler and processor are constant. *)
Record sdk_span := Span {
  sp_name : str; sp_ctx : span_context; sp_parent : option span_context; sp_kind : Z;
  sp_limits : slimits;
  sp_attrs : battrs; sp_events : blist event; sp_links : blist link;
  sp_status : status; sp_start : option Z; sp_end : option Z
}.
Definition with_name n s := Span n (sp_ctx s) (sp_parent s) (sp_kind s) (sp_limits s)
  (sp_attrs s) (sp_events s) (sp_links s) (sp_status s) (sp_start s) (sp_end s).
Definition with_attrs a s := Span (sp_name s) (sp_ctx s) (sp_parent s) (sp_kind s) (sp_limits s)
  a (sp_events s) (sp_links s) (sp_status s) (sp_start s) (sp_end s).
Definition with_events e s := Span (sp_name s) (sp_ctx s) (sp_parent s) (sp_kind s) (sp_limits s)
  (sp_attrs s) e (sp_links s) (sp_status s) (sp_start s) (sp_end s).
Definition with_links l s := Span (sp_name s) (sp_ctx s) (sp_parent s) (sp_kind s) (sp_limits s)
  (sp_attrs s) (sp_events s) l (sp_status s) (sp_start s) (sp_end s).
Definition with_status st s := Span (sp_name s) (sp_ctx s) (sp_parent s) (sp_kind s) (sp_limits s)
  (sp_attrs s) (sp_events s) (sp_links s) st (sp_start s) (sp_end s).
Definition with_start t s := Span (sp_name s) (sp_ctx s) (sp_parent s) (sp_kind s) (sp_limits s)
  (sp_attrs s) (sp_events s) (sp_links s) (sp_status s) (Some t) (sp_end s).
Definition with_end t s := Span (sp_name s) (sp_ctx s) (sp_parent s) (sp_kind s) (sp_limits s)
  (sp_attrs s) (sp_events s) (sp_links s) (sp_status s) (sp_start s) (Some t).

(** [deque(maxlen=...)] inside [BoundedList(maxlen)] (sdk/util/__init__.py 52-57). *)
Definition bl_make {A} (maxlen : option Z) : outcome_of (blist A) :=
  match maxlen with
  | None => Ok (bl_new None)
  | Some z => if Z.ltb z 0 then Raises "ValueError" else Ok (bl_new (Some (Z.to_nat z)))
  end.

Definition pairs := list (pyval * pyval).       (* the items of a mapping, in order *)

(** 363-366 [_is_valid_link]; a SpanContext object is true. *)
Definition is_valid_link (c : option span_context) (attrs : pairs) : bool :=
  match c with
  | None => false
  | Some sc =>
      sc_is_valid sc || match attrs with [] => false | _ => true end
      || match sc_state sc with [] => false | _ => true end
  end.

Definition make_link (lim : slimits) (c : span_context) (attrs : pairs) : outcome_of link :=
  bind_out (ba_new (max_link_attributes lim) attrs true (max_attribute_length lim))
           (fun a => Ok (Lk c a)).
(** 825-840 [_new_links].  A link argument is None or a Link; the Link objects are not shared with
    other spans here. *)
Fixpoint valid_links (lim : slimits) (ls : list (option (option span_context * pairs))) : outcome_of (list link) :=
  match ls with
  | [] => Ok []
  | None :: rest => valid_links lim rest
  | Some (c, attrs) :: rest =>
      match c with
      | Some sc =>
          if is_valid_link c attrs
          then bind_out (make_link lim sc attrs) (fun l => bind_out (valid_links lim rest) (fun r => Ok (l :: r)))
          else valid_links lim rest
      | None => valid_links lim rest
      end
  end.
Definition new_links (lim : slimits) (ls : list (option (option span_context * pairs))) : outcome_of (blist link) :=
  bind_out (valid_links lim ls) (fun l =>
  bind_out (bl_make (max_links lim)) (fun b => Ok (match ls with [] => b | _ => bl_extend l b end))).

(** 764-817 [Span.__init__] (the [events] argument, which the tracer never passes, is not modelled). *)
Definition new_span (lim : slimits) (name : str) (ctx : span_context) (parent : option span_context)
    (kind : Z) (attrs : pairs) (links : list (option (option span_context * pairs))) : outcome_of sdk_span :=
  bind_out (ba_new (max_span_attributes lim) attrs false (max_span_attribute_length lim)) (fun a =>
  bind_out (bl_make (max_events lim)) (fun evs =>
  bind_out (new_links lim links) (fun lks =>
  Ok (Span name ctx parent kind lim a evs lks (St UNSET PNone) None None)))).

(** The argument of set_status: a Status object, a StatusCode, or something else. *)
Inductive status_arg := SAStatus (c : status_code) (d : pyval) | SACode (c : status_code) | SAOther.

(** What record_exception reads of an exception (1011-1042): type name, str(), formatted traceback. *)
Record exc_info := ExcI { xi_module : str; xi_qualname : str; xi_str : str; xi_stack : str }.

(** The public calls; [now] is what [time_ns()] would return. *)
Inductive sop :=
| OSetAttributes (attrs : pairs)
| OAddEvent (name : str) (attrs : pairs) (ts : option Z) (now : Z)
| OAddLink (c : option span_context) (attrs : pairs)
| OUpdateName (name : str)
| OSetStatus (st : status_arg) (d : pyval)
| ORecordException (e : exc_info) (attrs : pairs) (ts : option Z) (escaped : bool) (now : Z)
| OStart (t : option Z) (now : Z)
| OEnd (t : option Z) (now : Z).

Definition or_now (t : option Z) (now : Z) : Z := match t with Some t => t | None => now end.
Definition is_ended (s : sdk_span) : bool := match sp_end s with Some _ => true | None => false end.
(** 348-360 [_check_span_ended] *)
Definition check_ended (f : sdk_span -> sdk_span) (s : sdk_span) : sdk_span :=
  if is_ended s then s else f s.

(** 845-857 *)
Definition set_attributes (attrs : pairs) (s : sdk_span) : sdk_span :=
  if is_ended s then s
  else with_attrs (fold_left (fun a kv => ba_step a (BSet (fst kv) (snd kv))) attrs (sp_attrs s)) s.

(** 859-880; a ValueError of BoundedAttributes leaves the span as it is. *)
Definition make_event (lim : slimits) (name : str) (attrs : pairs) (ts : Z) : outcome_of event :=
  bind_out (ba_new (max_event_attributes lim) attrs true (max_attribute_length lim))
           (fun a => Ok (Ev name ts a)).
Definition add_event (name : str) (attrs : pairs) (ts : Z) (s : sdk_span) : sdk_span :=
  match make_event (sp_limits s) name attrs ts with
  | Ok e => check_ended (fun s => with_events (bl_append e (sp_events s)) s) s
  | Raises _ => s
  end.

(** 882-904 *)
Definition add_link (c : option span_context) (attrs : pairs) (s : sdk_span) : sdk_span :=
  match c with
  | Some sc =>
      if is_valid_link c attrs then
        match make_link (sp_limits s) sc attrs with
        | Ok l => check_ended (fun s => with_links (bl_append l (sp_links s)) s) s
        | Raises _ => s
        end
      else s
  | None => s
  end.

(** 957-985 *)
Definition code_is (a b : status_code) : bool :=
  match a, b with UNSET, UNSET | OK, OK | ERROR, ERROR => true | _, _ => false end.
Definition set_status (a : status_arg) (d : pyval) : sdk_span -> sdk_span :=
  check_ended (fun s =>
    match a with
    | SAStatus c d' =>
        if code_is (st_code (sp_status s)) OK || code_is c UNSET then s
        else with_status (new_status c d') s
    | SACode c =>
        if code_is (st_code (sp_status s)) OK || code_is c UNSET then s
        else with_status (new_status c d) s
    | SAOther => s
    end).

(** 1020-1037; [str(escaped)]. *)
Definition exception_type (e : exc_info) : str :=
  match xi_module e with
  | [] => xi_qualname e
  | m => if str_eqb m (lit "builtins") then xi_qualname e else m ++ lit "." ++ xi_qualname e
  end.
Definition exc_attributes (e : exc_info) (escaped : bool) : dict str pyval :=
  [(lit "exception.type", PStr false (exception_type e));
   (lit "exception.message", PStr false (xi_str e));
   (lit "exception.stacktrace", PStr false (xi_stack e));
   (lit "exception.escaped", PStr false (if escaped then lit "True" else lit "False"))].
(** Dict update with keys that may be any Python value: equal strings are the same key.  Two keys that are
    not strings are kept apart here; neither can be stored as an attribute. *)
Definition same_key (a b : pyval) : bool :=
  match a, b with PStr _ x, PStr _ y => str_eqb x y | _, _ => false end.
Fixpoint pset (k v : pyval) (d : pairs) : pairs :=
  match d with
  | [] => [(k, v)]
  | (k', v') :: d' => if same_key k k' then (k', v) :: d' else (k', v') :: pset k v d'
  end.
Definition pupdate (d e : pairs) : pairs := fold_left (fun d kv => pset (fst kv) (snd kv) d) e d.
(** 1011-1042 [record_exception] *)
Definition exc_pairs (e : exc_info) (attrs : pairs) (escaped : bool) : pairs :=
  pupdate (map (fun kv => (PStr false (fst kv), snd kv)) (exc_attributes e escaped)) attrs.
Definition record_exception (e : exc_info) (attrs : pairs) (ts : Z) (escaped : bool) (s : sdk_span) : sdk_span :=
  add_event (lit "exception") (exc_pairs e attrs escaped) ts s.

(** 923-936, without the call of the processor *)
Definition start_locked (t : option Z) (now : Z) (s : sdk_span) : sdk_span :=
  match sp_start s with Some _ => s | None => with_start (or_now t now) s end.
(** 938-946, the part under the lock; a span that was not started raises RuntimeError. *)
Definition end_locked (t : option Z) (now : Z) (s : sdk_span) : sdk_span :=
  match sp_start s with
  | None => s
  | Some _ => if is_ended s then s else with_end (or_now t now) s
  end.

(** The part of a call that runs under the span's lock. *)
Definition span_call (s : sdk_span) (o : sop) : sdk_span :=
  match o with
  | OSetAttributes l => set_attributes l s
  | OAddEvent n l ts now => add_event n l (or_now ts now) s
  | OAddLink c l => add_link c l s
  | OUpdateName n => check_ended (with_name n) s
  | OSetStatus a d => set_status a d s
  | ORecordException e l ts esc now => record_exception e l (or_now ts now) esc s
  | OStart t now => start_locked t now s
  | OEnd t now => end_locked t now s
  end.

(** ** Spans and their processor, under any schedule *)

(** What the processor is told.  A ReadableSpan (906-921) shares the objects of the span; it is the span's
    state at the time it is made. *)
Inductive pcall := POnStart (s : sdk_span) | POnEnd (s : sdk_span).
(** [w_pending]: end() calls that have set the end time and have not yet called on_end. *)
Record sworld := SW { w_span : sdk_span; w_pending : nat; w_log : list pcall }.
(** After the tracer has called start (1178): the span has a start time and on_start has been called. *)
Definition sw_init (s : sdk_span) (t : option Z) (now : Z) : sworld :=
  let s' := start_locked t now s in SW s' 0 [POnStart s'].
(** The threads' actions, in the order of the lock; 948: [on_end] runs outside the lock. *)
Inductive act := ACall (o : sop) | AOnEnd.
Definition sw_step (w : sworld) (a : act) : sworld :=
  match a with
  | ACall o =>
      let s' := span_call (w_span w) o in
      let won := match o with
                 | OEnd _ _ => match sp_start (w_span w) with Some _ => negb (is_ended (w_span w)) | None => false end
                 | _ => false
                 end in
      SW s' (if won then S (w_pending w) else w_pending w) (w_log w)
  | AOnEnd =>
      match w_pending w with
      | O => w
      | S n => SW (w_span w) n (w_log w ++ [POnEnd (w_span w)])
      end
  end.

(** ** The span as a context manager *)

(** 987-1009 [__exit__] and api/trace/span.py [__exit__]: the calls made when the block is left.
    [exc_type.__name__] is given as [tname].  [is_recording] is looked at first; when it says no, the calls have
    no effect anyway. *)
Definition exit_calls (rec_exc set_st : bool) (e : option (exc_info * str)) (now1 now2 : Z) : list sop :=
  match e with
  | None => []
  | Some (x, tname) =>
      (if rec_exc then [ORecordException x [] None true now1] else [])
      ++ (if set_st then [OSetStatus (SAStatus ERROR (PStr false (tname ++ lit ": " ++ xi_str x))) PNone] else [])
  end ++ [OEnd None now2].

(** ** Link objects shared between spans *)

(** A Link object holds the mapping it was made with, or the BoundedAttributes that [_new_links] put there.
    api/trace/__init__.py 131-155 [Link] *)
Inductive link_attrs := LRaw (l : pairs) | LBounded (a : battrs).
Definition link_items (l : link_attrs) : pairs :=
  match l with LRaw p => p | LBounded a => map (fun kv => (PStr false (fst kv), snd kv)) (ba_dict a) end.
Definition link_dropped (l : link_attrs) : nat :=
  match l with LRaw _ => 0 | LBounded a => ba_dropped a end.
(** The Link objects of the program; trace/__init__.py 831-838 assigns [link._attributes] in place. *)
Definition link_heap := list (span_context * link_attrs).
Definition rebind_link (lim : slimits) (h : link_heap) (id : nat) : link_heap :=
  match nth_error h id with
  | None => h
  | Some (c, a) =>
      if is_valid_link (Some c) (link_items a) then
        match ba_new (max_link_attributes lim) (link_items a) true (max_attribute_length lim) with
        | Ok b => firstn id h ++ [(c, LBounded b)] ++ skipn (S id) h
        | Raises _ => h
        end
      else h
  end.
(** Creating a span with these Link objects. *)
Definition rebind_links (lim : slimits) (ids : list nat) (h : link_heap) : link_heap :=
  fold_left (rebind_link lim) ids h.
