(** The OpenTracing shim: tracers, spans, scopes and span contexts of OpenTracing made of those of OpenTelemetry.

    Source: shim/opentelemetry-opentracing-shim/src/opentelemetry/shim/opentracing_shim/__init__.py ("shim") and util.py
    ("util").  The opentracing package itself is not in the repository; used of it is only that [Tracer.active_span] is
    the span of [scope_manager.active], or None.  The OpenTelemetry parts are those of Model_Runtime (attach, detach),
    Model_Sampling (start_span), Model_Span (the calls on a span) and Model_Blocks (numbered spans). *)
From Verif Require Export Model_Blocks.
Local Open Scope nat_scope.

(** shim 131 [_SHIM_KEY] (the suffix that create_key appends is left out). *)
Definition SHIM_KEY : str := lit "scope_shim".

(** The arguments of start_span (shim 615-647) that say what the span is: the parent is SpanShim number k, or a
    SpanContextShim of a context; a reference is the context it refers to, None for the constant INVALID_SPAN_CONTEXT
    (an object that is told by identity); times are floats. *)
Record start_args := SArgs {
  sa_name : str; sa_child : option (nat + span_context); sa_refs : list (option span_context);
  sa_tags : pairs; sa_start : option Z; sa_ignore : bool }.
(** Methods of a SpanShim. *)
Inductive shim_call :=
| MSetOperationName (name : str)
| MFinish (t : option Z)
| MSetTag (key value : pyval)
| MLogKv (kv : option (dict str pyval)) (t : option Z).

(** An event of an execution.  OpenTelemetry spans, SpanShims, ScopeShims and tokens are numbered in the order of their
    creation; a call on something that does not exist leaves the state as it is. *)
Inductive shop :=
| HStart (u : nat) (a : start_args) (now : Z)                     (* tracer.start_span *)
| HStartActive (u : nat) (a : start_args) (finish : bool) (now : Z)   (* tracer.start_active_span *)
| HActivate (u k : nat) (finish : bool)                           (* scope_manager.activate(span k, finish) *)
| HClose (u j : nat) (out : outcome) (t1 t2 : Z)                  (* scope j is closed, or its with block left *)
| HCall (k : nat) (c : shim_call) (now : Z)                       (* a method of SpanShim k *)
| HBaggage (k : nat) (name : str) (v : obj)                       (* set_baggage_item of SpanShim k *)
| HOtelStart (u : nat) (b : block) (now : Z)                      (* OpenTelemetry's tracer.start_span *)
| HOtelCall (n : nat) (o : sop)                                   (* a method of OpenTelemetry span n *)
| HOtelAttach (u n : nat)                                         (* attach(set_span_in_context(span n)) *)
| HOtelDetach (u m : nat)                                         (* detach with the token of the m-th such attach *)
| HFork (u v : nat).                                              (* v is a new task made in u *)

(** shim 153-182, 185-197: a SpanShim wraps an OpenTelemetry span and has a SpanContextShim of its own, with baggage. *)
Record shim_span := SS { ss_span : nat; ss_baggage : context }.
(** shim 322-397: a ScopeShim has a SpanShim of its own, the token of its attach, and a context manager [use_span]: its
    token, whether it ends the span, and whether it has been left. *)
Record scope_shim := SoS { so_shim : nat; so_token : nat; so_cm_token : nat; so_finish : bool; so_left : bool }.

(** util 15-17 *)
Definition DEFAULT_EVENT_NAME : str := lit "log".
(** util 46-54 [event_name_from_kv].  (The name of an event is a text: other values are not modelled.) *)
Definition event_name_from_kv (kv : option (dict str pyval)) : option str :=
  match kv with
  | None => Some DEFAULT_EVENT_NAME
  | Some d => match dget (lit "event") d with
              | None => Some DEFAULT_EVENT_NAME
              | Some (PStr _ s) => Some s
              | Some _ => None
              end
  end.

Fixpoint upd_nth {A} (n : nat) (f : A -> A) (l : list A) : list A :=
  match l, n with
  | [], _ => []
  | x :: r, O => f x :: r
  | x :: r, S n' => x :: upd_nth n' f r
  end.

Section Shim.
Context {G : Type}.
Variable gen_trace_id gen_span_id : G -> Z * G.
Variable tr : tracer.
Variable describe : exc -> exc_info.
(** util 20-30 [time_seconds_to_ns]: int(seconds * 1e9) of floats *)
Variable to_ns : Z -> Z.

Record shworld := ShW {
  sh_rt : runtime; sh_store : store (G := G); sh_spans : list shim_span; sh_scopes : list scope_shim;
  sh_tokens : list nat       (* the tokens of HOtelAttach *) }.
Definition sh_init (g : G) : shworld := ShW rt_init (Store g [] 0 []) [] [] [].

(** shim 479-505 [ScopeManagerShim.active]: the scope in the current context, if there is a current span.  (get_value
    does not raise KeyError, so that the except branch 502-505 is not reached.)  Scope j is stored as [OOther j]. *)
Definition active (u : nat) (w : shworld) : option nat :=
  let c := get_current u (sh_rt w) in
  if is_invalid_context (current_span_context c) then None
  else match get_value SHIM_KEY c with OOther j => Some (N.to_nat j) | _ => None end.
(** [unwrap] of a SpanShim (shim 199-207), as the object that is stored in contexts *)
Definition otel_of (w : shworld) (k : nat) : option nat := option_map ss_span (nth_error (sh_spans w) k).
Definition otel_obj (w : shworld) (n : nat) : option obj := option_map as_obj (nth_error (st_spans (sh_store w)) n).
Definition shim_obj (w : shworld) (k : nat) : option obj :=
  match otel_of w k with Some n => otel_obj w n | None => None end.
(** opentracing [Tracer.active_span], unwrapped *)
Definition active_obj (u : nat) (w : shworld) : option obj :=
  match active u w with
  | Some j => match nth_error (sh_scopes w) j with Some s => shim_obj w (so_shim s) | None => None end
  | None => None
  end.
(** [NonRecordingSpan(context)] *)
Definition non_recording (sc : span_context) : obj := OSpan sc false None.

(** shim 649-686 [start_span]: child_of unwrapped (None if not given; in start_active_span it may be the current
    span), and the rest.  The arguments that OpenTelemetry's start_span gets. *)
Definition child_obj (w : shworld) (a : start_args) : option obj :=
  match sa_child a with
  | None => None
  | Some (inl k) => shim_obj w k
  | Some (inr sc) => Some (non_recording sc)
  end.
Definition shim_block (u : nat) (w : shworld) (child : option obj) (a : start_args) : block :=
  let child := match child with
               | None => if sa_ignore a then None else active_obj u w
               | Some o => Some o
               end in
  let valid_links := flat_map (fun r => match r with Some sc => [sc] | None => [] end) (sa_refs a) in
  let parent := match child, valid_links with
                | Some o, _ => o
                | None, sc :: _ => non_recording sc
                | None, [] => ONone
                end in
  Block (sa_name a) (Some (set_span_in_context parent (get_current u (sh_rt w)))) 0 (sa_tags a)
        (map (fun sc => Some (Some sc, [])) valid_links) (option_map to_ns (sa_start a)) false true true.
(** A child that does not exist cannot be given. *)
Definition child_known (w : shworld) (a : start_args) : bool :=
  match sa_child a with Some (inl k) => Nat.ltb k (length (sh_spans w)) | _ => true end.

(** The new span, wrapped in the next SpanShim. *)
Definition shim_start (u : nat) (w : shworld) (child : option obj) (a : start_args) (now : Z) : shworld :=
  let b := shim_block u w child a in
  let n := length (st_spans (sh_store w)) in
  match start_block gen_trace_id gen_span_id tr (get_current u (sh_rt w)) b now (fun n => BEnter n b now) (sh_store w) with
  | (Ok _, st) => ShW (sh_rt w) st (sh_spans w ++ [SS n []]) (sh_scopes w) (sh_tokens w)
  | (Raises _, st) => ShW (sh_rt w) st (sh_spans w) (sh_scopes w) (sh_tokens w)
  end.
(** shim 462-477 [activate], 393-397 [from_context_manager], 358-363 [__init__]: use_span enters (api/trace 583-584), a new
    SpanShim of the same span, then the scope is attached. *)
Definition shim_activate (u k : nat) (finish : bool) (w : shworld) : shworld :=
  match otel_of w k with
  | None => w
  | Some n =>
      match otel_obj w n with
      | None => w
      | Some o =>
          let (rt1, t1) := attach u (set_value SPAN_KEY o (get_current u (sh_rt w))) (sh_rt w) in
          let j := length (sh_scopes w) in
          let (rt2, t2) := attach u (set_value SHIM_KEY (OOther (N.of_nat j)) (get_current u rt1)) rt1 in
          ShW rt2 (sh_store w) (sh_spans w ++ [SS n []]) (sh_scopes w ++ [SoS (length (sh_spans w)) t2 t1 finish false])
             (sh_tokens w)
      end
  end.
(** api/trace 585-617: the end of [use_span] once its token has been detached.  (contextlib: the generator sees the
    exception of the with block.) *)
Definition cm_exit (n : nat) (finish : bool) (out : outcome) (t1 t2 : Z) (st : store (G := G)) : store :=
  let st1 := match out with
             | Returned => st
             | Raised e =>
                 if ex_error e && nth_recording n st then
                   let r := ORecordException (describe e) [] None false t1 in
                   let s := OSetStatus (SAStatus ERROR (PStr false (ex_type e ++ lit ": " ++ ex_msg e))) PNone in
                   call_on n s (BCall n s) (call_on n r (BCall n r) st)
                 else st
             end in
  if finish then call_on n (OEnd None t2) (BCall n (OEnd None t2)) st1 else st1.
(** shim 399-436 [close], [__exit__], [_end_span_scope].  All scopes are made by from_context_manager.  A context manager
    that has been left does nothing when it is left again. *)
Definition shim_close (u j : nat) (out : outcome) (t1 t2 : Z) (w : shworld) : shworld :=
  match nth_error (sh_scopes w) j with
  | None => w
  | Some s =>
      match otel_of w (so_shim s) with
      | None => w
      | Some n =>
          let rt1 := detach u (so_token s) (sh_rt w) in
          if so_left s then ShW rt1 (sh_store w) (sh_spans w) (sh_scopes w) (sh_tokens w)
          else ShW (detach u (so_cm_token s) rt1) (cm_exit n (so_finish s) out t1 t2 (sh_store w)) (sh_spans w)
                  (upd_nth j (fun s => SoS (so_shim s) (so_token s) (so_cm_token s) (so_finish s) true) (sh_scopes w)) (sh_tokens w)
      end
  end.
(** shim 209-287: the methods of a SpanShim. *)
Definition shim_method (c : shim_call) (now : Z) : option sop :=
  match c with
  | MSetOperationName name => Some (OUpdateName name)
  | MFinish t => Some (OEnd (option_map to_ns t) now)
  | MSetTag key value => Some (OSetAttributes [(key, value)])
  | MLogKv kv t =>
      match event_name_from_kv kv with
      | Some name =>
          Some (OAddEvent name (match kv with Some d => map (fun kv => (PStr false (fst kv), snd kv)) d | None => [] end) (option_map to_ns t) now)
      | None => None
      end
  end.
Definition with_store (w : shworld) (st : store) : shworld := ShW (sh_rt w) st (sh_spans w) (sh_scopes w) (sh_tokens w).
Definition sh_step (w : shworld) (o : shop) : shworld :=
  match o with
  | HStart u a now => if child_known w a then shim_start u w (child_obj w a) a now else w
  | HStartActive u a finish now =>
      (* shim 597-613 [start_active_span]: the current span as child_of.  (INVALID_SPAN_CONTEXT is told by its value.) *)
      if child_known w a then
        let cur := get_current_span (get_current u (sh_rt w)) in
        let child := match child_obj w a with
                     | None => if is_invalid_context (span_context_of cur) then None else Some cur
                     | Some o => Some o
                     end in
        shim_activate u (length (sh_spans w)) finish (shim_start u w child a now)
      else w
  | HActivate u k finish => shim_activate u k finish w
  | HClose u j out t1 t2 => shim_close u j out t1 t2 w
  | HCall k c now =>
      match otel_of w k, shim_method c now with
      | Some n, Some o => with_store w (call_on n o (BCall n o) (sh_store w))
      | _, _ => w
      end
  | HBaggage k name v =>
      (* shim 297-308 [set_baggage_item] *)
      ShW (sh_rt w) (sh_store w) (upd_nth k (fun s => SS (ss_span s) (set_baggage name v (ss_baggage s))) (sh_spans w))
         (sh_scopes w) (sh_tokens w)
  | HOtelStart u b now =>
      with_store w (snd (start_block gen_trace_id gen_span_id tr (get_current u (sh_rt w)) b now (fun n => BEnter n b now)
                          (sh_store w)))
  | HOtelCall n o => with_store w (call_on n o (BCall n o) (sh_store w))
  | HOtelAttach u n =>
      match otel_obj w n with
      | Some x =>
          let (rt, t) := attach u (set_span_in_context x (get_current u (sh_rt w))) (sh_rt w) in
          ShW rt (sh_store w) (sh_spans w) (sh_scopes w) (sh_tokens w ++ [t])
      | None => w
      end
  | HOtelDetach u m =>
      match nth_error (sh_tokens w) m with
      | Some t => ShW (detach u t (sh_rt w)) (sh_store w) (sh_spans w) (sh_scopes w) (sh_tokens w)
      | None => w
      end
  | HFork u v => ShW (rt_step (sh_rt w) (RFork u v)) (sh_store w) (sh_spans w) (sh_scopes w) (sh_tokens w)
  end.
Definition sh_run (g : G) (h : list shop) : shworld := fold_left sh_step h (sh_init g).

(** shim 310-319 [get_baggage_item] *)
Definition get_baggage_item (w : shworld) (k : nat) (name : str) : option obj :=
  option_map (fun s => get_baggage name (ss_baggage s)) (nth_error (sh_spans w) k).
End Shim.
Arguments ShW {G}. Arguments sh_rt {G}. Arguments sh_store {G}. Arguments sh_spans {G}. Arguments sh_scopes {G}. Arguments sh_tokens {G}.

(** ** Propagation *)

Inductive format := TEXT_MAP | HTTP_HEADERS | OTHER_FORMAT.
Definition supported (f : format) : bool := match f with OTHER_FORMAT => false | _ => true end.
(** shim 688-717 [inject]; [ps]: the members of the global propagator, [current]: the current context; the span context
    may be None. *)
Definition shim_inject (ps : list propagator) (current : context) (f : format) (sc : option span_context)
    : outcome_of injected :=
  if supported f then
    Ok (comp_inject ps (set_span_in_context (match sc with Some c => non_recording c | None => ONone end) current))
  else Raises "UnsupportedFormatException".
(** shim 719-752 [extract].  (get_current_span does not return None: 749-750 are not reached.) *)
Definition shim_extract (ms : list (context -> getter -> option context -> context)) (current : context) (f : format)
    (g : getter) : outcome_of span_context :=
  if supported f then
    Ok (match comp_extract_opt ms current g None with
        | Some c => current_span_context c
        | None => current_span_context current
        end)
  else Raises "UnsupportedFormatException".
