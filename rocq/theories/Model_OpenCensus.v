(** The OpenCensus shim: tracers and spans of OpenCensus made of those of OpenTelemetry.

    Source: shim/opentelemetry-opencensus-shim/src/opentelemetry/shim/opencensus/_shim_tracer.py ("tracer") and
    _shim_span.py ("span").  The opencensus package is not in the repository; used of it is only that a tracer has a span context and that
    [execution_context] keeps the current span in a context variable.  Not modelled: the fields of BlankSpan, log messages; [_patch] is in Model_OcPatch.
    The OpenTelemetry parts are those of Model_Runtime, Model_Sampling, Model_Span and Model_Blocks. *)
From Verif Require Export Model_Blocks.
Local Open Scope nat_scope.

(** What is used of opencensus.trace.span_context.SpanContext: ids are hexadecimal texts, the state is None if it is not a Tracestate. *)
Record oc_context := OCC {
  occ_trace_id : str; occ_span_id : option str; occ_from_header : bool; occ_enabled : bool; occ_state : option (list (str * str)) }.
(** opencensus.trace.time_event.MessageEvent; [me_id]: str(id). *)
Record message_event := MEv {
  me_type : Z; me_id : str; me_time : str; me_uncompressed : option Z; me_compressed : option Z }.
(** Methods of a ShimSpan. *)
Inductive oc_call :=
| OCAttribute (key value : pyval)
| OCAnnotation (description : str) (attrs : dict str pyval)
| OCMessage (e : message_event)
| OCLink
| OCKind
| OCStatus (is_ok : bool) (description : pyval)
| OCFinish.

(** An event of an execution, in units (threads or tasks) u.  OpenTelemetry spans, ShimSpans and tokens are numbered in the order of their
    creation; a call on something that does not exist leaves the state as it is. *)
Inductive oc_event :=
| CStart (u : nat) (oc : oc_context) (name : str) (now : Z)        (* start_span of a tracer with this context *)
| CEnd (u : nat) (now : Z)                                         (* end_span of any tracer *)
| CExit (u k : nat) (out : outcome) (t1 t2 : Z)                    (* the with block of ShimSpan k is left *)
| CCall (k : nat) (c : oc_call) (now : Z)                          (* a method of ShimSpan k *)
| CAttribute (u : nat) (key value : pyval)                         (* add_attribute_to_current_span *)
| COtelStart (u : nat) (b : block) (now : Z)                       (* OpenTelemetry's tracer.start_span *)
| COtelCall (n : nat) (o : sop)                                    (* a method of OpenTelemetry span n *)
| CAttach (u : nat) (c : context)                                  (* OpenTelemetry's attach *)
| CDetach (u m : nat)                                              (* detach with the token of the m-th such attach *)
| CFork (u v : nat).                                               (* v is a new task made in u *)

(** span 31-41 *)
Definition MESSAGE_TYPES : dict Z str := [(0%Z, lit "TYPE_UNSPECIFIED"); (1%Z, lit "SENT"); (2%Z, lit "RECEIVED")].
(** tracer 28 [_SHIM_SPAN_KEY] (the suffix that create_key appends is left out) *)
Definition OC_KEY : str := lit "opencensus-shim-span-key".

(** [int(text, 16)] of texts of hexadecimal digits; other texts raise ValueError (Python takes some more: signs, underscores, 0x) *)
Definition int_base16 (s : str) : option Z :=
  match s with
  | [] => None
  | _ => if forallb is_hex s then Some (Z.of_N (hex_value (lower s))) else None
  end.
(** tracer 43-82 [set_oc_span_in_context], the span: None if span_id is None; Some None if int() raises *)
Definition oc_span (oc : oc_context) : option (option span_context) :=
  match occ_span_id oc with
  | None => None
  | Some sid =>
      Some (match int_base16 (occ_trace_id oc), int_base16 sid with
            | Some t, Some s =>
                Some (SC t s (occ_from_header oc) (if occ_enabled oc then 1 else 0)%Z
                         (match occ_state oc with Some l => ts_new l | None => ts_empty end))
            | _, _ => None
            end)
  end.

Section OpenCensus.
Context {G : Type}.
Variable gen_trace_id gen_span_id : G -> Z * G.
Variable tr : tracer.
Variable describe : exc -> exc_info.
(** span 44-57 [_opencensus_time_to_nanos]; None if it raises *)
Variable to_nanos : str -> option Z.

(** A ShimSpan: its OpenTelemetry span and the token of its attach. *)
Record oc_shim := OCS { ocs_span : nat; ocs_token : nat }.
Record oc_world := OCW {
  oc_rt : runtime; oc_store : store (G := G); oc_shims : list oc_shim;
  oc_cur : nat -> option nat;           (* opencensus.trace.execution_context.get_current_span() in each unit *)
  oc_tokens : list nat                  (* the tokens of CAttach *) }.
Definition oc_init (g : G) : oc_world := OCW rt_init (Store g [] 0 []) [] (fun _ => None) [].

(** tracer 148-150 [current_span], 37-38.  ShimSpan k is stored as [OOther k]. *)
Definition current_shim (u : nat) (rt : runtime) : option nat :=
  match get_value OC_KEY (get_current u rt) with OOther k => Some (N.to_nat k) | _ => None end.
Definition set_oc (u : nat) (x : option nat) (f : nat -> option nat) : nat -> option nat :=
  fun v => if Nat.eqb v u then x else f v.
Definition put_store (w : oc_world) (st : store) : oc_world := OCW (oc_rt w) st (oc_shims w) (oc_cur w) (oc_tokens w).
Definition oc_call_on (n : nat) (o : sop) (w : oc_world) : oc_world := put_store w (call_on n o (BCall n o) (oc_store w)).

(** tracer 106-113: the parent context of a new span; None if int() raises.  (INVALID_SPAN is told by its value, not by identity.) *)
Definition oc_parent (oc : oc_context) (cur : context) : option context :=
  if is_invalid_context (current_span_context cur) then
    match oc_span oc with
    | None => Some cur
    | Some None => None
    | Some (Some sc) => Some (set_span_in_context (OSpan sc false None) cur)
    end
  else Some cur.
(** tracer 115 [self._self_otel_tracer.start_span(name, context=parent_ctx)] *)
Definition oc_block (name : str) (c : context) : block := Block name (Some c) 0%Z [] [] None false true true.
(** tracer 105-132 [start_span], span 60-82 *)
Definition oc_start (u : nat) (oc : oc_context) (name : str) (now : Z) (w : oc_world) : oc_world :=
  let cur := get_current u (oc_rt w) in
  match oc_parent oc cur with
  | None => w
  | Some c =>
      let n := length (st_spans (oc_store w)) in
      let k := length (oc_shims w) in
      match start_block gen_trace_id gen_span_id tr cur (oc_block name c) now (fun n => BEnter n (oc_block name c) now) (oc_store w) with
      | (Raises _, st) => put_store w st
      | (Ok s, st) =>
          let (rt, t) := attach u (set_value OC_KEY (OOther (N.of_nat k)) (set_span_in_context (as_obj s) cur)) (oc_rt w) in
          OCW rt st (oc_shims w ++ [OCS n t]) (set_oc u (Some k) (oc_cur w)) (oc_tokens w)
      end
  end.
(** tracer 143-146, span 161-167: the context as it was before the span was started *)
Definition oc_leave (u : nat) (s : oc_shim) (w : oc_world) : oc_world :=
  let rt := detach u (ocs_token s) (oc_rt w) in
  OCW rt (oc_store w) (oc_shims w) (set_oc u (current_shim u rt) (oc_cur w)) (oc_tokens w).
(** tracer 134-146 [end_span] *)
Definition oc_end (u : nat) (now : Z) (w : oc_world) : oc_world :=
  match current_shim u (oc_rt w) with
  | None => w
  | Some k =>
      match nth_error (oc_shims w) k with
      | None => w
      | Some s => oc_leave u s (oc_call_on (ocs_span s) (OEnd None now) w)
      end
  end.
(** sdk trace/__init__.py 987-1009 [Span.__exit__], api span.py 177-186 *)
Definition span_exit (n : nat) (out : outcome) (t1 t2 : Z) (w : oc_world) : oc_world :=
  let w1 := match out with
            | Returned => w
            | Raised e =>
                if nth_recording n (oc_store w) then
                  oc_call_on n (OSetStatus (SAStatus ERROR (PStr false (ex_type e ++ lit ": " ++ ex_msg e))) PNone)
                    (oc_call_on n (ORecordException (describe e) [] None true t1) w)
                else w
            end in
  oc_call_on n (OEnd None t2) w1.
(** span 153-167 [__exit__] *)
Definition oc_exit (u k : nat) (out : outcome) (t1 t2 : Z) (w : oc_world) : oc_world :=
  match nth_error (oc_shims w) k with
  | None => w
  | Some s => oc_leave u s (span_exit (ocs_span s) out t1 t2 w)
  end.
(** span 90-115: the attributes of a message event *)
Definition size_attr (key : str) (x : option Z) : pairs := match x with Some z => [(PStr false key, PInt false z)] | None => [] end.
(** span 84-151: the methods.  None: nothing is done, or an exception is raised. *)
Definition oc_method (c : oc_call) (now : Z) : option sop :=
  match c with
  | OCAttribute key value => Some (OSetAttributes [(key, value)])
  | OCAnnotation d attrs => Some (OAddEvent d (map (fun kv => (PStr false (fst kv), snd kv)) attrs) None now)
  | OCMessage e =>
      match dget (me_type e) MESSAGE_TYPES, to_nanos (me_time e) with
      | Some t, Some ns =>
          Some (OAddEvent (me_id e)
                  ((PStr false (lit "message.event.type"), PStr false t)
                   :: size_attr (lit "message.event.size.uncompressed") (me_uncompressed e)
                   ++ size_attr (lit "message.event.size.compressed") (me_compressed e)) (Some ns) now)
      | _, _ => None
      end
  | OCLink | OCKind => None
  | OCStatus is_ok d => Some (OSetStatus (SACode (if is_ok then OK else ERROR)) d)
  | OCFinish => Some (OEnd None now)
  end.
Definition oc_step (w : oc_world) (e : oc_event) : oc_world :=
  match e with
  | CStart u oc name now => oc_start u oc name now w
  | CEnd u now => oc_end u now w
  | CExit u k out t1 t2 => oc_exit u k out t1 t2 w
  | CCall k c now =>
      match nth_error (oc_shims w) k, oc_method c now with
      | Some s, Some o => oc_call_on (ocs_span s) o w
      | _, _ => w
      end
  | CAttribute u key value =>
      (* tracer 152-153; raises if there is no current span *)
      match current_shim u (oc_rt w) with
      | Some k => match nth_error (oc_shims w) k with
                  | Some s => oc_call_on (ocs_span s) (OSetAttributes [(key, value)]) w
                  | None => w
                  end
      | None => w
      end
  | COtelStart u b now =>
      put_store w (snd (start_block gen_trace_id gen_span_id tr (get_current u (oc_rt w)) b now (fun n => BEnter n b now) (oc_store w)))
  | COtelCall n o => oc_call_on n o w
  | CAttach u c =>
      let (rt, t) := attach u c (oc_rt w) in OCW rt (oc_store w) (oc_shims w) (oc_cur w) (oc_tokens w ++ [t])
  | CDetach u m =>
      match nth_error (oc_tokens w) m with
      | Some t => OCW (detach u t (oc_rt w)) (oc_store w) (oc_shims w) (oc_cur w) (oc_tokens w)
      | None => w
      end
  | CFork u v => OCW (rt_step (oc_rt w) (RFork u v)) (oc_store w) (oc_shims w) (set_oc v (oc_cur w u) (oc_cur w)) (oc_tokens w)
  end.
Definition oc_run (h : list oc_event) (w : oc_world) : oc_world := fold_left oc_step h w.
End OpenCensus.
Arguments OCW {G}. Arguments oc_rt {G}. Arguments oc_store {G}. Arguments oc_shims {G}. Arguments oc_cur {G}. Arguments oc_tokens {G}.
