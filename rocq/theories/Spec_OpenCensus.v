(** Specifications for the OpenCensus shim. *)
From Verif Require Export Spec_Sampling Spec_Runtime Spec_Span Model_OpenCensus.
Local Open Scope nat_scope.

(** The number that a text of hexadecimal digits stands for. *)
Inductive hex_text : str -> Z -> Prop :=
| hn_digit c : is_hex c = true -> hex_text [c] (Z.of_N (hex_val (lower_char c)))
| hn_more s z c : hex_text s z -> is_hex c = true -> hex_text (s ++ [c]) (16 * z + Z.of_N (hex_val (lower_char c))).

(** What an OpenCensus span context says in OpenTelemetry's terms. *)
Record oc_same (oc : oc_context) (sc : span_context) : Prop := Same {
  same_trace : hex_text (occ_trace_id oc) (sc_trace_id sc);
  same_span : exists s, occ_span_id oc = Some s /\ hex_text s (sc_span_id sc);
  same_remote : sc_is_remote sc = occ_from_header oc;
  same_sampled : sc_flags sc = if occ_enabled oc then 1%Z else 0%Z;
  same_state : sc_state sc = ts_new (match occ_state oc with Some l => l | None => [] end)
}.
(** The parent of a new span: the current span; if there is none, the span of the tracer's context, if there is one. *)
Inductive oc_parent_is (oc : oc_context) (cur : span_context) : span_context -> Prop :=
| op_current : cur <> INVALID_SPAN_CONTEXT -> oc_parent_is oc cur cur
| op_tracer sc : cur = INVALID_SPAN_CONTEXT -> oc_same oc sc -> oc_parent_is oc cur sc
| op_none : cur = INVALID_SPAN_CONTEXT -> occ_span_id oc = None -> oc_parent_is oc cur INVALID_SPAN_CONTEXT.
(** The tracer's context has ids that are hexadecimal numbers, or no span id. *)
Definition ids_ok (oc : oc_context) : Prop := occ_span_id oc = None \/ exists sc, oc_same oc sc.

Section Spec.
Context {G : Type}.
Variable gen_trace_id gen_span_id : G -> Z * G.
Variable tr : tracer.
Variable describe : exc -> exc_info.
Variable to_nanos : str -> option Z.
Notation world := (oc_world (G := G)).
Notation step := (oc_step gen_trace_id gen_span_id tr describe to_nanos).
Notation run := (oc_run gen_trace_id gen_span_id tr describe to_nanos).

(** What a method of an OpenCensus span asks the OpenTelemetry span to do. *)
Definition size (key : str) (x : option Z) : pairs :=
  match x with Some z => [(PStr false key, PInt false z)] | None => [] end.
Inductive oc_asks : oc_call -> Z -> sop -> Prop :=
| oa_attribute k v t : oc_asks (OCAttribute k v) t (OSetAttributes [(k, v)])
| oa_annotation d attrs t : oc_asks (OCAnnotation d attrs) t (OAddEvent d (map (fun kv => (PStr false (fst kv), snd kv)) attrs) None t)
| oa_message e type ns t :
    In (me_type e, type) [(0%Z, lit "TYPE_UNSPECIFIED"); (1%Z, lit "SENT"); (2%Z, lit "RECEIVED")] ->
    to_nanos (me_time e) = Some ns ->
    oc_asks (OCMessage e) t
      (OAddEvent (me_id e)
         ([(PStr false (lit "message.event.type"), PStr false type)]
          ++ size (lit "message.event.size.uncompressed") (me_uncompressed e)
          ++ size (lit "message.event.size.compressed") (me_compressed e)) (Some ns) t)
| oa_ok d t : oc_asks (OCStatus true d) t (OSetStatus (SACode OK) d)
| oa_error d t : oc_asks (OCStatus false d) t (OSetStatus (SACode ERROR) d)
| oa_finish t : oc_asks OCFinish t (OEnd None t).

(** The calls on OpenTelemetry spans that an event makes. *)
Definition exiting (live : bool) (out : outcome) (t1 t2 : Z) : list sop :=
  match out with
  | Raised e =>
      if live then [ORecordException (describe e) [] None true t1;
                    OSetStatus (SAStatus ERROR (PStr false (ex_type e ++ lit ": " ++ ex_msg e))) PNone]
      else []
  | Returned => []
  end ++ [OEnd None t2].
Definition recording (w : world) (n : nat) : Prop :=
  exists x, nth_error (st_spans (oc_store w)) n = Some (Recording x) /\ sp_end (w_span x) = None.
Inductive makes (w : world) : oc_event -> list (nat * sop) -> Prop :=
| mk_end u t k s : current_shim u (oc_rt w) = Some k -> nth_error (oc_shims w) k = Some s ->
    makes w (CEnd u t) [(ocs_span s, OEnd None t)]
| mk_exit u k s out t1 t2 : nth_error (oc_shims w) k = Some s -> recording w (ocs_span s) ->
    makes w (CExit u k out t1 t2) (map (pair (ocs_span s)) (exiting true out t1 t2))
| mk_exit_dead u k s out t1 t2 : nth_error (oc_shims w) k = Some s -> ~ recording w (ocs_span s) ->
    makes w (CExit u k out t1 t2) (map (pair (ocs_span s)) (exiting false out t1 t2))
| mk_call k s c t o : nth_error (oc_shims w) k = Some s -> oc_asks c t o -> makes w (CCall k c t) [(ocs_span s, o)]
| mk_attribute u k s key value : current_shim u (oc_rt w) = Some k -> nth_error (oc_shims w) k = Some s ->
    makes w (CAttribute u key value) [(ocs_span s, OSetAttributes [(key, value)])]
| mk_otel n o : makes w (COtelCall n o) [(n, o)]
| mk_none e :
    match e with
    | CEnd u _ | CAttribute u _ _ => forall k, current_shim u (oc_rt w) = Some k -> nth_error (oc_shims w) k = None
    | CExit _ k _ _ _ => nth_error (oc_shims w) k = None
    | CCall k c t => nth_error (oc_shims w) k = None \/ forall o, ~ oc_asks c t o
    | COtelCall _ _ => False
    | _ => True
    end -> makes w e [].
(** The calls on span [n] that the events [h] make one after the other. *)
Definition on (n : nat) (l : list (nat * sop)) : list sop := map snd (filter (fun x => Nat.eqb (fst x) n) l).
Inductive calls_in (n : nat) : world -> list oc_event -> list sop -> Prop :=
| ci_nil w : calls_in n w [] []
| ci_cons w e h l l' : makes w e l -> calls_in n (step w e) h l' -> calls_in n w (e :: h) (on n l ++ l').

(** The unit in which an event changes the context. *)
Definition changes (e : oc_event) (u : nat) : Prop :=
  match e with
  | CStart v _ _ _ | CEnd v _ | CExit v _ _ _ _ | CAttach v _ | CDetach v _ | CFork _ v => u = v
  | CCall _ _ _ | CAttribute _ _ _ | COtelStart _ _ _ | COtelCall _ _ => False
  end.
(** Ways to leave the block of OpenCensus span [k]. *)
Definition closes (u k : nat) (e : oc_event) : Prop :=
  (exists t, e = CEnd u t) \/ (exists out t1 t2, e = CExit u k out t1 t2).
(** Events of which those in [u] are nested: every span started is left and every context attached is detached, innermost first.  With
    [derived], contexts that are attached are derived from the current one, as far as the shim goes. *)
Inductive oc_nested (derived : bool) (u : nat) : world -> list oc_event -> Prop :=
| on_nil w : oc_nested derived u w []
| on_other w e h : ~ changes e u -> oc_nested derived u (step w e) h -> oc_nested derived u w (e :: h)
| on_block w oc name t inner close h : ids_ok oc -> closes u (length (oc_shims w)) close ->
    oc_nested derived u (step w (CStart u oc name t)) inner ->
    oc_nested derived u (run (CStart u oc name t :: inner ++ [close]) w) h ->
    oc_nested derived u w (CStart u oc name t :: inner ++ close :: h)
| on_attach w c inner h :
    (derived = true -> get_value OC_KEY c = get_value OC_KEY (get_current u (oc_rt w))) ->
    oc_nested derived u (step w (CAttach u c)) inner ->
    oc_nested derived u (run (CAttach u c :: inner ++ [CDetach u (length (oc_tokens w))]) w) h ->
    oc_nested derived u w (CAttach u c :: inner ++ CDetach u (length (oc_tokens w)) :: h).
End Spec.

(** What a span shows that was started with this name at time [now] under parent [p], after the calls [l]. *)
Definition oc_shows (tr : tracer) (name : str) (now : Z) (p : span_context) (l : list sop) (s : started) : Prop :=
  let c := started_context s in
  sc_is_valid c = true
  /\ (sc_is_valid p = true -> sc_trace_id c = sc_trace_id p)
  /\ exists cur ctx, current_span_context ctx = p
     /\ let r := t_sampler tr cur (Some ctx) (sc_trace_id c) name 0%Z [] [] in
        sc_flags c = (match sr_decision r with RECORD_AND_SAMPLE => 1 | _ => 0 end)%Z
        /\ match s with
           | NonRecording _ => sr_decision r = DROP
           | Recording w => sr_decision r <> DROP
               /\ carries (t_limits tr) name c (if sc_is_valid p then Some p else None) 0%Z (sr_attrs r) [] now
                    (until_end (map ACall l)) (w_span w)
               /\ sp_end (w_span w) = first_end (map ACall l)
               /\ ended_spans (w_log w) = match first_end (map ACall l) with Some _ => [w_span w] | None => [] end
           end.
