(** What messages of OpenCensus say. *)
From Verif Require Export Spec_Otlp Model_OcExporter.
Local Open Scope Z_scope.

Definition time_read (t : Z) (p : pb_time) : Prop := pt_seconds p * 1000000000 + pt_nanos p = t /\ 0 <= pt_nanos p < 1000000000.
(** (An absent time is sent as 1970.) *)
Definition opt_time_read (t : option Z) (p : pb_time) : Prop := time_read (or_zero t) p.
Section Str.
Variable py_str : pyval -> str.
(** Values of other types are sent as texts. *)
Inductive value_read : pyval -> ocx_value -> Prop :=
| vr_bool b : value_read (PBool b) (XBool b)
| vr_int sub z : value_read (PInt sub z) (XInt z)
| vr_str sub s : value_read (PStr sub s) (XString s)
| vr_float sub f : value_read (PFloat sub f) (XDouble f)
| vr_other v : match v with PNone | PBytes _ _ | PSeq _ _ | PObj _ => True | _ => False end -> value_read v (XString (py_str v)).
Definition attrs_read (d : dict str pyval) (x : dict str ocx_value) : Prop :=
  Forall2 (fun kv kx => fst kx = fst kv /\ value_read (snd kv) (snd kx)) d x.
(** SpanKind of OpenTelemetry: INTERNAL 0, SERVER 1, CLIENT 2, PRODUCER 3, CONSUMER 4; of OpenCensus: unspecified 0, SERVER 1, CLIENT 2 *)
Inductive kind_read : Z -> Z -> Prop :=
| kr_server : kind_read 1 1
| kr_client : kind_read 2 2
| kr_other k : k <> 1 -> k <> 2 -> kind_read k 0.
Definition annotation_read (e : event) (x : ocx_annotation) : Prop :=
  time_read (ev_ts e) (xa_time x) /\ xa_description x = ev_name e /\ attrs_read (ba_dict (ev_attrs e)) (xa_attrs x).
Definition ocx_id_read (n : nat) (z : Z) (bs : list N) : Prop := is_bytes n bs /\ number_of_bytes bs = z.
(** The type of a link is PARENT_LINKED_SPAN (2) if it is to the span's parent. *)
Definition to_parent (parent : option span_context) (l : link) : Prop :=
  exists p, parent = Some p /\ sc_trace_id p = sc_trace_id (lk_ctx l) /\ sc_span_id p = sc_span_id (lk_ctx l).
Definition ocx_link_read (parent : option span_context) (l : link) (x : ocx_link) : Prop :=
  ocx_id_read 16 (sc_trace_id (lk_ctx l)) (xl_trace_id x) /\ ocx_id_read 8 (sc_span_id (lk_ctx l)) (xl_span_id x)
  /\ (xl_type x = 2 /\ to_parent parent l \/ xl_type x = 0 /\ ~ to_parent parent l)
  /\ attrs_read (ba_dict (lk_attrs l)) (xl_attrs x).
Definition ocx_read (s : sdk_span) (x : ocx_span) : Prop :=
  (ocx_id_read 16 (sc_trace_id (sp_ctx s)) (xs_trace_id x) /\ ocx_id_read 8 (sc_span_id (sp_ctx s)) (xs_span_id x)
   /\ (forall p, sp_parent s = Some p -> ocx_id_read 8 (sc_span_id p) (xs_parent x))
   /\ xs_state x = sc_state (sp_ctx s))
  /\ (xs_name x = sp_name s /\ kind_read (sp_kind s) (xs_kind x)
      /\ opt_time_read (sp_start s) (xs_start x) /\ opt_time_read (sp_end s) (xs_end x)
      /\ fst (xs_status x) = code_number (st_code (sp_status s)) /\ description_read (st_desc (sp_status s)) (snd (xs_status x)))
  /\ (attrs_read (ba_dict (sp_attrs s)) (xs_attrs x)
      /\ Forall2 annotation_read (bl_items (sp_events s)) (xs_events x)
      /\ Forall2 (ocx_link_read (sp_parent s)) (bl_items (sp_links s)) (xs_links x)).
(** Which spans can be sent: text is Unicode, numbers fit. *)
Definition value_sendable (v : pyval) : Prop :=
  match v with
  | PBool _ | PFloat _ _ => True
  | PInt _ z => int64 z
  | PStr _ s => unicode_text s
  | v => unicode_text (py_str v)
  end.
Definition attrs_sendable (d : dict str pyval) : Prop := Forall (fun kv => unicode_text (fst kv) /\ value_sendable (snd kv)) d.
Definition time_sendable (t : Z) : Prop := int64 (t / 1000000000).
Definition opt_sendable {A} (P : A -> Prop) (o : option A) : Prop := match o with Some a => P a | None => True end.
Definition sendable (s : sdk_span) : Prop :=
  (fits 128 (sc_trace_id (sp_ctx s)) /\ fits 64 (sc_span_id (sp_ctx s)) /\ opt_fits 64 (option_map sc_span_id (sp_parent s))
   /\ Forall (fun kv => unicode_text (fst kv) /\ unicode_text (snd kv)) (sc_state (sp_ctx s)))
  /\ (unicode_text (sp_name s) /\ opt_sendable time_sendable (sp_start s) /\ opt_sendable time_sendable (sp_end s)
      /\ description_ok (st_desc (sp_status s)))
  /\ attrs_sendable (ba_dict (sp_attrs s))
  /\ Forall (fun e => unicode_text (ev_name e) /\ time_sendable (ev_ts e) /\ attrs_sendable (ba_dict (ev_attrs e))) (bl_items (sp_events s))
  /\ Forall (fun l => fits 128 (sc_trace_id (lk_ctx l)) /\ fits 64 (sc_span_id (lk_ctx l)) /\ attrs_sendable (ba_dict (lk_attrs l)))
       (bl_items (sp_links s)).
End Str.
(** Dicts have each key once. *)
Definition span_dicts (s : sdk_span) : Prop :=
  NoDup (keys (ba_dict (sp_attrs s))) /\ Forall (fun e => NoDup (keys (ba_dict (ev_attrs e)))) (bl_items (sp_events s))
  /\ Forall (fun l => NoDup (keys (ba_dict (lk_attrs l)))) (bl_items (sp_links s)).
(** What a status code says: google.rpc.Code, to which OpenCensus's trace.proto refers *)
Definition rpc_ok (code : Z) : Prop := code = 0.
(** The service name that a batch is sent under *)
Definition named (spans : list ocx_item) (old new : str) : Prop :=
  match spans with
  | [] => new = old
  | s :: _ => match dget (lit "service.name") (xi_resource s) with
              | Some (PStr _ (c :: n)) => new = c :: n
              | _ => new = old
              end
  end.
