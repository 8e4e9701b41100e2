(** Spans as messages of the OpenCensus collector, and their export.

    Source: exporter/opentelemetry-exporter-opencensus/src/opentelemetry/exporter/opencensus/trace_exporter/__init__.py ("init") and
    ../util.py ("util").  Messages are records, [None] as a result is an exception, as in Model_Otlp.  Not modelled: the host's name,
    the process id, the start time and the versions in the node; the channel; the checks of newer protobuf versions for timestamps
    outside of the years 1 to 9999. *)
From Verif Require Export Model_Otlp.
Local Open Scope Z_scope.

(** google.protobuf.Timestamp *)
Record pb_time := PbTime { pt_seconds : Z; pt_nanos : Z }.
(** trace.proto AttributeValue and the map of an Attributes message *)
Inductive ocx_value := XString (s : str) | XInt (z : Z) | XBool (b : bool) | XDouble (f : Z).
Record ocx_annotation := XAnnotation { xa_time : pb_time; xa_description : str; xa_attrs : dict str ocx_value }.
Record ocx_link := XLink { xl_trace_id : list N; xl_span_id : list N; xl_type : Z; xl_attrs : dict str ocx_value }.
(** [xs_status]: code and message *)
Record ocx_span := XSpan {
  xs_trace_id : list N; xs_span_id : list N; xs_parent : list N; xs_state : list (str * str); xs_name : str; xs_kind : Z;
  xs_start : pb_time; xs_end : pb_time; xs_attrs : dict str ocx_value; xs_events : list ocx_annotation; xs_links : list ocx_link;
  xs_status : Z * str }.

Section Str.
(** [str(value)] *)
Variable py_str : pyval -> str.

(** util 36-50 [proto_timestamp_from_time_ns]; [FromNanoseconds] sets [nanos // 10**9] and [nanos % 10**9] *)
Definition ocx_time (t : option Z) : option pb_time :=
  match t with
  | None => Some (PbTime 0 0)
  | Some ns => let? s := pb_int64 (ns / 10 ^ 9) in Some (PbTime s (ns mod 10 ^ 9))
  end.
(** util 54-59 [get_collector_span_kind]: SERVER and CLIENT of OpenTelemetry are 1 and 2, and so are those of OpenCensus. *)
Definition ocx_kind (k : Z) : Z := if k =? 1 then 1 else if k =? 2 then 2 else 0.
(** util 62-81 [add_proto_attribute_value] *)
Definition ocx_attr_value (v : pyval) : option ocx_value :=
  match v with
  | PBool b => Some (XBool b)
  | PInt _ z => let? z := pb_int64 z in Some (XInt z)
  | PStr _ s => let? s := pb_str s in Some (XString s)
  | PFloat _ f => Some (XDouble f)
  | _ => let? s := pb_str (py_str v) in Some (XString s)
  end.
(** init 138-142, 150-154, 183-187 *)
Fixpoint ocx_attrs (l : dict str pyval) (acc : dict str ocx_value) : option (dict str ocx_value) :=
  match l with
  | [] => Some acc
  | (k, v) :: l' => let? k := pb_str k in let? x := ocx_attr_value v in ocx_attrs l' (dset k x acc)
  end.
(** init 109-114; a description that is neither a string nor None raises TypeError *)
Definition ocx_status (st : status) : option (Z * str) :=
  let? m := match st_desc st with
            | PNone => Some []
            | PStr _ s => pb_str s
            | PBytes _ b => strict_decode b
            | _ => None
            end in
  Some (match st_code st with UNSET => 0 | OK => 1 | ERROR => 2 end, m).
(** init 132-135 *)
Definition ocx_entry (kv : str * str) : option (str * str) :=
  let? k := pb_str (fst kv) in let? v := pb_str (snd kv) in Some (k, v).
(** init 144-159 *)
Definition ocx_event (e : event) : option ocx_annotation :=
  let? n := pb_str (ev_name e) in
  let? a := ocx_attrs (ba_dict (ev_attrs e)) [] in
  let? t := ocx_time (Some (ev_ts e)) in
  Some (XAnnotation t n a).
(** init 161-187; PARENT_LINKED_SPAN is 2, TYPE_UNSPECIFIED is 0 *)
Definition ocx_one_link (parent : option span_context) (l : link) : option ocx_link :=
  let? t := to_bytes 16 (sc_trace_id (lk_ctx l)) in
  let? s := to_bytes 8 (sc_span_id (lk_ctx l)) in
  let ty := match parent with
            | Some p => if (sc_span_id (lk_ctx l) =? sc_span_id p) && (sc_trace_id (lk_ctx l) =? sc_trace_id p) then 2 else 0
            | None => 0
            end in
  let? a := ocx_attrs (ba_dict (lk_attrs l)) [] in
  Some (XLink t s ty a).
(** init 104-190 [translate_to_collector] of one span *)
Definition translate_span (s : sdk_span) : option ocx_span :=
  let? st := ocx_status (sp_status s) in
  let? n := pb_str (sp_name s) in
  let? t := to_bytes 16 (sc_trace_id (sp_ctx s)) in
  let? i := to_bytes 8 (sc_span_id (sp_ctx s)) in
  let? t0 := ocx_time (sp_start s) in
  let? t1 := ocx_time (sp_end s) in
  let? p := to_bytes 8 (match sp_parent s with Some c => sc_span_id c | None => 0 end) in
  let? ts := map_opt ocx_entry (sc_state (sp_ctx s)) in
  let? a := ocx_attrs (ba_dict (sp_attrs s)) [] in
  let? es := map_opt ocx_event (bl_items (sp_events s)) in
  let? ls := map_opt (ocx_one_link (sp_parent s)) (bl_items (sp_links s)) in
  Some (XSpan t i p ts n (ocx_kind (sp_kind s)) t0 t1 a es ls st).
Definition translate_to_collector (spans : list sdk_span) : option (list ocx_span) := map_opt translate_span spans.

(** ** Export *)

(** What a span exporter is given: the span and the attributes of its resource. *)
Record ocx_item := XItem { xi_span : sdk_span; xi_resource : dict str pyval }.
(** What [Export] does with the request: it consumes the generator of requests, in another thread, and answers.  An exception that the generator
    raises ends the call with an RpcError (grpc's _channel.py [_consume_request_iterator], not part of /repo). *)
Inductive ocx_reply := XAnswers | XFails.
Inductive ocx_result := XSuccess | XFailure | XRaised (e : string).
(** init 73-97 [export]: the service name of the node is that of the first span's resource, if it is not false; [get_node] (util 85-104) raises
    TypeError if it is not a string.  The result, what was sent and the service name from then on.  [reply]: the collector's.
    (0.0 counts as true here.) *)
Definition service_name : str := lit "service.name".
Definition ocx_node (node : str) (spans : list ocx_item) : outcome_of str :=
  match spans with
  | [] => Ok node
  | s :: _ => match dget service_name (xi_resource s) with
              | None | Some PNone | Some (PBool false) | Some (PInt _ 0) | Some (PStr _ []) | Some (PBytes _ []) | Some (PSeq _ []) => Ok node
              | Some (PStr _ s) => match pb_str s with Some s => Ok s | None => Raises "ValueError" end
              | Some (PBytes _ b) => match strict_decode b with Some s => Ok s | None => Raises "ValueError" end
              | Some _ => Raises "TypeError"
              end
  end.
Definition ocx_export (node : str) (spans : list ocx_item) (reply : ocx_reply) : ocx_result * option (str * list ocx_span) * str :=
  match ocx_node node spans with
  | Raises e => (XRaised e, None, node)
  | Ok node =>
      match translate_to_collector (map xi_span spans) with
      | None => (XFailure, None, node)
      | Some ms => (match reply with XAnswers => XSuccess | XFails => XFailure end, Some (node, ms), node)
      end
  end.
End Str.
