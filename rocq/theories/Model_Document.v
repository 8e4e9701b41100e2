(** The JSON documents of spans, log records and metrics, and the exporters that print them.

    Sources: opentelemetry-sdk/src/opentelemetry/sdk/trace/__init__.py 486-564 [ReadableSpan.to_json] ("trace"),
    resources/__init__.py 300-310 [Resource.to_json], util/instrumentation.py 152-163 [InstrumentationScope.to_json],
    _logs/_internal/__init__.py 219-256 [LogRecord.to_json] ("logs"), metrics/_internal/point.py ("point"),
    trace/export/__init__.py 490-517 [ConsoleSpanExporter], _logs/_internal/export/__init__.py 87-111 [ConsoleLogExporter],
    metrics/_internal/export/__init__.py 136-178 [ConsoleMetricExporter]. *)
From Verif Require Export Model_Json Model_Otlp Model_Times.

Fixpoint map_out {A B} (f : A -> outcome_of B) (l : list A) : outcome_of (list B) :=
  match l with
  | [] => Ok []
  | x :: l' => bind_out (f x) (fun y => bind_out (map_out f l') (fun ys => Ok (y :: ys)))
  end.

(** What json.dumps makes of a value; bytes and other objects raise TypeError (encoder.py [default]). *)
Fixpoint pv_json (v : pyval) : outcome_of jv :=
  match v with
  | PNone => Ok JNull
  | PBool b => Ok (JBool b)
  | PInt _ z => Ok (JInt z)
  | PFloat _ f => Ok (JFloat f)
  | PStr _ s => Ok (JStr s)
  | PSeq _ l =>
      bind_out ((fix go (l : list pyval) : outcome_of (list jv) :=
                   match l with
                   | [] => Ok []
                   | x :: l' => bind_out (pv_json x) (fun y => bind_out (go l') (fun ys => Ok (y :: ys)))
                   end) l) (fun ys => Ok (JArr ys))
  | PBytes _ _ | PObj _ => Raises "TypeError"
  end.
(** The same for the body of a log record, which may also be a mapping; its keys are strings *)
Fixpoint anyv_json (v : anyv) : outcome_of jv :=
  match v with
  | ANone => Ok JNull
  | ABool b => Ok (JBool b)
  | AInt z => Ok (JInt z)
  | AFloat f => Ok (JFloat f)
  | AStr s => Ok (JStr s)
  | ASeq l =>
      bind_out ((fix go (l : list anyv) : outcome_of (list jv) :=
                   match l with
                   | [] => Ok []
                   | x :: l' => bind_out (anyv_json x) (fun y => bind_out (go l') (fun ys => Ok (y :: ys)))
                   end) l) (fun ys => Ok (JArr ys))
  | AMap l =>
      bind_out ((fix go (l : list (str * anyv)) : outcome_of (list (str * jv)) :=
                   match l with
                   | [] => Ok []
                   | (k, x) :: l' => bind_out (anyv_json x) (fun y => bind_out (go l') (fun ys => Ok ((k, y) :: ys)))
                   end) l) (fun ys => Ok (JObj ys))
  | ABytes _ | AOther => Raises "TypeError"
  end.
Definition attrs_json (d : dict str pyval) : outcome_of jv :=
  bind_out (map_out (fun kv => bind_out (pv_json (snd kv)) (fun j => Ok (fst kv, j))) d) (fun l => Ok (JObj l)).
Definition opt_json {A} (f : A -> jv) (o : option A) : jv := match o with Some a => f a | None => JNull end.

Section Document.
(** As in Model_Json *)
Variable kind : Z -> float_kind.
Variable read_float : str -> Z.
Variable nan inf neg_inf : Z.
(** [repr] of a str *)
Variable str_repr : str -> str.

(** [json.loads(x.to_json(indent))] *)
Definition reload (indent : option nat) (j : outcome_of jv) : outcome_of jv :=
  bind_out j (fun j => match loads read_float nan inf neg_inf (dumps kind indent j) with Some j => Ok j | None => Raises "JSONDecodeError" end).
Definition to_text (indent : option nat) (j : outcome_of jv) : outcome_of str := bind_out j (fun j => Ok (dumps kind indent j)).

(** resources 300-310 *)
Definition resource_json (r : resource) : outcome_of jv :=
  bind_out (attrs_json (r_attrs r)) (fun a => Ok (JObj [(lit "attributes", a); (lit "schema_url", JStr (r_schema r))])).
(** instrumentation 152-163 *)
Definition scope_json (s : scope) : outcome_of jv :=
  bind_out (match sco_attrs s with [] => Ok JNull | d => attrs_json d end)
    (fun a => Ok (JObj [(lit "name", JStr (sco_name s)); (lit "version", opt_json JStr (sco_version s));
                        (lit "schema_url", JStr (sco_schema s)); (lit "attributes", a)])).

(** ** Spans *)

(** api/trace/span.py 274-279 [TraceState.__repr__]: the repr of a list of texts *)
Definition state_repr (ts : tracestate) : str :=
  lit "[" ++ join (lit ", ") (map (fun kv => str_repr (lit "{key=" ++ fst kv ++ lit ", value=" ++ snd kv ++ lit "}")) ts) ++ lit "]".
(** trace 523-529 [_format_context] *)
Definition context_json (c : span_context) : jv :=
  JObj [(lit "trace_id", JStr (lit "0x" ++ format_trace_id (sc_trace_id c))); (lit "span_id", JStr (lit "0x" ++ format_span_id (sc_span_id c)));
        (lit "trace_state", JStr (state_repr (sc_state c)))].
(** [str(kind)] of the enum SpanKind *)
Definition kind_str (k : Z) : str :=
  lit "SpanKind." ++ (if Z.eqb k 0 then lit "INTERNAL" else if Z.eqb k 1 then lit "SERVER" else if Z.eqb k 2 then lit "CLIENT"
                      else if Z.eqb k 3 then lit "PRODUCER" else lit "CONSUMER").
(** trace 491-497: a time that is None or 0 is left out *)
Definition time_json (t : option Z) : outcome_of jv :=
  match t with
  | None => Ok JNull
  | Some t => if Z.eqb t 0 then Ok JNull else bind_out (ns_to_iso_str t) (fun s => Ok (JStr s))
  end.
(** trace 499-503 *)
Definition status_json (s : status) : outcome_of jv :=
  let code := (lit "status_code", JStr (match st_code s with UNSET => lit "UNSET" | OK => lit "OK" | ERROR => lit "ERROR" end)) in
  if Model_Span.truthy (st_desc s) then bind_out (pv_json (st_desc s)) (fun d => Ok (JObj [code; (lit "description", d)])) else Ok (JObj [code]).
(** trace 539-564 [_format_events], [_format_links] *)
Definition event_json (e : event) : outcome_of jv :=
  bind_out (ns_to_iso_str (ev_ts e)) (fun t =>
  bind_out (attrs_json (ba_dict (ev_attrs e))) (fun a =>
  Ok (JObj [(lit "name", JStr (ev_name e)); (lit "timestamp", JStr t); (lit "attributes", a)]))).
Definition link_json (l : link) : outcome_of jv :=
  bind_out (attrs_json (ba_dict (lk_attrs l))) (fun a => Ok (JObj [(lit "context", context_json (lk_ctx l)); (lit "attributes", a)])).
(** trace 486-521.  Python formats the times of all events before it serialises any attribute: the exception may be another. *)
Definition span_json (s : sdk_span) (r : resource) : outcome_of jv :=
  bind_out (time_json (sp_start s)) (fun start =>
  bind_out (time_json (sp_end s)) (fun en =>
  bind_out (status_json (sp_status s)) (fun st =>
  bind_out (attrs_json (ba_dict (sp_attrs s))) (fun a =>
  bind_out (map_out event_json (bl_items (sp_events s))) (fun ev =>
  bind_out (map_out link_json (bl_items (sp_links s))) (fun lk =>
  bind_out (reload (Some 4) (resource_json r)) (fun res =>
  Ok (JObj [(lit "name", JStr (sp_name s)); (lit "context", context_json (sp_ctx s)); (lit "kind", JStr (kind_str (sp_kind s)));
            (lit "parent_id", opt_json (fun p => JStr (lit "0x" ++ format_span_id (sc_span_id p))) (sp_parent s));
            (lit "start_time", start); (lit "end_time", en); (lit "status", st); (lit "attributes", a);
            (lit "events", JArr ev); (lit "links", JArr lk); (lit "resource", res)])))))))).
Definition span_to_json (indent : option nat) (s : rspan) : outcome_of str := to_text indent (span_json (rs_span s) (rs_resource s)).

(** ** Log records *)

(** logs 219-250 *)
Definition log_json (r : log_record) : outcome_of jv :=
  bind_out (log_times (lr_time r) (lr_observed r)) (fun ts =>
  bind_out (reload (Some 4) (resource_json (lr_resource r))) (fun res =>
  bind_out (anyv_json (lr_body r)) (fun body =>
  bind_out (match lr_attrs r with [] => Ok JNull | d => attrs_json d end) (fun a =>
  Ok (JObj [(lit "body", body); (lit "severity_number", opt_json JInt (lr_severity r)); (lit "severity_text", opt_json JStr (lr_severity_text r));
            (lit "attributes", a); (lit "dropped_attributes", JInt (match lr_attrs r with [] => 0 | _ => lr_dropped r end));
            (lit "timestamp", JStr (fst ts)); (lit "observed_timestamp", JStr (snd ts));
            (lit "trace_id", JStr (match lr_trace_id r with Some t => lit "0x" ++ format_trace_id t | None => [] end));
            (lit "span_id", JStr (match lr_span_id r with Some t => lit "0x" ++ format_span_id t | None => [] end));
            (lit "trace_flags", opt_json JInt (lr_flags r)); (lit "resource", res)]))))).
Definition log_to_json (indent : option nat) (r : log_record) : outcome_of str := to_text indent (log_json r).

(** ** Metrics *)

Definition number_json (n : number) : jv := match n with NInt z => JInt z | NFloat f => JFloat f end.
(** exemplar.py 40-49, as [dataclasses.asdict] gives it *)
Definition exemplar_json (e : sdk_exemplar) : outcome_of jv :=
  bind_out (attrs_json (ex_attrs e)) (fun a =>
  Ok (JObj [(lit "filtered_attributes", a); (lit "value", number_json (ex_value e)); (lit "time_unix_nano", JInt (ex_time e));
            (lit "span_id", opt_json JInt (ex_span e)); (lit "trace_id", opt_json JInt (ex_trace e))])).
(** point 29-102 *)
Definition num_point_json (p : num_point) : outcome_of jv :=
  bind_out (attrs_json (n_attrs p)) (fun a =>
  bind_out (map_out exemplar_json (n_exemplars p)) (fun ex =>
  Ok (JObj [(lit "attributes", a); (lit "start_time_unix_nano", opt_json JInt (n_start p)); (lit "time_unix_nano", JInt (n_time p));
            (lit "value", number_json (n_value p)); (lit "exemplars", JArr ex)]))).
Definition hist_point_json (p : hist_point) : outcome_of jv :=
  bind_out (attrs_json (h_attrs p)) (fun a =>
  bind_out (map_out exemplar_json (h_exemplars p)) (fun ex =>
  Ok (JObj [(lit "attributes", a); (lit "start_time_unix_nano", opt_json JInt (h_start p)); (lit "time_unix_nano", JInt (h_time p));
            (lit "count", JInt (h_count p)); (lit "sum", number_json (h_sum p)); (lit "bucket_counts", JArr (map JInt (h_buckets p)));
            (lit "explicit_bounds", JArr (map number_json (h_bounds p))); (lit "min", opt_json number_json (h_min p));
            (lit "max", opt_json number_json (h_max p)); (lit "exemplars", JArr ex)]))).
Definition ebuckets_json (b : ebuckets) : jv := JObj [(lit "offset", JInt (eb_offset b)); (lit "bucket_counts", JArr (map JInt (eb_counts b)))].
Definition exp_point_json (p : exp_point) : outcome_of jv :=
  bind_out (attrs_json (e_attrs p)) (fun a =>
  bind_out (map_out exemplar_json (e_exemplars p)) (fun ex =>
  Ok (JObj [(lit "attributes", a); (lit "start_time_unix_nano", opt_json JInt (e_start p)); (lit "time_unix_nano", JInt (e_time p));
            (lit "count", JInt (e_count p)); (lit "sum", number_json (e_sum p)); (lit "scale", JInt (e_scale p)); (lit "zero_count", JInt (e_zero p));
            (lit "positive", ebuckets_json (e_pos p)); (lit "negative", ebuckets_json (e_neg p)); (lit "flags", JInt (e_flags p));
            (lit "min", opt_json number_json (e_min p)); (lit "max", opt_json number_json (e_max p)); (lit "exemplars", JArr ex)]))).
(** point 105-195.  [MUnknown]: data of another type, which has no [to_json]. *)
Definition data_json (indent : option nat) (d : mdata) : outcome_of jv :=
  let points {P} (f : P -> outcome_of jv) l := map_out (fun p => reload indent (f p)) l in
  match d with
  | MGauge l => bind_out (points num_point_json l) (fun ps => Ok (JObj [(lit "data_points", JArr ps)]))
  | MSum l t m => bind_out (points num_point_json l) (fun ps =>
      Ok (JObj [(lit "data_points", JArr ps); (lit "aggregation_temporality", JInt t); (lit "is_monotonic", JBool m)]))
  | MHistogram l t => bind_out (points hist_point_json l) (fun ps => Ok (JObj [(lit "data_points", JArr ps); (lit "aggregation_temporality", JInt t)]))
  | MExponential l t => bind_out (points exp_point_json l) (fun ps => Ok (JObj [(lit "data_points", JArr ps); (lit "aggregation_temporality", JInt t)]))
  | MUnknown => Raises "AttributeError"
  end.
(** point 205-223 *)
Definition metric_json (indent : option nat) (m : sdk_metric) : outcome_of jv :=
  bind_out (reload indent (data_json indent (sm_data m))) (fun d =>
  Ok (JObj [(lit "name", JStr (sm_name m)); (lit "description", JStr (match sm_descr m with Some s => s | None => [] end));
            (lit "unit", JStr (match sm_unit m with Some s => s | None => [] end)); (lit "data", d)])).
(** point 226-288 *)
Record scope_metrics := SMs { sms_scope : scope; sms_metrics : list sdk_metric; sms_schema : str }.
Record resource_metrics := RMs { rms_resource : resource; rms_scopes : list scope_metrics; rms_schema : str }.
Definition scope_metrics_json (indent : option nat) (s : scope_metrics) : outcome_of jv :=
  bind_out (reload indent (scope_json (sms_scope s))) (fun sc =>
  bind_out (map_out (fun m => reload indent (metric_json indent m)) (sms_metrics s)) (fun ms =>
  Ok (JObj [(lit "scope", sc); (lit "metrics", JArr ms); (lit "schema_url", JStr (sms_schema s))]))).
Definition resource_metrics_json (indent : option nat) (r : resource_metrics) : outcome_of jv :=
  bind_out (reload indent (resource_json (rms_resource r))) (fun rs =>
  bind_out (map_out (fun s => reload indent (scope_metrics_json indent s)) (rms_scopes r)) (fun ss =>
  Ok (JObj [(lit "resource", rs); (lit "scope_metrics", JArr ss); (lit "schema_url", JStr (rms_schema r))]))).
Definition metrics_data_json (indent : option nat) (l : list resource_metrics) : outcome_of jv :=
  bind_out (map_out (fun r => reload indent (resource_metrics_json indent r)) l) (fun rs => Ok (JObj [(lit "resource_metrics", JArr rs)])).
Definition metrics_to_json (indent : option nat) (l : list resource_metrics) : outcome_of str := to_text indent (metrics_data_json indent l).

(** ** The exporters *)

(** export 510-514, 104-108, 164-172 with the default formatters: what was written, and whether [SUCCESS] was returned ([Raises]: an
    exception came out of [export]).  [linesep] is a line feed. *)
Fixpoint console_export {A} (to_json : A -> outcome_of str) (l : list A) (out : str) : str * outcome_of unit :=
  match l with
  | [] => (out, Ok tt)
  | x :: l' =>
      match to_json x with
      | Raises e => (out, Raises e)
      | Ok t => console_export to_json l' (out ++ t ++ [10%N])
      end
  end.
Definition console_spans (l : list rspan) (out : str) : str * outcome_of unit := console_export (span_to_json (Some 4)) l out.
Definition console_logs (l : list log_data) (out : str) : str * outcome_of unit := console_export (fun d => log_to_json (Some 4) (ld_record d)) l out.
Definition console_metrics (d : list resource_metrics) (out : str) : str * outcome_of unit := console_export (metrics_to_json (Some 4)) [d] out.
End Document.
