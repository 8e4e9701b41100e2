(** What the documents of spans, log records and metrics say; and which of these can be said. *)
From Verif Require Import Spec_Times Spec_Zipkin.
From Verif Require Export Spec_Json.
From Verif Require Export Model_Document Model_Otlp.

(** ** Values *)
Inductive value_says : pyval -> jv -> Prop :=
| vs_none : value_says PNone JNull
| vs_bool b : value_says (PBool b) (JBool b)
| vs_int sub z : value_says (PInt sub z) (JInt z)
| vs_float sub f : value_says (PFloat sub f) (JFloat f)
| vs_str sub s : value_says (PStr sub s) (JStr s)
| vs_seq tuple l js : Forall2 value_says l js -> value_says (PSeq tuple l) (JArr js).
Inductive body_says : anyv -> jv -> Prop :=
| bs_none : body_says ANone JNull
| bs_bool b : body_says (ABool b) (JBool b)
| bs_int z : body_says (AInt z) (JInt z)
| bs_float f : body_says (AFloat f) (JFloat f)
| bs_str s : body_says (AStr s) (JStr s)
| bs_seq l js : Forall2 body_says l js -> body_says (ASeq l) (JArr js)
| bs_map l js : Forall2 (fun kv kj => fst kj = fst kv /\ body_says (snd kv) (snd kj)) l js -> body_says (AMap l) (JObj js).
Definition attrs_say (d : list (str * pyval)) (j : jv) : Prop :=
  exists l, j = JObj l /\ Forall2 (fun kv kj => fst kj = fst kv /\ value_says (snd kv) (snd kj)) d l.
(** An identifier: 0x and lower-case hexadecimal digits *)
Definition id_says (w : nat) (z : Z) (j : jv) : Prop := exists h, j = JStr (lit "0x" ++ h) /\ hex_id w z h.
(** A time: a text that is less than a microsecond away *)
Definition time_says (ns : Z) (j : jv) : Prop := exists t us, j = JStr t /\ utc_instant t us /\ (Z.abs (us * 1000 - ns) < 1000)%Z.
Definition or_null {A} (says : A -> jv -> Prop) (o : option A) (j : jv) : Prop := match o with Some a => says a j | None => j = JNull end.
Definition str_says (s : str) (j : jv) : Prop := j = JStr s.
Definition int_says (z : Z) (j : jv) : Prop := j = JInt z.

Section Says.
Variable str_repr : str -> str.

(** A trace state: a list of Python's representations of texts like {key=a, value=b} *)
Definition state_text (ts : list (str * str)) : str :=
  lit "[" ++ join (lit ", ") (map (fun kv => str_repr (lit "{key=" ++ fst kv ++ lit ", value=" ++ snd kv ++ lit "}")) ts) ++ lit "]".
Definition context_says (c : span_context) (j : jv) : Prop :=
  exists t s, j = JObj [(lit "trace_id", t); (lit "span_id", s); (lit "trace_state", JStr (state_text (sc_state c)))]
  /\ id_says 32 (sc_trace_id c) t /\ id_says 16 (sc_span_id c) s.
Definition resource_says (r : resource) (j : jv) : Prop :=
  exists a, j = JObj [(lit "attributes", a); (lit "schema_url", JStr (r_schema r))] /\ attrs_say (r_attrs r) a.
Definition event_says (e : event) (j : jv) : Prop :=
  exists t a, j = JObj [(lit "name", JStr (ev_name e)); (lit "timestamp", t); (lit "attributes", a)]
  /\ time_says (ev_ts e) t /\ attrs_say (ba_dict (ev_attrs e)) a.
Definition link_says (l : link) (j : jv) : Prop :=
  exists c a, j = JObj [(lit "context", c); (lit "attributes", a)] /\ context_says (lk_ctx l) c /\ attrs_say (ba_dict (lk_attrs l)) a.
(** The code, and the description if there is one *)
Definition status_says (s : status) (j : jv) : Prop :=
  exists code rest, j = JObj ((lit "status_code", JStr code) :: rest)
  /\ In (st_code s, code) [(UNSET, lit "UNSET"); (OK, lit "OK"); (ERROR, lit "ERROR")]
  /\ (forall sub d, st_desc s = PStr sub d -> d <> [] -> rest = [(lit "description", JStr d)])
  /\ (st_desc s = PNone \/ (exists sub, st_desc s = PStr sub []) -> rest = []).
Definition kinds : list (Z * str) := [(0, lit "INTERNAL"); (1, lit "SERVER"); (2, lit "CLIENT"); (3, lit "PRODUCER"); (4, lit "CONSUMER")]%Z.
Definition span_says (s : sdk_span) (r : resource) (j : jv) : Prop :=
  exists c k p st en status a ev lk res,
  j = JObj [(lit "name", JStr (sp_name s)); (lit "context", c); (lit "kind", JStr (lit "SpanKind." ++ k)); (lit "parent_id", p);
            (lit "start_time", st); (lit "end_time", en); (lit "status", status); (lit "attributes", a);
            (lit "events", JArr ev); (lit "links", JArr lk); (lit "resource", res)]
  /\ context_says (sp_ctx s) c /\ In (sp_kind s, k) kinds
  /\ or_null (fun c => id_says 16 (sc_span_id c)) (sp_parent s) p
  /\ or_null time_says (sp_start s) st /\ or_null time_says (sp_end s) en
  /\ status_says (sp_status s) status /\ attrs_say (ba_dict (sp_attrs s)) a
  /\ Forall2 event_says (bl_items (sp_events s)) ev /\ Forall2 link_says (bl_items (sp_links s)) lk
  /\ resource_says r res.

(** A log record; without a trace or span id there is an empty text. *)
Definition log_says (r : log_record) (j : jv) : Prop :=
  exists body a t o ti si res,
  j = JObj [(lit "body", body); (lit "severity_number", opt_json JInt (lr_severity r)); (lit "severity_text", opt_json JStr (lr_severity_text r));
            (lit "attributes", a); (lit "dropped_attributes", JInt (match lr_attrs r with [] => 0 | _ => lr_dropped r end));
            (lit "timestamp", t); (lit "observed_timestamp", o); (lit "trace_id", ti); (lit "span_id", si);
            (lit "trace_flags", opt_json JInt (lr_flags r)); (lit "resource", res)]
  /\ body_says (lr_body r) body
  /\ (lr_attrs r = [] -> a = JNull) /\ (lr_attrs r <> [] -> attrs_say (lr_attrs r) a)
  /\ (exists ns, lr_time r = Some ns /\ time_says ns t) /\ (exists ns, lr_observed r = Some ns /\ time_says ns o)
  /\ match lr_trace_id r with Some z => id_says 32 z ti | None => ti = JStr [] end
  /\ match lr_span_id r with Some z => id_says 16 z si | None => si = JStr [] end
  /\ resource_says (lr_resource r) res.
End Says.

(** ** Metrics: the members of a point are those of the data, in JSON *)
Definition number_says (n : number) (j : jv) : Prop := match n with NInt z => j = JInt z | NFloat f => j = JFloat f end.
Definition ints_say (l : list Z) (j : jv) : Prop := exists js, j = JArr js /\ Forall2 int_says l js.
Definition numbers_say (l : list number) (j : jv) : Prop := exists js, j = JArr js /\ Forall2 number_says l js.
Definition exemplar_says (e : sdk_exemplar) (j : jv) : Prop :=
  exists a v s t, j = JObj [(lit "filtered_attributes", a); (lit "value", v); (lit "time_unix_nano", JInt (ex_time e)); (lit "span_id", s); (lit "trace_id", t)]
  /\ attrs_say (ex_attrs e) a /\ number_says (ex_value e) v /\ or_null int_says (ex_span e) s /\ or_null int_says (ex_trace e) t.
Definition num_point_says (p : num_point) (j : jv) : Prop :=
  exists a st v ex, j = JObj [(lit "attributes", a); (lit "start_time_unix_nano", st); (lit "time_unix_nano", JInt (n_time p)); (lit "value", v); (lit "exemplars", JArr ex)]
  /\ attrs_say (n_attrs p) a /\ or_null int_says (n_start p) st /\ number_says (n_value p) v /\ Forall2 exemplar_says (n_exemplars p) ex.
Definition hist_point_says (p : hist_point) (j : jv) : Prop :=
  exists a st sum bs es mn mx ex,
  j = JObj [(lit "attributes", a); (lit "start_time_unix_nano", st); (lit "time_unix_nano", JInt (h_time p)); (lit "count", JInt (h_count p)); (lit "sum", sum);
            (lit "bucket_counts", bs); (lit "explicit_bounds", es); (lit "min", mn); (lit "max", mx); (lit "exemplars", JArr ex)]
  /\ attrs_say (h_attrs p) a /\ or_null int_says (h_start p) st /\ number_says (h_sum p) sum /\ ints_say (h_buckets p) bs /\ numbers_say (h_bounds p) es
  /\ or_null number_says (h_min p) mn /\ or_null number_says (h_max p) mx /\ Forall2 exemplar_says (h_exemplars p) ex.
Definition ebuckets_say (b : ebuckets) (j : jv) : Prop :=
  exists cs, j = JObj [(lit "offset", JInt (eb_offset b)); (lit "bucket_counts", cs)] /\ ints_say (eb_counts b) cs.
Definition exp_point_says (p : exp_point) (j : jv) : Prop :=
  exists a st sum pos neg mn mx ex,
  j = JObj [(lit "attributes", a); (lit "start_time_unix_nano", st); (lit "time_unix_nano", JInt (e_time p)); (lit "count", JInt (e_count p)); (lit "sum", sum);
            (lit "scale", JInt (e_scale p)); (lit "zero_count", JInt (e_zero p)); (lit "positive", pos); (lit "negative", neg); (lit "flags", JInt (e_flags p));
            (lit "min", mn); (lit "max", mx); (lit "exemplars", JArr ex)]
  /\ attrs_say (e_attrs p) a /\ or_null int_says (e_start p) st /\ number_says (e_sum p) sum /\ ebuckets_say (e_pos p) pos /\ ebuckets_say (e_neg p) neg
  /\ or_null number_says (e_min p) mn /\ or_null number_says (e_max p) mx /\ Forall2 exemplar_says (e_exemplars p) ex.
Definition data_says (d : mdata) (j : jv) : Prop :=
  exists ps rest, j = JObj ((lit "data_points", JArr ps) :: rest) /\
  match d with
  | MGauge l => Forall2 num_point_says l ps /\ rest = []
  | MSum l t m => Forall2 num_point_says l ps /\ rest = [(lit "aggregation_temporality", JInt t); (lit "is_monotonic", JBool m)]
  | MHistogram l t => Forall2 hist_point_says l ps /\ rest = [(lit "aggregation_temporality", JInt t)]
  | MExponential l t => Forall2 exp_point_says l ps /\ rest = [(lit "aggregation_temporality", JInt t)]
  | MUnknown => False
  end.
Definition text_or_empty (o : option str) (j : jv) : Prop := match o with Some s => j = JStr s | None => j = JStr [] end.
Definition metric_says (m : sdk_metric) (j : jv) : Prop :=
  exists de un d, j = JObj [(lit "name", JStr (sm_name m)); (lit "description", de); (lit "unit", un); (lit "data", d)]
  /\ text_or_empty (sm_descr m) de /\ text_or_empty (sm_unit m) un /\ data_says (sm_data m) d.
(** A scope without attributes has null. *)
Definition scope_says (s : scope) (j : jv) : Prop :=
  exists v a, j = JObj [(lit "name", JStr (sco_name s)); (lit "version", v); (lit "schema_url", JStr (sco_schema s)); (lit "attributes", a)]
  /\ or_null str_says (sco_version s) v /\ (sco_attrs s = [] -> a = JNull) /\ (sco_attrs s <> [] -> attrs_say (sco_attrs s) a).
Definition scope_metrics_say (s : scope_metrics) (j : jv) : Prop :=
  exists sc ms, j = JObj [(lit "scope", sc); (lit "metrics", JArr ms); (lit "schema_url", JStr (sms_schema s))]
  /\ scope_says (sms_scope s) sc /\ Forall2 metric_says (sms_metrics s) ms.
Definition resource_metrics_say (r : resource_metrics) (j : jv) : Prop :=
  exists rs ss, j = JObj [(lit "resource", rs); (lit "scope_metrics", JArr ss); (lit "schema_url", JStr (rms_schema r))]
  /\ resource_says (rms_resource r) rs /\ Forall2 scope_metrics_say (rms_scopes r) ss.
Definition metrics_say (l : list resource_metrics) (j : jv) : Prop :=
  exists rs, j = JObj [(lit "resource_metrics", JArr rs)] /\ Forall2 resource_metrics_say l rs.

(** ** What can be said: texts in Unicode, floats that are allowed, no bytes and no other objects, times from 1970 to 2106, identifiers
    of 128 and 64 bits *)
Definition a_number (kind : Z -> float_kind) (f : Z) : Prop := exists r, kind f = Finite r.
Definition any_float (f : Z) : Prop := True.
Section Sayable.
(** Which floats may be said: [a_number kind], or [any_float] *)
Variable allowed : Z -> Prop.
Inductive sayable : pyval -> Prop :=
| sy_none : sayable PNone
| sy_bool b : sayable (PBool b)
| sy_int sub z : sayable (PInt sub z)
| sy_float sub f : allowed f -> sayable (PFloat sub f)
| sy_str sub s : unicode s -> sayable (PStr sub s)
| sy_seq tuple l : Forall sayable l -> sayable (PSeq tuple l).
Inductive sayable_body : anyv -> Prop :=
| sb_none : sayable_body ANone
| sb_bool b : sayable_body (ABool b)
| sb_int z : sayable_body (AInt z)
| sb_float f : allowed f -> sayable_body (AFloat f)
| sb_str s : unicode s -> sayable_body (AStr s)
| sb_seq l : Forall sayable_body l -> sayable_body (ASeq l)
| sb_map l : NoDup (map fst l) -> Forall (fun kv => unicode (fst kv) /\ sayable_body (snd kv)) l -> sayable_body (AMap l).
Definition sayable_attrs (d : list (str * pyval)) : Prop := NoDup (map fst d) /\ Forall (fun kv => unicode (fst kv) /\ sayable (snd kv)) d.
Definition printable_time (t : Z) : Prop := (0 <= t < until_2106)%Z.
Definition later_than_1970 (o : option Z) : Prop := forall t, o = Some t -> (0 < t < until_2106)%Z.
Definition sayable_ids (trace span : Z) : Prop := (0 <= trace < 2 ^ 128 /\ 0 <= span < 2 ^ 64)%Z.
Definition sayable_context (c : span_context) : Prop :=
  sayable_ids (sc_trace_id c) (sc_span_id c) /\ Forall (fun kv => unicode (fst kv) /\ unicode (snd kv)) (sc_state c).
Definition sayable_resource (r : resource) : Prop := sayable_attrs (r_attrs r) /\ unicode (r_schema r).
Definition sayable_span (s : sdk_span) (r : resource) : Prop :=
  unicode (sp_name s) /\ sayable_context (sp_ctx s) /\ (0 <= sp_kind s <= 4)%Z /\ (forall p, sp_parent s = Some p -> sayable_context p)
  /\ later_than_1970 (sp_start s) /\ later_than_1970 (sp_end s)
  /\ (st_desc (sp_status s) = PNone \/ exists sub d, st_desc (sp_status s) = PStr sub d /\ unicode d)
  /\ sayable_attrs (ba_dict (sp_attrs s))
  /\ Forall (fun e => unicode (ev_name e) /\ printable_time (ev_ts e) /\ sayable_attrs (ba_dict (ev_attrs e))) (bl_items (sp_events s))
  /\ Forall (fun l => sayable_context (lk_ctx l) /\ sayable_attrs (ba_dict (lk_attrs l))) (bl_items (sp_links s))
  /\ sayable_resource r.
Definition sayable_log (r : log_record) : Prop :=
  sayable_body (lr_body r) /\ (forall s, lr_severity_text r = Some s -> unicode s) /\ sayable_attrs (lr_attrs r)
  /\ (exists t, lr_time r = Some t /\ printable_time t) /\ (exists t, lr_observed r = Some t /\ printable_time t)
  /\ (forall t, lr_trace_id r = Some t -> 0 <= t < 2 ^ 128)%Z /\ (forall t, lr_span_id r = Some t -> 0 <= t < 2 ^ 64)%Z
  /\ sayable_resource (lr_resource r).
Definition sayable_number (n : number) : Prop := forall f, n = NFloat f -> allowed f.
Definition sayable_opt (o : option number) : Prop := forall n, o = Some n -> sayable_number n.
Definition sayable_exemplar (e : sdk_exemplar) : Prop := sayable_attrs (ex_attrs e) /\ sayable_number (ex_value e).
Definition sayable_num (p : num_point) : Prop := sayable_attrs (n_attrs p) /\ sayable_number (n_value p) /\ Forall sayable_exemplar (n_exemplars p).
Definition sayable_hist (p : hist_point) : Prop :=
  sayable_attrs (h_attrs p) /\ sayable_number (h_sum p) /\ Forall sayable_number (h_bounds p) /\ sayable_opt (h_min p) /\ sayable_opt (h_max p)
  /\ Forall sayable_exemplar (h_exemplars p).
Definition sayable_exp (p : exp_point) : Prop :=
  sayable_attrs (e_attrs p) /\ sayable_number (e_sum p) /\ sayable_opt (e_min p) /\ sayable_opt (e_max p) /\ Forall sayable_exemplar (e_exemplars p).
Definition sayable_data (d : mdata) : Prop :=
  match d with
  | MGauge l | MSum l _ _ => Forall sayable_num l
  | MHistogram l _ => Forall sayable_hist l
  | MExponential l _ => Forall sayable_exp l
  | MUnknown => False
  end.
Definition unicode_opt (o : option str) : Prop := forall s, o = Some s -> unicode s.
Definition sayable_metric (m : sdk_metric) : Prop :=
  unicode (sm_name m) /\ unicode_opt (sm_descr m) /\ unicode_opt (sm_unit m) /\ sayable_data (sm_data m).
Definition sayable_scope (s : scope) : Prop :=
  unicode (sco_name s) /\ unicode_opt (sco_version s) /\ unicode (sco_schema s) /\ sayable_attrs (sco_attrs s).
Definition sayable_metrics (l : list resource_metrics) : Prop :=
  Forall (fun r => sayable_resource (rms_resource r) /\ unicode (rms_schema r)
    /\ Forall (fun s => sayable_scope (sms_scope s) /\ unicode (sms_schema s) /\ Forall sayable_metric (sms_metrics s)) (rms_scopes r)) l.
End Sayable.

(** A printed stream: documents, each followed by a line feed *)
Inductive stream (doc_of : str -> jv -> Prop) : str -> list jv -> Prop :=
| st_end : stream doc_of [] []
| st_next t j s l : doc_of t j -> stream doc_of s l -> stream doc_of (t ++ [10%N] ++ s) (j :: l).
