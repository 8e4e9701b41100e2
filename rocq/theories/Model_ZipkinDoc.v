(** The documents that the Zipkin JSON exporters post.

    Sources, in opentelemetry-exporter-zipkin-json/src/opentelemetry/exporter/zipkin/: node_endpoint.py ("node"),
    encoder/__init__.py ("encoder"), json/v1/__init__.py ("v1"), json/v2/__init__.py ("v2"). *)
From Verif Require Model_Prometheus.
From Verif Require Export Model_Document Model_Zipkin.

(** node 26-50 [NodeEndpoint]: the service's name, and the addresses as [str] gives them *)
Record node := Node { nd_service : pyval; nd_ipv4 : option str; nd_ipv6 : option str; nd_port : option Z }.
Definition opt_member {A} (k : str) (f : A -> jv) (o : option A) : list (str * jv) := match o with Some a => [(k, f a)] | None => [] end.
Definition list_member (k : str) (l : list jv) (j : jv) : list (str * jv) := match l with [] => [] | _ => [(k, j)] end.
(** encoder 283-292 [_encode_local_endpoint]; a service name that json.dumps cannot write makes the dumps of [serialize] raise. *)
Definition endpoint_json (n : node) : outcome_of jv :=
  bind_out (pv_json (nd_service n)) (fun s =>
  Ok (JObj ([(lit "serviceName", s)] ++ opt_member (lit "ipv4") JStr (nd_ipv4 n) ++ opt_member (lit "ipv6") JStr (nd_ipv6 n)
            ++ opt_member (lit "port") JInt (nd_port n)))).

Section Body.
Variable kind : Z -> float_kind.

(** encoder 254-259: the value is [json.dumps({event.name: attrs}, sort_keys=True)] *)
Definition annotation_json (extra : list (str * jv)) (a : annotation) : outcome_of jv :=
  bind_out (attrs_json (Model_Prometheus.sort_items (an_attrs a))) (fun attrs =>
  Ok (JObj ([(lit "timestamp", JInt (an_time a)); (lit "value", JStr (dumps kind None (JObj [(an_name a, attrs)])))] ++ extra))).
Definition tag_json (v : option str) : jv := opt_json JStr v.

(** v2 33-67 *)
Definition v2_json (ep : jv) (z : zspan) : outcome_of jv :=
  bind_out (map_out (annotation_json []) (z_annotations z)) (fun an =>
  Ok (JObj ([(lit "traceId", JStr (z_trace z)); (lit "id", JStr (z_id z)); (lit "name", JStr (z_name z));
             (lit "timestamp", JInt (z_time z)); (lit "duration", JInt (z_duration z)); (lit "localEndpoint", ep);
             (lit "kind", opt_json JStr (z_kind z))]
            ++ match z_tags z with [] => [] | t => [(lit "tags", JObj (map (fun kv => (fst kv, tag_json (snd kv))) t))] end
            ++ list_member (lit "annotations") an (JArr an)
            ++ (if z_debug z then [(lit "debug", JBool true)] else [])
            ++ opt_member (lit "parentId") JStr (z_parent z)))).
(** v1 24-41 [_extract_binary_annotations], 50-83 *)
Definition v1_json (ep : jv) (z : zspan) : outcome_of jv :=
  let tags := map (fun kv => JObj [(lit "key", JStr (fst kv)); (lit "value", tag_json (snd kv)); (lit "endpoint", ep)]) (z_tags z) in
  bind_out (map_out (annotation_json [(lit "endpoint", ep)]) (z_annotations z)) (fun an =>
  Ok (JObj ([(lit "traceId", JStr (z_trace z)); (lit "id", JStr (z_id z)); (lit "name", JStr (z_name z));
             (lit "timestamp", JInt (z_time z)); (lit "duration", JInt (z_duration z))]
            ++ list_member (lit "annotations") an (JArr an)
            ++ list_member (lit "binaryAnnotations") tags (JArr tags)
            ++ (if z_debug z then [(lit "debug", JBool true)] else [])
            ++ opt_member (lit "parentId") JStr (z_parent z)))).
(** encoder 271-280 [serialize]: [enc] is the encoder's part that Model_Zipkin has, [of_span] the object of a span. *)
Definition serialize (enc : rspan -> outcome_of zspan) (of_span : jv -> zspan -> outcome_of jv) (n : node) (l : list rspan) : outcome_of str :=
  bind_out (endpoint_json n) (fun ep =>
  bind_out (map_out (fun s => bind_out (enc s) (of_span ep)) l) (fun js =>
  Ok (dumps kind None (JArr js)))).
End Body.
