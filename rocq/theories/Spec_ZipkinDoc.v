(** What the documents for Zipkin should say (the OpenAPI descriptions zipkin-api.yaml and zipkin2-api.yaml), and which spans they can be
    written for. *)
From Verif Require Spec_Prometheus.
From Verif Require Export Spec_Zipkin Spec_Document Model_ZipkinDoc.
From Coq Require Import Permutation.

(** An object that has exactly these members, each once *)
Definition object_of (member : str -> jv -> Prop) (j : jv) : Prop :=
  exists l, j = JObj l /\ NoDup (map fst l) /\ (forall k v, In (k, v) l -> member k v)
  /\ forall k v, member k v -> exists v', In (k, v') l.

Inductive endpoint_member (n : node) : str -> jv -> Prop :=
| em_service j : value_says (nd_service n) j -> endpoint_member n (lit "serviceName") j
| em_ipv4 a : nd_ipv4 n = Some a -> endpoint_member n (lit "ipv4") (JStr a)
| em_ipv6 a : nd_ipv6 n = Some a -> endpoint_member n (lit "ipv6") (JStr a)
| em_port p : nd_port n = Some p -> endpoint_member n (lit "port") (JInt p).

Section Says.
(** Which texts are JSON, and for what: [json_text]. *)
Variable text_of : str -> jv -> Prop.
(** An annotation: its time, and a JSON text of the object that has the event's name as its only member, with the event's attributes
    in the order of their keys.  In version 1 it also has the endpoint. *)
Inductive annotation_member (ep : option jv) (a : annotation) : str -> jv -> Prop :=
| am_time : annotation_member ep a (lit "timestamp") (JInt (an_time a))
| am_value t attrs d : text_of t (JObj [(an_name a, attrs)]) -> attrs_say d attrs -> Permutation d (an_attrs a) -> Spec_Prometheus.in_key_order d ->
    annotation_member ep a (lit "value") (JStr t)
| am_endpoint e : ep = Some e -> annotation_member ep a (lit "endpoint") e.

(** The members that both versions have *)
Inductive span_member (ep : option jv) (z : zspan) : str -> jv -> Prop :=
| sm_trace : span_member ep z (lit "traceId") (JStr (z_trace z))
| sm_id : span_member ep z (lit "id") (JStr (z_id z))
| sm_name : span_member ep z (lit "name") (JStr (z_name z))
| sm_time : span_member ep z (lit "timestamp") (JInt (z_time z))
| sm_duration : span_member ep z (lit "duration") (JInt (z_duration z))
| sm_annotations l : z_annotations z <> [] -> Forall2 (fun a => object_of (annotation_member ep a)) (z_annotations z) l ->
    span_member ep z (lit "annotations") (JArr l)
| sm_debug : z_debug z = true -> span_member ep z (lit "debug") (JBool true)
| sm_parent p : z_parent z = Some p -> span_member ep z (lit "parentId") (JStr p).
Inductive v2_member (ep : jv) (z : zspan) : str -> jv -> Prop :=
| v2_both k v : span_member None z k v -> v2_member ep z k v
| v2_endpoint : v2_member ep z (lit "localEndpoint") ep
| v2_kind j : or_null str_says (z_kind z) j -> v2_member ep z (lit "kind") j
| v2_tags l : z_tags z <> [] -> Forall2 (fun t m => fst m = fst t /\ or_null str_says (snd t) (snd m)) (z_tags z) l ->
    v2_member ep z (lit "tags") (JObj l).
Inductive v1_member (ep : jv) (z : zspan) : str -> jv -> Prop :=
| v1_both k v : span_member (Some ep) z k v -> v1_member ep z k v
| v1_binary l : z_tags z <> [] ->
    Forall2 (fun t j => exists v, j = JObj [(lit "key", JStr (fst t)); (lit "value", v); (lit "endpoint", ep)] /\ or_null str_says (snd t) v) (z_tags z) l ->
    v1_member ep z (lit "binaryAnnotations") (JArr l).
End Says.

(** Texts in Unicode, no bytes and no other objects as attributes, identifiers of 128 and 64 bits, a kind; the span has ended. *)
Definition writable_span (allowed : Z -> Prop) (x : rspan) : Prop :=
  let s := rs_span x in
  ids_in_range s /\ (0 <= sp_kind s <= 4)%Z /\ sp_start s <> None /\ sp_end s <> None
  /\ unicode (sp_name s) /\ sayable_attrs any_float (ba_dict (sp_attrs s)) /\ sayable_attrs any_float (r_attrs (rs_resource x))
  /\ (forall sc, rs_scope x = Some sc -> unicode (sco_name sc) /\ unicode_opt (sco_version sc))
  /\ (forall sub d, st_desc (sp_status s) = PStr sub d -> unicode d)
  /\ Forall (fun e => unicode (ev_name e) /\ sayable_attrs allowed (ba_dict (ev_attrs e))) (bl_items (sp_events s)).
Definition writable_node (n : node) : Prop :=
  sayable (fun _ => False) (nd_service n) /\ unicode_opt (nd_ipv4 n) /\ unicode_opt (nd_ipv6 n).
