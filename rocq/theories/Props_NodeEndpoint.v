(** C133: the endpoint in the documents for Zipkin: the service's name, and the addresses given to the exporter.

    The arguments: [ipv4], [ipv6], [port] are local_node_ipv4, local_node_ipv6 and local_node_port of the exporter; [attrs] are the
    attributes of the resource that the global tracer provider has when the exporter is made, or else of [Resource.create()].
    [endpoint_says]: the endpoint's members; [is_ipv4], [is_ipv6]: the address that a text or an int stands for. *)
From Verif Require Import Proof_Otlp.
From Verif Require Import Spec_Json Props_Json.
From Verif Require Import Proof_Document Spec_ZipkinTracing Props_Zipkin Spec_ZipkinDoc Proof_ZipkinDoc Props_ZipkinDoc Spec_NodeEndpoint Proof_NodeEndpoint.
From Coq Require Import Lia.

(** The exporter is made iff the addresses are of their kinds; otherwise ValueError is raised. *)
Theorem C133_accepts (ipv4 ipv6 : option ip_input) (port : option Z) (attrs : dict str pyval) : dget (lit "service.name") attrs <> None ->
  (accepted ipv4 ipv6 -> exists e, new_endpoint ipv4 ipv6 port attrs = Ok e)
  /\ (~ accepted ipv4 ipv6 -> new_endpoint ipv4 ipv6 port attrs = Raises "ValueError").
Proof.
  intros S. destruct (dget (lit "service.name") attrs) as [service|] eqn:D; [|congruence].
  pose proof (new_endpoint_ok ipv4 ipv6 port attrs service D) as H. destruct (new_endpoint ipv4 ipv6 port attrs) as [e|err].
  - split; [eauto|]. intros N. destruct H as [A _]. destruct (N A).
  - destruct H as [-> N]. split; [intros A; destruct (N A)|reflexivity].
Qed.
Print Assumptions C133_accepts.
(** A text stands for one address at most, so that the one in the document is the one that was given. *)
Theorem C133_one_address : (forall a n m, is_ipv4 a n -> is_ipv4 a m -> n = m) /\ (forall s n m z w, ipv6_zoned s n z -> ipv6_zoned s m w -> n = m /\ z = w).
Proof. split; [exact is_ipv4_fun|exact zoned_fun]. Qed.
Print Assumptions C133_one_address.

Section C133.
Variable kind : Z -> float_kind.
Variable read_float : str -> Z.
Variable nan inf neg_inf : Z.
Hypothesis floats : python_floats kind read_float nan inf neg_inf.
Variable int_text float_text : Z -> str.
Hypothesis int_unicode : forall z, unicode (int_text z).
Hypothesis float_unicode : forall f, unicode (float_text f).
Notation means := (float_of read_float nan inf neg_inf).

(** The body of a post (as in C132), after those for the batches [bs], has in each of its objects this endpoint: the service's name, and
    the addresses and the port that were given, each written as one of the address's texts. *)
Theorem C133_document (python : bool) (maxlen : option Z) (ipv4 ipv6 : option ip_input) (port : option Z) (attrs : dict str pyval) (service : pyval) (e : endpoint) (bs : list (list rspan)) (l : list rspan) :
  dget (lit "service.name") attrs = Some service -> new_endpoint ipv4 ipv6 port attrs = Ok e -> unicode_arg ipv6 -> sayable (fun _ => False) service -> Forall named_by_text (bs ++ [l]) ->
  Forall (writable_span (if python then any_float else a_number kind)) l ->
  exists text ep objs said,
    serialize kind (encode_v2 int_text float_text maxlen) (v2_json kind) (as_node (after_batches e (bs ++ [l]))) l = Ok text
    /\ json_text false means text (JArr objs) /\ length objs = length l
    /\ sent_for service (bs ++ [l]) said /\ object_of (endpoint_says ipv4 ipv6 port said) ep
    /\ Forall (fun o => exists m, o = JObj m /\ In (lit "localEndpoint", ep) m) objs.
Proof.
  intros S E U W NB F. destruct (endpoint_ok ipv4 ipv6 port attrs service e (bs ++ [l]) S E U W NB) as (SF & WN & HE).
  destruct (C132_v2 kind read_float nan inf neg_inf floats int_text float_text int_unicode float_unicode python maxlen _ l WN F) as (text & ep & zs & objs & E1 & E2 & _ & E3 & E4 & E5).
  exists text, ep, objs, (ne_service (after_batches e (bs ++ [l]))). split; [exact E1|]. split; [exact E2|]. split; [rewrite <- (Forall2_length E5); symmetry; apply (Forall2_length E4)|]. split; [exact SF|]. split; [now apply HE|].
  clear - E5. induction E5 as [|z o zs objs H E5 IH]; constructor; [|exact IH]. destruct H as (m & -> & _ & I1 & I2). exists m. split; [reflexivity|].
  destruct (I2 _ _ (v2_endpoint (json_text python means) ep z)) as (v' & I). pose proof (I1 _ _ I) as M. inversion M as [k v H E1 E2|E1 E2|j H E1 E2|l H1 H2 E1 E2]; [inversion H|exact I].
Qed.
End C133.
Print Assumptions C133_document.
(** So that it is the service of the batch's first span, if that has one. *)
Theorem C133_service (initial : pyval) (bs : list (list rspan)) (s : rspan) (l : list rspan) (sub : bool) (t : str) (said : pyval) :
  dget (lit "service.name") (r_attrs (rs_resource s)) = Some (PStr sub t) -> t <> [] -> sent_for initial (bs ++ [s :: l]) said -> said = PStr sub t.
Proof.
  intros E N. apply sent_for_last; [exact E|]. unfold unnamed, service_of. rewrite E. intros [H|[x H]]; [discriminate|]. congruence.
Qed.
Print Assumptions C133_service.

(** The protobuf encoder: the endpoint that the spans of the last batch have names the same service, and has the addresses that were given,
    in 4 and in 16 bytes, and the port. *)
Theorem C133_protobuf (ipv4 ipv6 : option ip_input) (port : option Z) (attrs : dict str pyval) (sub : bool) (service : str) (e : endpoint) (bs : list (list rspan)) :
  dget (lit "service.name") attrs = Some (PStr sub service) -> unicode service -> new_endpoint ipv4 ipv6 port attrs = Ok e -> Forall named_by_text bs ->
  (forall p, port = Some p -> - 2 ^ 31 <= p < 2 ^ 31)%Z ->
  exists m sub', endpoint_pb (after_batches e bs) = Some m /\ sent_for (PStr sub service) bs (PStr sub' (pe_service m)) /\ endpoint_sent ipv4 ipv6 port m.
Proof.
  intros S U E NB P. pose proof (new_endpoint_ok ipv4 ipv6 port attrs _ S) as H. rewrite E in H. destruct H as (_ & EP & ES & H4 & H6).
  destruct (after_service bs e NB) as [SF _]. rewrite ES in SF. destruct (after_kept bs e) as (K4 & K6 & KP).
  set (f := after_batches e bs) in *. clearbody f. rewrite <- K4 in H4. rewrite <- K6 in H6. rewrite <- KP in EP. clear E ES K4 K6 KP.
  assert (T : exists sub' t, ne_service f = PStr sub' t /\ unicode t).
  { destruct SF as [bs0 _|bs0 l v bs' SV _ _]; [eauto|]. apply Forall_app in NB as [_ NB]. inversion NB as [|? ? N _]; subst. now apply N. }
  destruct T as (sub' & t & ET & UT). unfold endpoint_pb. rewrite ET.
  assert (X : pb_str t = Some t).
  { apply pb_str_ok. split; [reflexivity|]. apply Forall_forall. intros c I. unfold unicode in UT. rewrite Forall_forall in UT. destruct (UT c I) as (A & B & C).
    unfold high, low in B, C. split; [exact A|]. lia. }
  rewrite X.
  assert (A4 : exists bs4, pb_opt packed [] (ne_ipv4 f) = Some bs4 /\ match ipv4 with None => bs4 = [] | Some a => exists n, is_ipv4 a n /\ address_bytes 4 bs4 n end).
  { destruct ipv4 as [a|]; [|rewrite H4; now exists []]. destruct H4 as (n & -> & I). destruct (to_bytes_ex 4 n) as [bs4 E4]; [now apply ip_range in I|].
    exists bs4. split; [exact E4|]. exists n. split; [exact I|]. now apply to_bytes_some in E4. }
  assert (A6 : exists bs6, pb_opt packed [] (ne_ipv6 f) = Some bs6 /\ match ipv6 with None => bs6 = [] | Some a => exists n z, is_ipv6 a n z /\ address_bytes 16 bs6 n end).
  { destruct ipv6 as [a|]; [|rewrite H6; now exists []]. destruct H6 as (n & z & -> & I). destruct (to_bytes_ex 16 n) as [bs6 E6]; [now apply ip6_range in I|].
    exists bs6. split; [exact E6|]. exists n, z. split; [exact I|]. now apply to_bytes_some in E6. }
  destruct A4 as (bs4 & -> & A4), A6 as (bs6 & -> & A6). rewrite EP.
  assert (AP : pb_opt pb_sint32 0%Z port = Some match port with None => 0%Z | Some p => p end).
  { destruct port as [p|]; [|reflexivity]. cbn [pb_opt]. unfold pb_sint32, pb_range. specialize (P p eq_refl).
    destruct (Z.leb_spec (- 2 ^ 31) p); [|lia]. destruct (Z.leb_spec p (2 ^ 31 - 1)); [reflexivity|lia]. }
  rewrite AP. exists (PbEndpoint t bs4 bs6 match port with None => 0%Z | Some p => p end), sub'. split; [reflexivity|]. cbn [pe_service]. rewrite <- ET.
  split; [exact SF|]. split; [exact A4|]. split; [exact A6|reflexivity].
Qed.
Print Assumptions C133_protobuf.
(** Refuted: that two endpoints can be told apart in protobuf.  The zone is not sent. *)
Theorem C133_zone_refuted : exists a b n za zb e f, is_ipv6 (IpText a) n (Some za) /\ is_ipv6 (IpText b) n (Some zb) /\ za <> zb
  /\ (let attrs := [(lit "service.name", PStr false (lit "shop"))] in
      new_endpoint None (Some (IpText a)) None attrs = Ok e /\ new_endpoint None (Some (IpText b)) None attrs = Ok f)
  /\ as_node e <> as_node f /\ endpoint_pb e = endpoint_pb f /\ endpoint_pb e <> None.
Proof.
  exists (lit "fe80::1%eth0"), (lit "fe80::1%eth1"), (65152 * 65536 ^ 7 + 1)%Z, (lit "eth0"), (lit "eth1"),
    (Endpoint None (Some (V6 (65152 * 65536 ^ 7 + 1) (Some (lit "eth0")))) None (PStr false (lit "shop"))),
    (Endpoint None (Some (V6 (65152 * 65536 ^ 7 + 1) (Some (lit "eth1")))) None (PStr false (lit "shop"))).
  split; [split; [apply v6_address_iff; vm_compute; reflexivity|cbn; intuition discriminate]|].
  split; [split; [apply v6_address_iff; vm_compute; reflexivity|cbn; intuition discriminate]|].
  split; [discriminate|]. split; [split; vm_compute; reflexivity|]. split; [vm_compute; discriminate|]. split; [vm_compute; reflexivity|vm_compute; discriminate].
Qed.
Print Assumptions C133_zone_refuted.

(** Refuted: that each IPv6 address is accepted.  Given as an int it is not, if it is less than 2 ** 32, like that of ::1. *)
Theorem C133_small_ipv6_refuted (port : option Z) (attrs : dict str pyval) (z : Z) : (0 <= z < 2 ^ 32)%Z ->
  is_ipv6 (IpInt z) z None /\ new_endpoint None (Some (IpInt z)) port attrs = Raises "ValueError".
Proof.
  intros R. split; [split; [reflexivity|]; split; [reflexivity|]; split; [apply R|]; apply (Z.lt_trans _ (2 ^ 32)); [apply R|reflexivity]|].
  assert (H : ip_address (IpInt z) = Some (V4 z)) by (apply ip_v4_iff; split; [reflexivity|exact R]). unfold new_endpoint, set_ipv6. rewrite H. reflexivity.
Qed.
Print Assumptions C133_small_ipv6_refuted.
(** Refuted: that the exporter can be made whatever resource the global provider has.  Without a service.name, as in
    [TracerProvider(resource=Resource({}))], it cannot. *)
Theorem C133_no_service_refuted (port : option Z) : new_endpoint None None port (r_attrs (res_new [] None)) = Raises "KeyError".
Proof. reflexivity. Qed.
Print Assumptions C133_no_service_refuted.
(** Refuted: that the endpoint names no other service than that of the spans.  A batch whose first span has none is sent for the service
    of the batch before. *)
Definition nameless : rspan := RSpan (rs_span (zipkin_span PNone None)) (Res [] []) None.
Definition made : endpoint := Endpoint None None None (PStr false (lit "unknown_service")).
Definition made_text : str := Eval vm_compute in
  match serialize ex_kind (encode_v2 (fun _ => lit "2") (fun _ => []) (Some 40%Z)) (v2_json ex_kind) (as_node (after_batches made [[zipkin_span PNone None]; [nameless]])) [nameless] with
  | Ok t => t | Raises _ => [] end.
Definition made_object : list (str * jv) := Eval vm_compute in
  match loads (fun _ => 0%Z) 0 0 0 made_text with Some (JArr [JObj o]) => o | _ => [] end.
Theorem C133_service_refuted : exists e text o ep,
  new_endpoint None None None [(lit "service.name", PStr false (lit "unknown_service"))] = Ok e
  /\ serialize ex_kind (encode_v2 (fun _ => lit "2") (fun _ => []) (Some 40%Z)) (v2_json ex_kind) (as_node (after_batches e [[zipkin_span PNone None]; [nameless]])) [nameless] = Ok text
  /\ loads (fun _ => 0%Z) 0 0 0 text = Some (JArr [JObj o]) /\ In (lit "localEndpoint", JObj ep) o
  /\ In (lit "serviceName", JStr (lit "svc")) ep.
Proof.
  exists made, made_text, made_object, [(lit "serviceName", JStr (lit "svc"))]. split; [reflexivity|].
  split; [vm_compute; reflexivity|]. split; [vm_compute; reflexivity|]. split; [|left; reflexivity]. do 5 right. left. reflexivity.
Qed.
Print Assumptions C133_service_refuted.

(** Texts and what they stand for; an exporter for the addresses 10.0.0.1 and fe80::1%eth0; and what is not accepted. *)
Example C133_example :
  let attrs := [(lit "service.name", PStr false (lit "shop"))] in
  (exists e, new_endpoint (Some (IpText (lit "10.0.0.1"))) (Some (IpText (lit "FE80:0:0:0::0.0.0.1%eth0"))) (Some 9411%Z) attrs = Ok e
     /\ as_node e = Node (PStr false (lit "shop")) (Some (lit "10.0.0.1")) (Some (lit "fe80::1%eth0")) (Some 9411%Z))
  /\ ipv6_zoned (lit "fe80::1%eth0") (65152 * 65536 ^ 7 + 1) (Some (lit "eth0"))
  /\ ipv4_text (lit "10.0.0.1") 167772161
  /\ accepted (Some (IpInt 5)) (Some (IpText (lit "::"))) /\ ~ accepted (Some (IpText (lit "10.0.0.01"))) None /\ ~ accepted None (Some (IpText (lit "1::2::3"))).
Proof.
  cbv zeta. split.
  { exists (Endpoint (Some (V4 167772161)) (Some (V6 (65152 * 65536 ^ 7 + 1) (Some (lit "eth0")))) (Some 9411%Z) (PStr false (lit "shop"))). split; vm_compute; reflexivity. }
   split; [apply v6_address_iff; vm_compute; reflexivity|]. split; [apply v4_of_text_iff; vm_compute; reflexivity|].
  split; [|split].
  - split; [intros a [= <-]; exists 5%Z; cbn; lia|]. intros a [= <-]. split; [|discriminate]. exists 0%Z, None. split; [apply v6_address_iff; vm_compute; reflexivity|]. cbn. intuition discriminate.
  - intros [H _]. destruct (H _ eq_refl) as [n I]. apply v4_of_text_iff in I. vm_compute in I. discriminate.
  - intros [_ H]. destruct (H _ eq_refl) as [(n & z & I & _) _]. apply v6_address_iff in I. vm_compute in I. discriminate.
Qed.
Example C133_protobuf_example : exists e,
  new_endpoint (Some (IpText (lit "10.0.0.1"))) (Some (IpText (lit "::1"))) (Some 9411%Z) [(lit "service.name", PStr false (lit "shop"))] = Ok e
  /\ endpoint_pb (after_batches e [[zipkin_span PNone None]; [nameless]])
     = Some (PbEndpoint (lit "svc") [10; 0; 0; 1]%N [0; 0; 0; 0; 0; 0; 0; 0; 0; 0; 0; 0; 0; 0; 0; 1]%N 9411%Z)
  /\ Forall named_by_text [[zipkin_span PNone None]; [nameless]].
Proof.
  exists (Endpoint (Some (V4 167772161)) (Some (V6 1 None)) (Some 9411%Z) (PStr false (lit "shop"))). split; [vm_compute; reflexivity|].
  split; [vm_compute; reflexivity|]. repeat (apply Forall_cons || apply Forall_nil); intros v E; vm_compute in E; [|discriminate].
  injection E as <-. exists false, (lit "svc"). split; [reflexivity|]. apply ascii_unicode. repeat constructor.
Qed.
