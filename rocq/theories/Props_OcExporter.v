(** C115: the OpenCensus exporter. *)
From Verif Require Import Proof_Dict Proof_Otlp Proof_OcExporter Spec_OcExporter.
Local Open Scope Z_scope.

(** If every span of a batch can be sent, there is one message for each, in order, that says what the span says. *)
Theorem C115_spans : forall py_str spans, Forall span_dicts spans -> Forall (sendable py_str) spans ->
  exists ms, translate_to_collector py_str spans = Some ms /\ Forall2 (ocx_read py_str) spans ms.
Proof. intros ps spans D S. destruct (translate_all ps spans D) as [[_ H]|[N _]]; [exact H|contradiction]. Qed.
Print Assumptions C115_spans.

(** export() says SUCCESS if and only if the collector answered to messages that say what all the spans say.  They are sent under the service name
    of the first span's resource, or under the last one that was used if that is absent or empty. *)
Theorem C115_export : forall py_str node spans reply r sent node', Forall (fun i => span_dicts (xi_span i)) spans ->
  Forall (fun i => forall v, dget (lit "service.name") (xi_resource i) = Some v -> exists sub s, v = PStr sub s /\ unicode_text s) spans ->
  ocx_export py_str node spans reply = (r, sent, node') ->
  named spans node node'
  /\ match r with
     | XSuccess => reply = XAnswers /\ exists ms, sent = Some (node', ms) /\ Forall2 (ocx_read py_str) (map xi_span spans) ms
     | XFailure => reply = XFails \/ ~ Forall (fun i => sendable py_str (xi_span i)) spans
     | XRaised _ => False
     end.
Proof.
  intros ps node spans reply r sent node' D N H. unfold ocx_export in H.
  assert (En : exists new, ocx_node node spans = Ok new /\ named spans node new).
  { unfold ocx_node, named. change service_name with (lit "service.name"). destruct spans as [|i l]; [eauto|]. inversion N as [|? ? Ni _]; subst.
    destruct (dget (lit "service.name") (xi_resource i)) as [v|] eqn:E; [|eauto]. destruct (Ni v eq_refl) as (sub & s & -> & U).
    destruct s as [|c s]; [eauto|]. rewrite (proj2 (pb_str_ok _ _) (conj eq_refl U)). eauto. }
  destruct En as (new & En & Nn). rewrite En in H. assert (D' : Forall span_dicts (map xi_span spans)) by now apply Forall_map.
  destruct (translate_all ps (map xi_span spans) D') as [[S (ms & Em & R)]|[NS Em]]; rewrite Em in H.
  - destruct reply; apply pair_equal_spec in H as [H <-]; apply pair_equal_spec in H as [<- <-]; (split; [exact Nn|]); eauto.
  - apply pair_equal_spec in H as [H <-]; apply pair_equal_spec in H as [<- <-]. split; [exact Nn|]. right. rewrite Forall_map in NS. exact NS.
Qed.
Print Assumptions C115_export.
Theorem C115_sent : forall py_str node spans, Forall (fun i => span_dicts (xi_span i)) spans -> Forall (fun i => sendable py_str (xi_span i)) spans ->
  Forall (fun i => forall v, dget (lit "service.name") (xi_resource i) = Some v -> exists sub s, v = PStr sub s /\ unicode_text s) spans ->
  exists m node', ocx_export py_str node spans XAnswers = (XSuccess, Some m, node').
Proof.
  intros ps node spans D S N. destruct (ocx_export ps node spans XAnswers) as [[r sent] node'] eqn:E.
  destruct (C115_export _ _ _ _ _ _ _ D N E) as [_ H]. destruct r.
  - destruct H as (_ & ms & -> & _). eauto.
  - destruct H as [H|H]; [discriminate|contradiction].
  - destruct H.
Qed.
Print Assumptions C115_sent.

Definition exo_limits := SLimits None None None None None None None None.
Definition exo_attrs (d : dict str pyval) : battrs := BA None None false d 0%nat.
Definition exo_span (attrs : dict str pyval) (parent : option span_context) (st : status_code) : sdk_span :=
  Span (lit "op") (SC 258 7 false 1 [(lit "k", lit "v")]) parent 1 exo_limits (exo_attrs attrs)
    (BL None [Ev (lit "e") 5000000007 (exo_attrs [(lit "n", PInt false 3)])] 0%nat)
    (BL None [Lk (SC 258 9 true 1 []) (exo_attrs [])] 0%nat) (St st PNone) (Some 1000000001) (Some 2000000002).
Definition exo_str (v : pyval) : str := lit "(1, 2)".
Definition exo_parent := SC 258 9 false 1 [].
Example C115_example :
  translate_span exo_str (exo_span [(lit "a", PBool true); (lit "b", PSeq true [PInt false 1; PInt false 2])] (Some exo_parent) ERROR)
  = Some (XSpan [0;0;0;0;0;0;0;0;0;0;0;0;0;0;1;2]%N [0;0;0;0;0;0;0;7]%N [0;0;0;0;0;0;0;9]%N [(lit "k", lit "v")] (lit "op") 1
      (PbTime 1 1) (PbTime 2 2) [(lit "a", XBool true); (lit "b", XString (lit "(1, 2)"))]
      [XAnnotation (PbTime 5 7) (lit "e") [(lit "n", XInt 3)]]
      [XLink [0;0;0;0;0;0;0;0;0;0;0;0;0;0;1;2]%N [0;0;0;0;0;0;0;9]%N 2 []] (2, [])).
Proof. vm_compute. reflexivity. Qed.
Definition exo_good := exo_span [(lit "a", PBool true); (lit "b", PSeq true [PInt false 1; PInt false 2])] (Some exo_parent) ERROR.
Example C115_hypotheses : span_dicts exo_good /\ sendable exo_str exo_good.
Proof.
  assert (D : span_dicts exo_good).
  { unfold exo_good, exo_span, span_dicts. cbn. repeat constructor; cbn; try tauto. intros [H|[]]. discriminate. }
  split; [exact D|]. destruct (translate_span exo_str exo_good) as [x|] eqn:E; [|vm_compute in E; discriminate].
  now apply (translate_some exo_str _ _ D) in E as [_ S].
Qed.

(** Findings.  The code of a status is that of OpenTelemetry, which says something else in OpenCensus: a span with status OK arrives as an error. *)
Theorem C115_status_refuted : exists py_str s x, span_dicts s /\ translate_span py_str s = Some x
  /\ st_code (sp_status s) = OK /\ ~ rpc_ok (fst (xs_status x)).
Proof.
  exists exo_str, (exo_span [] None OK). eexists. split; [|split; [vm_compute; reflexivity|split; [reflexivity|discriminate]]].
  unfold exo_span, span_dicts. cbn. repeat constructor; cbn; tauto.
Qed.
Print Assumptions C115_status_refuted.
(** A root span does not arrive without a parent but with one whose id is eight zero bytes. *)
Theorem C115_root_refuted : exists py_str s x, span_dicts s /\ translate_span py_str s = Some x /\ sp_parent s = None /\ xs_parent x <> [].
Proof.
  exists exo_str, (exo_span [] None OK). eexists. split; [|split; [vm_compute; reflexivity|split; [reflexivity|discriminate]]].
  unfold exo_span, span_dicts. cbn. repeat constructor; cbn; tauto.
Qed.
Print Assumptions C115_root_refuted.
(** One attribute that cannot be sent, such as an integer of more than 64 bits, keeps the whole batch from being sent. *)
Theorem C115_batch_refuted : forall py_str node good reply, exists bad, span_dicts (xi_span bad)
  /\ keys (ba_dict (sp_attrs (xi_span bad))) = [lit "n"]
  /\ forall r sent node', ocx_export py_str node (good ++ [bad]) reply = (r, sent, node') -> sent = None /\ r <> XSuccess.
Proof.
  intros ps node good reply. exists (XItem (exo_span [(lit "n", PInt false (2 ^ 63))] None OK) []). split; [|split; [reflexivity|]].
  - unfold exo_span, span_dicts. cbn. repeat constructor; cbn; tauto.
  - intros r sent node' H. unfold ocx_export in H. destruct (ocx_node node (good ++ _)) as [n|e].
    + destruct (translate_to_collector ps (map xi_span (good ++ _))) as [ms|] eqn:E.
      * exfalso. rewrite map_app in E. unfold translate_to_collector in E. apply map_opt_some in E.
        apply Forall2_app_inv_l in E as (m1 & m2 & _ & E & _). inversion E as [|? ? ? ? B]; subst. vm_compute in B. discriminate.
      * apply pair_equal_spec in H as [H _]; apply pair_equal_spec in H as [<- <-]. split; [reflexivity|discriminate].
    + apply pair_equal_spec in H as [H _]; apply pair_equal_spec in H as [<- <-]. split; [reflexivity|discriminate].
Qed.
Print Assumptions C115_batch_refuted.
(** A service name that is not a string makes export() raise. *)
Theorem C115_service_refuted : exists py_str node i reply, span_dicts (xi_span i) /\ sendable py_str (xi_span i)
  /\ fst (fst (ocx_export py_str node [i] reply)) = XRaised "TypeError".
Proof.
  exists exo_str, [], (XItem exo_good [(lit "service.name", PInt false 5)]), XAnswers. cbn [xi_span]. destruct C115_hypotheses as [A B].
  split; [exact A|]. split; [exact B|]. vm_compute. reflexivity.
Qed.
(** Only 0 is taken as if there were no name. *)
Example C115_service_case : forall py_str node z reply, z <> 0%Z ->
  ocx_export py_str node [XItem exo_good [(lit "service.name", PInt false z)]] reply = (XRaised "TypeError", None, node)
  /\ ocx_node node [XItem exo_good [(lit "service.name", PInt false 0)]] = Ok node.
Proof. intros ps node z reply Z. split; [|reflexivity]. destruct z; [contradiction|reflexivity|reflexivity]. Qed.
Print Assumptions C115_service_refuted.
