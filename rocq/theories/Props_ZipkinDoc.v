(** C132: the body of each post to Zipkin is a JSON text that says each of its spans.

    [kind], [read_float], [nan], [inf], [neg_inf]: Python's floats, see Props_Json.  [int_text], [float_text]: Python's [str] of an int
    and of a float.  [json_text python]: JSON's grammar, with NaN and infinities iff [python].  [loads]: Python's json.loads. *)
From Verif Require Import Spec_Json Props_Json.
From Verif Require Import Proof_Document Spec_ZipkinTracing Props_Zipkin Spec_ZipkinDoc Proof_ZipkinDoc.
From Coq Require Import Lia.

Section C132.
Variable kind : Z -> float_kind.
Variable read_float : str -> Z.
Variable nan inf neg_inf : Z.
Hypothesis floats : python_floats kind read_float nan inf neg_inf.
Variable int_text float_text : Z -> str.
Hypothesis int_unicode : forall z, unicode (int_text z).
Hypothesis float_unicode : forall f, unicode (float_text f).
Notation means := (float_of read_float nan inf neg_inf).

(** Version 2: the body is an array with one object per span, in their order; each has exactly the members it should have, for Zipkin
    spans that say what the spans are (C79, C80).  The values of the annotations are JSON texts of the events' attributes; JSON with
    Python's NaN and infinities, if the events have such floats. *)
Theorem C132_v2 (python : bool) (maxlen : option Z) (n : node) (l : list rspan) :
  writable_node n -> Forall (writable_span (if python then any_float else a_number kind)) l ->
  exists text ep zs objs,
    serialize kind (encode_v2 int_text float_text maxlen) (v2_json kind) n l = Ok text
    /\ json_text false means text (JArr objs) /\ loads read_float nan inf neg_inf text = Some (JArr objs)
    /\ object_of (endpoint_member n) ep
    /\ Forall2 (shows int_text float_text maxlen) l zs
    /\ Forall2 (fun z => object_of (v2_member (json_text python means) ep z)) zs objs.
Proof.
  intros W F. apply (serialize_made kind read_float nan inf neg_inf floats _ _ n l _ (v2_member (json_text python means)) W).
  eapply Forall_impl; [|exact F]. intros x Wx. now apply (v2_span kind read_float nan inf neg_inf floats int_text float_text int_unicode float_unicode).
Qed.
(** Version 1, with a maximal length of tags: the tags are shortened to it, and have the endpoint, as the annotations have.
    Missing: the case without a maximal length, where the encoder raises (C80_v1_default_refuted). *)
Theorem C132_v1_partial (python : bool) (maxlen : Z) (n : node) (l : list rspan) :
  writable_node n -> Forall (writable_span (if python then any_float else a_number kind)) l ->
  exists text ep zs objs,
    serialize kind (encode_v1 int_text float_text (Some maxlen)) (v1_json kind) n l = Ok text
    /\ json_text false means text (JArr objs) /\ loads read_float nan inf neg_inf text = Some (JArr objs)
    /\ object_of (endpoint_member n) ep
    /\ Forall2 (fun x z => zipkin_read (Some maxlen) (rs_span x) z
         /\ exists z2, shows int_text float_text (Some maxlen) x z2
            /\ Forall2 (fun t u => fst u = fst t /\ snd u = option_map (shortened (Some maxlen)) (snd t)) (z_tags z2) (z_tags z)) l zs
    /\ Forall2 (fun z => object_of (v1_member (json_text python means) ep z)) zs objs.
Proof.
  intros W F. apply (serialize_made kind read_float nan inf neg_inf floats _ _ n l _ (v1_member (json_text python means)) W).
  eapply Forall_impl; [|exact F]. intros x Wx. now apply (v1_span kind read_float nan inf neg_inf floats int_text float_text int_unicode float_unicode).
Qed.
(** Refuted: that the annotations' values are JSON.  With a NaN or an infinity as an attribute of an event, the annotation that is sent
    for it has a value that is not JSON. *)
Definition measured (f : Z) : rspan :=
  RSpan (Span (lit "op") (SC 5 6 false 1 []) None 1 (SLimits None None None None None None None None) (BA None None false [] 0)
           (BL None [Ev (lit "e") 1499 (BA None None true [(lit "load", PFloat false f)] 0)] 0) (BL None [] 0) (St UNSET PNone) (Some 1500%Z) (Some 4499%Z))
    (Res [] []) None.
Theorem C132_not_a_number_refuted (f : Z) (n : node) : (forall r, kind f <> Finite r) -> writable_node n ->
  exists text o an a t,
    serialize kind (encode_v2 int_text float_text None) (v2_json kind) n [measured f] = Ok text
    /\ loads read_float nan inf neg_inf text = Some (JArr [JObj o]) /\ In (lit "annotations", JArr [an]) o
    /\ an = JObj a /\ In (lit "value", JStr t) a
    /\ forall (stands_for : str -> Z -> Prop) j, ~ json_text false stands_for t j.
Proof.
  intros N W. destruct (endpoint_made n W) as (ep & Eep & _ & Fep).
  assert (WS : writable_span (if true then any_float else a_number kind) (measured f)).
  { split; [|split; [cbn; lia|]].
    { split; [cbn; lia|]. split; [cbn; lia|]. discriminate. }
    split; [discriminate|]. split; [discriminate|]. split; [apply unicodeb_ok; reflexivity|].
    split; [split; constructor|]. split; [split; constructor|]. split; [discriminate|]. split; [discriminate|].
    constructor; [|constructor]. split; [apply unicodeb_ok; reflexivity|]. split; [constructor; [intros []|constructor]|].
    constructor; [|constructor]. split; [apply unicodeb_ok; reflexivity|]. apply sy_float. exact I. }
  destruct (v2_span kind read_float nan inf neg_inf floats int_text float_text int_unicode float_unicode true None (measured f) WS) as (z & Ez & _ & Hz).
  destruct (Hz ep Fep) as (j & Ej & _ & Fj).
  assert (E : serialize kind (encode_v2 int_text float_text None) (v2_json kind) n [measured f] = Ok (dumps kind None (JArr [j]))).
  { unfold serialize. rewrite Eep, bind_ok. cbn [map_out]. rewrite Ez, bind_ok, Ej. reflexivity. }
  injection Ez as <-. injection Ej as <-.
  eexists _, _, _, _, (dumps kind None (JObj [(lit "e", JObj [(lit "load", JFloat f)])])). split; [exact E|]. split.
  { apply (fine_loads kind read_float nan inf neg_inf floats (fun _ => False)). apply fine_arr. constructor; [exact Fj|constructor]. }
  split; [cbn; auto 20|]. split; [reflexivity|]. split; [right; left; reflexivity|]. intros sf j.
  apply (C116_not_a_number_refuted kind read_float nan inf neg_inf floats sf None (JObj [(lit "e", JObj [(lit "load", JFloat f)])]) f); [|exact N].
  eapply part_obj; [left; reflexivity|]. eapply part_obj; [left; reflexivity|]. constructor.
Qed.
End C132.
Print Assumptions C132_v2.
Print Assumptions C132_v1_partial.
Print Assumptions C132_not_a_number_refuted.

(** The span of C80, with a service and an address. *)
Definition ex_node : node := Node (PStr false (lit "shop")) (Some (lit "10.0.0.1")) None (Some 9411%Z).
Example C132_example :
  writable_node ex_node /\ writable_span (a_number ex_kind) (zipkin_span (PStr false (lit "failed")) (Some (lit "1")))
  /\ serialize ex_kind (encode_v2 (fun _ => lit "2") (fun _ => []) (Some 4%Z)) (v2_json ex_kind) ex_node [zipkin_span (PStr false (lit "failed")) None]
     = Ok (lit "[{""traceId"": ""00000000000000000000000000000005"", ""id"": ""0000000000000006"", ""name"": ""op"", ""timestamp"": 2, " ++
        lit """duration"": 3, ""localEndpoint"": {""serviceName"": ""shop"", ""ipv4"": ""10.0.0.1"", ""port"": 9411}, ""kind"": " ++
        lit """SERVER"", ""tags"": {""a"": ""2"", ""b"": ""[]"", ""service.name"": ""svc"", ""otel.library.name"": ""lib"", " ++
        lit """otel.library.version"": null, ""otel.scope.name"": ""lib"", ""otel.scope.version"": null, ""otel.status_code"": " ++
        lit """ERROR"", ""error"": ""failed"", ""otel.dropped_attributes_count"": ""2""}, ""annotations"": [{""timestamp"": 1, " ++
        lit """value"": ""{\""e\"": {\""k\"": \""valu\""}}""}]" ++
        lit ", ""debug"": true, ""parentId"": ""0000000000000009""}]").
Proof.
  split.
  { split; [apply sy_str, unicodeb_ok; reflexivity|]. split; [|discriminate]. intros s [= <-]. apply unicodeb_ok; reflexivity. }
  split; [|vm_compute; reflexivity].
  split; [|split; [cbn; lia|]].
  { split; [cbn; lia|]. split; [cbn; lia|]. intros p [= <-]. cbn. lia. }
  assert (U : forall s, unicodeb s = true -> unicode s) by exact unicodeb_ok.
  split; [discriminate|]. split; [discriminate|]. split; [now apply U|].
  split. { split; [apply nodupb_ok; reflexivity|]. constructor; [split; [now apply U|apply sy_str; now apply U]|]. constructor; [|constructor]. split; [now apply U|].
    apply sy_seq. constructor; [apply sy_str; now apply U|]. constructor; [apply sy_none|constructor]. }
  split. { split; [apply nodupb_ok; reflexivity|]. constructor; [split; [now apply U|apply sy_str; now apply U]|]. constructor; [|constructor]. split; [now apply U|apply sy_int]. }
  split. { intros sc [= <-]. split; [now apply U|]. intros s [= <-]. now apply U. }
  split. { intros sub d [= <- <-]. now apply U. }
  constructor; [|constructor]. split; [now apply U|]. split; [apply nodupb_ok; reflexivity|]. constructor; [|constructor]. split; [now apply U|apply sy_str; now apply U].
Qed.
