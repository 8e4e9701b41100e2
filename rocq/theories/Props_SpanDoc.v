(** C117: the JSON document of a span, and the exporter that prints it.

    [python_floats]: what is assumed of Python's floats; [str_repr]: Python's representation of a text, of which is assumed that it is Unicode
    if the text is. *)
From Verif Require Import Spec_Attr Proof_Attr Proof_Document Proof_Json Props_Json Spec_Times Spec_Zipkin.
From Verif Require Import Spec_Document.
From Coq Require Import Lia.

Section C117.
Variable kind : Z -> float_kind.
Variable read_float : str -> Z.
Variable nan inf neg_inf : Z.
Hypothesis floats : python_floats kind read_float nan inf neg_inf.
Variable str_repr : str -> str.
Hypothesis reprs : forall s, unicode s -> unicode (str_repr s).
Notation means := (float_of read_float nan inf neg_inf).
Notation span_to_json := (span_to_json kind read_float nan inf neg_inf str_repr).
Notation console_spans := (console_spans kind read_float nan inf neg_inf str_repr).

(** [span.to_json(indent)] is JSON that says, member by member, what the span is; Python's own parser reads the same. *)
Theorem C117_span (indent : option nat) (s : rspan) :
  sayable_span (a_number kind) (rs_span s) (rs_resource s) ->
  exists text doc, span_to_json indent s = Ok text /\ span_says str_repr (rs_span s) (rs_resource s) doc
  /\ json_text false means text doc /\ loads read_float nan inf neg_inf text = Some doc.
Proof.
  intro S. unfold Model_Document.span_to_json. apply (span_made kind read_float nan inf neg_inf floats str_repr reprs) in S.
  destruct (to_text_made kind read_float nan inf neg_inf floats _ false indent _ _ _ (fun _ f N => N) S) as (t & j & H). now exists t, j.
Qed.
(** Python's own parser also reads it if there are floats that are not numbers. *)
Theorem C117_any_float (indent : option nat) (s : rspan) :
  sayable_span any_float (rs_span s) (rs_resource s) ->
  exists text doc, span_to_json indent s = Ok text /\ span_says str_repr (rs_span s) (rs_resource s) doc
  /\ loads read_float nan inf neg_inf text = Some doc.
Proof.
  intro S. unfold Model_Document.span_to_json. apply (span_made kind read_float nan inf neg_inf floats str_repr reprs) in S.
  destruct (to_text_made kind read_float nan inf neg_inf floats _ true indent _ _ _ ltac:(discriminate) S) as (t & j & E & Sj & _ & L). now exists t, j.
Qed.
(** Refuted: that it is JSON then.  It is not, whatever numbers are taken to stand for. *)
Theorem C117_not_a_number_refuted (indent : option nat) (s : rspan) (key : str) (sub : bool) (f : Z) :
  sayable_span any_float (rs_span s) (rs_resource s) -> In (key, PFloat sub f) (ba_dict (sp_attrs (rs_span s))) -> ~ a_number kind f ->
  exists text, span_to_json indent s = Ok text /\ forall stands_for doc, ~ json_text false stands_for text doc.
Proof.
  intros S I N. apply (span_made kind read_float nan inf neg_inf floats str_repr reprs) in S. destruct S as (j & E & Sj & _).
  exists (dumps kind indent j). unfold Model_Document.span_to_json, to_text. rewrite E. split; [reflexivity|]. intros means j'.
  apply (C116_not_a_number_refuted kind read_float nan inf neg_inf floats means indent j f); [|intros r Er; apply N; now exists r].
  destruct Sj as (c & n & p & t1 & t2 & st & a & ev & lk & res & -> & Sj). assert (A : attrs_say (ba_dict (sp_attrs (rs_span s))) a) by tauto.
  eapply part_obj with (k := lit "attributes") (j := a); [cbn; auto 20|]. now apply (attr_part _ _ key sub f A).
Qed.
(** ConsoleSpanExporter prints the documents of a batch one after the other, in order, each with a line feed, and returns SUCCESS. *)
Theorem C117_console (batch : list rspan) (printed : str) :
  Forall (fun s => sayable_span (a_number kind) (rs_span s) (rs_resource s)) batch ->
  exists new docs, console_spans batch printed = (printed ++ new, Ok tt) /\ stream (doc false means) new docs
  /\ Forall2 (fun s => span_says str_repr (rs_span s) (rs_resource s)) batch docs.
Proof.
  intro F. destruct (console_made kind read_float nan inf neg_inf floats (a_number kind) false (Some 4) (fun s => span_json kind read_float nan inf neg_inf str_repr (rs_span s) (rs_resource s))
    (fun s => span_says str_repr (rs_span s) (rs_resource s)) batch (fun _ f N => N)) with (out := printed) as (s & js & E & St & Ss & _).
  - apply (Forall_impl _ (P := fun s => sayable_span (a_number kind) (rs_span s) (rs_resource s))); [|exact F]. intros s S.
    now apply (span_made kind read_float nan inf neg_inf floats str_repr reprs) in S.
  - now exists s, js.
Qed.
(** Whoever reads a stream of documents reads the documents that were printed: no stream can be read in two ways. *)
Theorem C117_stream (text : str) (docs docs' : list jv) :
  stream (doc true means) text docs -> stream (doc true means) text docs' ->
  Forall (every keys_differ) docs -> Forall (every keys_differ) docs' -> docs = docs'.
Proof. apply stream_unique. Qed.
(** Whatever is given as attributes, what is kept as an attribute can be said: there are no bytes and no other objects in it. *)
Theorem C117_attributes maxlen given immutable (limit : option nat) attrs (ops : list baop) :
  ba_new maxlen given immutable (zlim limit) = Ok attrs ->
  exists doc, attrs_json (ba_dict (fold_left ba_step ops attrs)) = Ok doc /\ attrs_say (ba_dict (fold_left ba_step ops attrs)) doc.
Proof.
  intro E. apply stored_said. apply Forall_forall. intros [k v] I. destruct (c21_stored _ _ _ _ _ _ _ _ E I) as [_ S]. now apply storable_said in S.
Qed.
(** Refuted: that the document says when a span started or ended.  Time 0 is left out like a time that is not known. *)
Theorem C117_epoch_refuted (indent : option nat) (s : sdk_span) (r : resource) (sc : option scope) :
  sp_start s = None -> span_to_json indent (RSpan (with_start 0 s) r sc) = span_to_json indent (RSpan s r sc).
Proof. intro E. unfold Model_Document.span_to_json, span_json. cbn. now rewrite E. Qed.
(** Refuted: that the document says what the span is.  Not in it: the scope; whether the span is sampled and its context or its parent's is remote;
    the parent's trace id and trace state; how many attributes, events and links were dropped. *)
Theorem C117_hidden_refuted (indent : option nat) (s : sdk_span) (r : resource) (sc sc' : option scope) (remote : bool) (flags : Z) (parent : span_context)
    (dropped_attributes dropped_events dropped_links : nat) :
  sp_parent s <> None -> (forall p, sp_parent s = Some p -> sc_span_id parent = sc_span_id p) ->
  let hidden := Span (sp_name s) (SC (sc_trace_id (sp_ctx s)) (sc_span_id (sp_ctx s)) remote flags (sc_state (sp_ctx s))) (Some parent) (sp_kind s) (sp_limits s)
    (BA (ba_maxlen (sp_attrs s)) (ba_max_value_len (sp_attrs s)) (ba_immutable (sp_attrs s)) (ba_dict (sp_attrs s)) dropped_attributes)
    (BL (bl_maxlen (sp_events s)) (bl_items (sp_events s)) dropped_events) (BL (bl_maxlen (sp_links s)) (bl_items (sp_links s)) dropped_links)
    (sp_status s) (sp_start s) (sp_end s) in
  span_to_json indent (RSpan hidden r sc') = span_to_json indent (RSpan s r sc).
Proof.
  intros N P. unfold Model_Document.span_to_json, span_json. cbn. destruct (sp_parent s) as [p|]; [|contradiction]. now rewrite (P p eq_refl).
Qed.
(** Refuted: that a batch is printed.  A time after the year 9999 raises, before anything of that span is printed and after the spans before it were;
    those after it are not printed. *)
Theorem C117_far_time_refuted :
  exists t, (0 < t)%Z /\ forall (before after : list rspan) (s : sdk_span) (r : resource) (sc : option scope) (printed new : str),
    sp_start s = Some t -> console_spans before printed = (printed ++ new, Ok tt) ->
    exists e, console_spans (before ++ RSpan s r sc :: after) printed = (printed ++ new, Raises e).
Proof.
  exists 253402300800000000000%Z. split; [lia|]. intros before after s r sc printed new E. unfold Model_Document.console_spans.
  assert (T : exists e, ns_to_iso_str 253402300800000000000 = Raises e) by (eexists; vm_compute; reflexivity). destruct T as [e T].
  assert (J : span_to_json (Some 4) (RSpan s r sc) = Raises e).
  { unfold Model_Document.span_to_json, span_json, time_json, rs_span. rewrite E. change (Z.eqb 253402300800000000000 0) with false. cbv iota. rewrite T. reflexivity. }
  intro C. exists e. revert C. generalize printed at 1 3. generalize (printed ++ new). clear - J.
  induction before as [|b before IH]; intros out p C; cbn [app console_export] in *.
  - rewrite J. now injection C as ->.
  - destruct (span_to_json (Some 4) b); [now apply IH|discriminate].
Qed.
End C117.
Print Assumptions C117_span.
Print Assumptions C117_any_float.
Print Assumptions C117_not_a_number_refuted.
Print Assumptions C117_console.
Print Assumptions C117_stream.
Print Assumptions C117_attributes.
Print Assumptions C117_epoch_refuted.
Print Assumptions C117_hidden_refuted.
Print Assumptions C117_far_time_refuted.

(** A span with a parent, a status, attributes, an event and a link *)
Definition ex_repr (s : str) : str := lit "'" ++ s ++ lit "'".
Example C117_repr : forall s, unicode s -> unicode (ex_repr s).
Proof. intros s U. repeat apply unicode_app; try assumption; apply unicodeb_ok; reflexivity. Qed.
Definition doc_ctx : span_context := SC 11 12 false 1 [(lit "a", lit "1")].
Definition doc_attrs (d : list (str * pyval)) : battrs := BA None None true d 0.
Definition doc_limits : slimits := SLimits (Some 128%Z) (Some 128%Z) (Some 128%Z) (Some 128%Z) (Some 128%Z) (Some 128%Z) None None.
Definition doc_resource : resource := Res [(lit "service.name", PStr false (lit "shop"))] [].
Definition doc_span : sdk_span :=
  Span (lit "say ""hi""") doc_ctx (Some (SC 11 13 true 1 [])) 1 doc_limits
    (doc_attrs [(lit "n", PInt false (-1)); (lit "l", PSeq true [PStr false [233%N]; PNone]); (lit "f", PFloat false 7)])
    (BL None [Ev (lit "e") 1731867725123457000 (doc_attrs [])] 0) (BL None [Lk doc_ctx (doc_attrs [(lit "b", PBool true)])] 0)
    (St ERROR (PStr false (lit "no"))) (Some 1731867725123457000%Z) None.
Example C117_hypotheses : sayable_span (a_number ex_kind) doc_span doc_resource.
Proof.
  assert (U : forall s, unicodeb s = true -> unicode s) by exact unicodeb_ok.
  assert (C : sayable_context doc_ctx).
  { split; [split; cbn; lia|]. constructor; [split; apply U; reflexivity|constructor]. }
  unfold sayable_span, sayable_resource, sayable_attrs. repeat (match goal with |- _ /\ _ => split end); try (apply U; reflexivity); try exact C.
  all: try (cbn; lia).
  - cbn. intros p [= <-]. split; [split; cbn; lia|constructor].
  - intros t [= <-]. unfold until_2106. lia.
  - cbn. intros t H. discriminate.
  - right. exists false, (lit "no"). split; [reflexivity|apply U; reflexivity].
  - apply nodupb_ok. reflexivity.
  - cbn. constructor; [split; [apply U; reflexivity|constructor]|]. constructor; [split; [apply U; reflexivity|]|].
    { constructor. constructor; [constructor; apply U; reflexivity|]. constructor; [constructor|constructor]. }
    constructor; [split; [apply U; reflexivity|constructor; eexists; reflexivity]|constructor].
  - cbn. constructor; [|constructor]. split; [apply U; reflexivity|]. split; [unfold printable_time, until_2106; cbn; lia|]. split; constructor.
  - cbn. constructor; [|constructor]. split; [exact C|]. split; [apply nodupb_ok; reflexivity|]. constructor; [split; [apply U; reflexivity|constructor]|constructor].
  - apply nodupb_ok. reflexivity.
  - cbn. constructor; [split; [apply U; reflexivity|constructor; apply U; reflexivity]|constructor].
Qed.
Example C117_example :
  span_to_json ex_kind ex_read 0 1 (-1) ex_repr None (RSpan doc_span doc_resource None) = Ok (
    lit "{""name"": ""say \""hi\"""", ""context"": {""trace_id"": ""0x0000000000000000000000000000000b"", ""span_id"": ""0x000000000000000c"", ""trace_state"": ""['{key=a, value=1}']""}, ""kind"": ""SpanKind.SERVER"", ""parent_id"": ""0x000000000000000d"", ""start_time"": ""2024-11-17T18:22:05.123457Z"", ""end_time"": null, ""status"": {""status_code"": ""ERROR"", ""description"": ""no""}, ""attributes"": {""n"": -1, ""l"": [""\u00e9"", null], ""f"": 7.0}, ""events"": [{""name"": ""e"", ""timestamp"": ""2024-11-17T18:22:05.123457Z"", ""attributes"": {}}], ""links"": [{""context"": {""trace_id"": ""0x0000000000000000000000000000000b"", ""span_id"": ""0x000000000000000c"", ""trace_state"": ""['{key=a, value=1}']""}, ""attributes"": {""b"": true}}], ""resource"": {""attributes"": {""service.name"": ""shop""}, ""schema_url"": """"}}").
Proof. vm_compute. reflexivity. Qed.
