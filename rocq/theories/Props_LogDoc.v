(** C118: the JSON document of a log record, and the exporter that prints it. *)
From Verif Require Import Proof_Document Proof_Json Props_Json Spec_Times Spec_Zipkin Props_SpanDoc.
From Verif Require Import Spec_Document.
From Coq Require Import Lia.

Section C118.
Variable kind : Z -> float_kind.
Variable read_float : str -> Z.
Variable nan inf neg_inf : Z.
Hypothesis floats : python_floats kind read_float nan inf neg_inf.
Notation means := (float_of read_float nan inf neg_inf).
Notation log_to_json := (log_to_json kind read_float nan inf neg_inf).
Notation console_logs := (console_logs kind read_float nan inf neg_inf).

(** [record.to_json(indent)] is JSON that says, member by member, what the record is; Python's own parser reads the same. *)
Theorem C118_log (indent : option nat) (r : log_record) :
  sayable_log (a_number kind) r ->
  exists text doc, log_to_json indent r = Ok text /\ log_says r doc /\ json_text false means text doc /\ loads read_float nan inf neg_inf text = Some doc.
Proof.
  intro S. unfold Model_Document.log_to_json. apply (log_made kind read_float nan inf neg_inf floats) in S.
  destruct (to_text_made kind read_float nan inf neg_inf floats _ false indent _ _ _ (fun _ f N => N) S) as (t & j & H). now exists t, j.
Qed.
(** ConsoleLogExporter prints the documents of a batch one after the other, in order, each with a line feed, and returns SUCCESS.
    (C117_stream: the documents can be read from that in one way only.) *)
Theorem C118_console (batch : list log_data) (printed : str) :
  Forall (fun d => sayable_log (a_number kind) (ld_record d)) batch ->
  exists new docs, console_logs batch printed = (printed ++ new, Ok tt) /\ stream (doc false means) new docs
  /\ Forall2 (fun d => log_says (ld_record d)) batch docs.
Proof.
  intro F. destruct (console_made kind read_float nan inf neg_inf floats (a_number kind) false (Some 4) (fun d => log_json kind read_float nan inf neg_inf (ld_record d))
    (fun d => log_says (ld_record d)) batch (fun _ f N => N)) with (out := printed) as (s & js & E & St & Ss & _).
  - apply (Forall_impl _ (P := fun d => sayable_log (a_number kind) (ld_record d))); [|exact F]. intros d S. now apply (log_made kind read_float nan inf neg_inf floats) in S.
  - now exists s, js.
Qed.
(** Refuted: that records are printed.  A record without a time - the default - raises, and the records after it in the batch are not printed. *)
Theorem C118_no_time_refuted (before after : list log_data) (d : log_data) (printed new : str) :
  lr_time (ld_record d) = None \/ lr_observed (ld_record d) = None ->
  console_logs before printed = (printed ++ new, Ok tt) ->
  exists e, console_logs (before ++ d :: after) printed = (printed ++ new, Raises e).
Proof.
  intros N. apply console_raises. unfold Model_Document.log_to_json, log_json, log_times.
  destruct N as [-> | ->]; [eexists; reflexivity|]. destruct (match lr_time (ld_record d) with Some ts => ns_to_iso_str ts | None => _ end); eexists; reflexivity.
Qed.
(** Refuted: the same for a body of bytes, which the logging API allows. *)
Theorem C118_bytes_refuted (before after : list log_data) (d : log_data) (bytes : str) (printed new : str) :
  lr_body (ld_record d) = ABytes bytes ->
  console_logs before printed = (printed ++ new, Ok tt) ->
  exists e, console_logs (before ++ d :: after) printed = (printed ++ new, Raises e).
Proof.
  intros B. apply console_raises. unfold Model_Document.log_to_json, log_json, to_text. rewrite B.
  destruct (log_times _ _); [|eexists; reflexivity]. cbn [bind_out]. destruct (reload _ _ _ _ _ _ _); eexists; reflexivity.
Qed.
(** Refuted: that the document says how many attributes were dropped.  It says the same, 0, of all records of which no attribute was kept. *)
Theorem C118_dropped_refuted (indent : option nat) (r : log_record) (dropped : Z) :
  lr_attrs r = [] ->
  log_to_json indent (LogRec (lr_time r) (lr_observed r) (lr_trace_id r) (lr_span_id r) (lr_flags r) (lr_severity_text r) (lr_severity r) (lr_body r) [] dropped (lr_resource r))
  = log_to_json indent r.
Proof. intro N. unfold Model_Document.log_to_json, log_json. cbn. now rewrite N. Qed.
End C118.
Print Assumptions C118_log.
Print Assumptions C118_console.
Print Assumptions C118_no_time_refuted.
Print Assumptions C118_bytes_refuted.
Print Assumptions C118_dropped_refuted.

(** A record with a mapping in its body *)
Definition doc_log : log_record :=
  LogRec (Some 1731867725123457000%Z) (Some 0%Z) (Some 11%Z) None (Some 1%Z) (Some (lit "INFO")) (Some 9%Z)
    (AMap [(lit "a", ASeq [ANone; AFloat 7; AStr (lit "x")]); (lit "b", AMap [])]) [(lit "k", PBool true)] 2 doc_resource.
Example C118_hypotheses : sayable_log (a_number ex_kind) doc_log.
Proof.
  assert (U : forall s, unicodeb s = true -> unicode s) by exact unicodeb_ok.
  unfold sayable_log, sayable_resource, sayable_attrs. repeat (match goal with |- _ /\ _ => split end); try (apply U; reflexivity).
  - apply sb_map; [apply nodupb_ok; reflexivity|]. constructor; [split; [apply U; reflexivity|]|].
    + apply sb_seq. constructor; [apply sb_none|]. constructor; [apply sb_float; eexists; reflexivity|]. constructor; [apply sb_str; apply U; reflexivity|constructor].
    + constructor; [|constructor]. split; [apply U; reflexivity|]. apply sb_map; constructor.
  - cbn. intros s [= <-]. apply U. reflexivity.
  - apply nodupb_ok. reflexivity.
  - cbn. constructor; [split; [apply U; reflexivity|constructor]|constructor].
  - eexists. split; [reflexivity|]. unfold printable_time, until_2106. lia.
  - eexists. split; [reflexivity|]. unfold printable_time, until_2106. lia.
  - cbn. intros t [= <-]. lia.
  - cbn. intros t H. discriminate.
  - apply nodupb_ok. reflexivity.
  - cbn. constructor; [split; [apply U; reflexivity|constructor; apply U; reflexivity]|constructor].
Qed.
Example C118_example :
  log_to_json ex_kind ex_read 0 1 (-1) None doc_log = Ok (
    lit "{""body"": {""a"": [null, 7.0, ""x""], ""b"": {}}, ""severity_number"": 9, ""severity_text"": ""INFO"", ""attributes"": {""k"": true}, ""dropped_attributes"": 2, ""timestamp"": ""2024-11-17T18:22:05.123457Z"", ""observed_timestamp"": ""1970-01-01T00:00:00.000000Z"", ""trace_id"": ""0x0000000000000000000000000000000b"", ""span_id"": """", ""trace_flags"": 1, ""resource"": {""attributes"": {""service.name"": ""shop""}, ""schema_url"": """"}}").
Proof. vm_compute. reflexivity. Qed.
