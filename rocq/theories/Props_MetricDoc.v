(** C119: the JSON document of metrics, and the exporter that prints it. *)
From Verif Require Import Proof_Document Proof_Json Props_Json Props_SpanDoc.
From Verif Require Import Spec_Document.
From Coq Require Import Lia.

Section C119.
Variable kind : Z -> float_kind.
Variable read_float : str -> Z.
Variable nan inf neg_inf : Z.
Hypothesis floats : python_floats kind read_float nan inf neg_inf.
Notation means := (float_of read_float nan inf neg_inf).
Notation metrics_to_json := (metrics_to_json kind read_float nan inf neg_inf).
Notation console_metrics := (console_metrics kind read_float nan inf neg_inf).

(** [metrics_data.to_json(indent)], which writes, reads and writes again at each of its six levels, is JSON that says, member by member,
    what the metrics are; Python's own parser reads the same. *)
Theorem C119_metrics (indent : option nat) (l : list resource_metrics) :
  sayable_metrics (a_number kind) l ->
  exists text doc, metrics_to_json indent l = Ok text /\ metrics_say l doc /\ json_text false means text doc /\ loads read_float nan inf neg_inf text = Some doc.
Proof.
  intro S. unfold Model_Document.metrics_to_json. apply (metrics_made kind read_float nan inf neg_inf floats _ indent) in S.
  destruct (to_text_made kind read_float nan inf neg_inf floats _ false indent _ _ _ (fun _ f N => N) S) as (t & j & H). now exists t, j.
Qed.
(** Python's own parser also reads it if there are floats that are not numbers. *)
Theorem C119_any_float (indent : option nat) (l : list resource_metrics) :
  sayable_metrics any_float l ->
  exists text doc, metrics_to_json indent l = Ok text /\ metrics_say l doc /\ loads read_float nan inf neg_inf text = Some doc.
Proof.
  intro S. unfold Model_Document.metrics_to_json. apply (metrics_made kind read_float nan inf neg_inf floats _ indent) in S.
  destruct (to_text_made kind read_float nan inf neg_inf floats _ true indent _ _ _ ltac:(discriminate) S) as (t & j & E & Sj & _ & L). now exists t, j.
Qed.
(** ConsoleMetricExporter prints the document and a line feed, and returns SUCCESS. *)
Theorem C119_console (l : list resource_metrics) (printed : str) :
  sayable_metrics (a_number kind) l ->
  exists new doc1, console_metrics l printed = (printed ++ new, Ok tt) /\ stream (doc false means) new [doc1] /\ metrics_say l doc1.
Proof.
  intro S. destruct (console_made kind read_float nan inf neg_inf floats (a_number kind) false (Some 4) (metrics_data_json kind read_float nan inf neg_inf (Some 4))
    metrics_say [l] (fun _ f N => N)) with (out := printed) as (s & js & E & St & Ss & _).
  - constructor; [|constructor]. now apply (metrics_made kind read_float nan inf neg_inf floats).
  - inversion Ss as [|x j l1 l2 Sj Sn]; subst. inversion Sn; subst. exists s, j. now repeat split.
Qed.
(** Refuted: that it is JSON.  It is not if the least or the greatest value of a histogram's data point is an infinity - as they are,
    with record_min_max=False - whatever numbers are taken to stand for. *)
Theorem C119_min_max_refuted (indent : option nat) (l : list resource_metrics) (r : resource_metrics) (s : scope_metrics) (m : sdk_metric)
    (points : list hist_point) (t : Z) (p : hist_point) (f : Z) :
  sayable_metrics any_float l ->
  In r l -> In s (rms_scopes r) -> In m (sms_metrics s) -> sm_data m = MHistogram points t -> In p points ->
  h_min p = Some (NFloat f) \/ h_max p = Some (NFloat f) -> ~ a_number kind f ->
  exists text, metrics_to_json indent l = Ok text /\ forall stands_for doc, ~ json_text false stands_for text doc.
Proof.
  intros S Ir Is Im D Ip Hf N. apply (metrics_made kind read_float nan inf neg_inf floats _ indent) in S. destruct S as (j & E & Sj & _).
  exists (dumps kind indent j). unfold Model_Document.metrics_to_json, to_text. rewrite E. split; [reflexivity|]. intros means j'.
  apply (C116_not_a_number_refuted kind read_float nan inf neg_inf floats means indent j f); [|intros x Er; apply N; now exists x].
  destruct Sj as (rs & -> & Sr). destruct (Forall2_image _ _ _ _ Sr Ir) as (jr & Ijr & (re & ss & -> & _ & Sss)).
  destruct (Forall2_image _ _ _ _ Sss Is) as (js & Ijs & (sc & ms & -> & _ & Sms)).
  destruct (Forall2_image _ _ _ _ Sms Im) as (jm & Ijm & (de & un & d & -> & _ & _ & (ps & rest & -> & Sd))). rewrite D in Sd. destruct Sd as [Sps _].
  destruct (Forall2_image _ _ _ _ Sps Ip) as (jp & Ijp & (a & st & su & bc & eb & mn & mx & ex & -> & Sp)).
  eapply part_obj; [now left|]. eapply part_arr; [exact Ijr|]. eapply part_obj; [right; now left|]. eapply part_arr; [exact Ijs|].
  eapply part_obj; [right; now left|]. eapply part_arr; [exact Ijm|]. eapply part_obj; [right; right; right; now left|].
  eapply part_obj; [now left|]. eapply part_arr; [exact Ijp|].
  destruct Hf as [Hf|Hf].
  - assert (M : or_null number_says (h_min p) mn) by tauto. rewrite Hf in M. cbn in M. subst mn. eapply part_obj with (k := lit "min"); [cbn; auto 20|constructor].
  - assert (M : or_null number_says (h_max p) mx) by tauto. rewrite Hf in M. cbn in M. subst mx. eapply part_obj with (k := lit "max"); [cbn; auto 20|constructor].
Qed.
(** Refuted: that metrics are printed.  If an attribute of a measurement - which are kept as they were given - is bytes, nothing is. *)
Theorem C119_bytes_refuted (l : list resource_metrics) (r : resource_metrics) (s : scope_metrics) (m : sdk_metric) (p : num_point)
    (points : list num_point) (key : str) (sub : bool) (bytes : str) (printed : str) :
  In r l -> In s (rms_scopes r) -> In m (sms_metrics s) -> sm_data m = MGauge points \/ (exists t mono, sm_data m = MSum points t mono) -> In p points ->
  In (key, PBytes sub bytes) (n_attrs p) ->
  exists e, console_metrics l printed = (printed, Raises e).
Proof.
  intros Ir Is Im D Ip B.
  assert (R : forall i o, (exists e, o = Raises e) -> exists e, reload kind read_float nan inf neg_inf i o = Raises e) by (intros i o [e Eo]; exists e; now rewrite Eo).
  assert (E : exists e, metrics_to_json (Some 4) l = Raises e); [|destruct E as [e E]; exists e; unfold Model_Document.console_metrics; cbn [console_export]; now rewrite E].
  unfold Model_Document.metrics_to_json, metrics_data_json, to_text.
  assert (B1 : forall A C (o : outcome_of A) (g : A -> outcome_of C), (exists e, o = Raises e) -> exists e, bind_out o g = Raises e) by (intros A C o g [e Eo]; exists e; now rewrite Eo).
  do 2 apply B1. eapply map_out_raises; [exact Ir|]. apply R. unfold resource_metrics_json. apply bind_raises. intros ? _. apply B1.
  eapply map_out_raises; [exact Is|]. apply R. unfold scope_metrics_json. apply bind_raises. intros ? _. apply B1.
  eapply map_out_raises; [exact Im|]. apply R. unfold metric_json. apply B1. apply R.
  assert (P : exists e, map_out (fun p => reload kind read_float nan inf neg_inf (Some 4) (num_point_json p)) points = Raises e).
  { eapply map_out_raises; [exact Ip|]. apply R. unfold num_point_json. apply B1. unfold attrs_json. apply B1. eapply map_out_raises; [exact B|]. now exists "TypeError"%string. }
  destruct D as [->|(t & mono & ->)]; cbn [data_json]; now apply B1.
Qed.
End C119.
Print Assumptions C119_metrics.
Print Assumptions C119_any_float.
Print Assumptions C119_console.
Print Assumptions C119_min_max_refuted.
Print Assumptions C119_bytes_refuted.

(** A histogram and a sum *)
Definition doc_hist (mn : Z) : hist_point := HistPt [(lit "a", PStr false (lit "b"))] (Some 1%Z) 2 3 (NInt 12) [1; 2]%Z [NFloat 7] (Some (NFloat mn)) (Some (NInt 9)) [].
Definition doc_sum : num_point := NumPt [] None 2 (NFloat 8) [Exm [(lit "x", PInt false 1)] (NInt 4) 5 (Some 6%Z) None].
Definition doc_exp : exp_point := ExpPt [] (Some 1%Z) 2 3 (NInt 4) 5 6 (EB 0 [1%Z]) (EB 7 []) 0 (Some (NInt 8)) None [].
Definition doc_metrics (mn : Z) : list resource_metrics :=
  [RMs doc_resource [SMs (Scope (lit "lib") None [] []) [SMetric (lit "h") (Some (lit "d")) None (MHistogram [doc_hist mn] 2); SMetric (lit "s") None (Some (lit "By")) (MSum [doc_sum] 1 true);
     SMetric (lit "e") None None (MExponential [doc_exp] 1)] (lit "u")] []].
Lemma doc_sayable (allowed : Z -> Prop) mn : allowed mn -> allowed 7%Z -> allowed 8%Z -> sayable_metrics allowed (doc_metrics mn).
Proof.
  intros Am A7 A8. assert (U : forall s, unicodeb s = true -> unicode s) by exact unicodeb_ok.
  assert (O : forall s, unicodeb s = true -> unicode_opt (Some s)) by (intros s H x [= <-]; now apply U). assert (O0 : unicode_opt None) by discriminate.
  assert (NF : forall f, allowed f -> sayable_number allowed (NFloat f)) by (intros f A g [= <-]; exact A). assert (NI : forall z, sayable_number allowed (NInt z)) by discriminate.
  assert (SO : forall n, sayable_number allowed n -> sayable_opt allowed (Some n)) by (intros n A g [= <-]; exact A). assert (S0 : sayable_opt allowed None) by discriminate.
  assert (E0 : sayable_attrs allowed []) by (split; constructor).
  constructor; [|constructor]. split; [|split; [apply U; reflexivity|]].
  { split; [split; [apply nodupb_ok; reflexivity|]|apply U; reflexivity]. constructor; [split; [apply U; reflexivity|apply sy_str, U; reflexivity]|constructor]. }
  constructor; [|constructor]. split; [split; [apply U; reflexivity|split; [exact O0|split; [apply U; reflexivity|exact E0]]]|]. split; [apply U; reflexivity|].
  constructor; [|constructor; [|constructor; [|constructor]]].
  - split; [apply U; reflexivity|]. split; [now apply O|]. split; [exact O0|]. constructor; [|constructor].
    split; [split; [apply nodupb_ok; reflexivity|constructor; [split; [apply U; reflexivity|apply sy_str, U; reflexivity]|constructor]]|].
    split; [apply NI|]. split; [constructor; [now apply NF|constructor]|]. split; [now apply SO, NF|]. split; [now apply SO, NI|constructor].
  - split; [apply U; reflexivity|]. split; [exact O0|]. split; [now apply O|]. constructor; [|constructor]. split; [exact E0|]. split; [now apply NF|].
    constructor; [|constructor]. split; [|apply NI]. split; [apply nodupb_ok; reflexivity|]. constructor; [split; [apply U; reflexivity|apply sy_int]|constructor].
  - split; [apply U; reflexivity|]. split; [exact O0|]. split; [exact O0|]. constructor; [|constructor]. split; [exact E0|]. split; [apply NI|].
    split; [now apply SO, NI|]. split; [exact S0|constructor].
Qed.
Example C119_hypotheses : sayable_metrics (a_number ex_kind) (doc_metrics 6).
Proof. apply doc_sayable; eexists; reflexivity. Qed.
Example C119_example :
  metrics_to_json ex_kind ex_read 0 1 (-1) None (doc_metrics 6) = Ok (
    lit "{""resource_metrics"": [{""resource"": {""attributes"": {""service.name"": ""shop""}, ""schema_url"": """"}, ""scope_metrics"": [{""scope"": {""name"": ""lib"", ""version"": null, ""schema_url"": """", ""attributes"": null}, ""metrics"": [{""name"": ""h"", ""description"": ""d"", ""unit"": """", ""data"": {""data_points"": [{""attributes"": {""a"": ""b""}, ""start_time_unix_nano"": 1, ""time_unix_nano"": 2, ""count"": 3, ""sum"": 12, ""bucket_counts"": [1, 2], ""explicit_bounds"": [7.0], ""min"": 6.0, ""max"": 9, ""exemplars"": []}], ""aggregation_temporality"": 2}}, {""name"": ""s"", ""description"": """", ""unit"": ""By"", ""data"": {""data_points"": [{""attributes"": {}, ""start_time_unix_nano"": null, ""time_unix_nano"": 2, ""value"": 8.0, ""exemplars"": [{""filtered_attributes"": {""x"": 1}, ""value"": 4, ""time_unix_nano"": 5, ""span_id"": 6, ""trace_id"": null}]}], ""aggregation_temporality"": 1, ""is_monotonic"": true}}, {""name"": ""e"", ""description"": """", ""unit"": """", ""data"": {""data_points"": [{""attributes"": {}, ""start_time_unix_nano"": 1, ""time_unix_nano"": 2, ""count"": 3, ""sum"": 4, ""scale"": 5, ""zero_count"": 6, ""positive"": {""offset"": 0, ""bucket_counts"": [1]}, ""negative"": {""offset"": 7, ""bucket_counts"": []}, ""flags"": 0, ""min"": 8, ""max"": null, ""exemplars"": []}], ""aggregation_temporality"": 1}}], ""schema_url"": ""u""}], ""schema_url"": """"}]}").
Proof. vm_compute. reflexivity. Qed.
(** With an infinity: 1 is the infinity of [ex_kind]. *)
Example C119_infinity :
  exists text, metrics_to_json ex_kind ex_read 0 1 (-1) None (doc_metrics 1) = Ok text /\ forall stands_for doc, ~ json_text false stands_for text doc.
Proof.
  eapply (C119_min_max_refuted ex_kind ex_read 0 1 (-1) C116_floats None) with (f := 1%Z) (p := doc_hist 1).
  - now apply doc_sayable.
  - now left.
  - now left.
  - now left.
  - reflexivity.
  - now left.
  - now left.
  - intros [r H]. discriminate.
Qed.
