(** C52, C53, C67, C68, C69: OTLP messages. *)
From Verif Require Import Spec_Otlp Spec_Resource Spec_Attr Proof_Otlp Proof_OtlpFields.
From Coq Require Import Lia Permutation.
Local Open Scope Z_scope.

(** Everything that [Resource] and [InstrumentationScope] build from attributes meets [kept_attrs]. *)
Theorem C52_hypothesis : forall attrs schema, kept_attrs (r_attrs (res_new attrs schema)).
Proof. exact res_new_kept. Qed.
Print Assumptions C52_hypothesis.

(** C52: the request has one group per resource, in the order of their first spans; in it one group per scope,
    likewise; and in it the spans of this resource and scope, in their order. *)
Theorem C52_request : forall float_int batch req, items_ok rs_resource rs_scope batch ->
  encode_spans same_resource_key (same_scope_key float_int) batch = Some req ->
  request_of (same_scope_key float_int) rs_resource rs_scope (fun s m => span_read (rs_span s) m) batch req.
Proof.
  intros fi batch req H E. eapply request_mono; [|apply (encode_all_request _ (scope_equiv fi) _ _ _ _ _ H E)].
  intros t m Q. cbn in Q. apply encode_span_ok in Q. apply Q.
Qed.
Print Assumptions C52_request.
(** C52: grouped by equality: of the values for resources, of Python for scopes. *)
Theorem C52_keys : forall float_int,
  (forall a b, resource_ok a -> resource_ok b -> (same_resource_key a b = true <-> equal_resources a b))
  /\ (forall a b, scope_ok a -> scope_ok b -> (same_scope_key float_int a b = true <-> python_equal_scopes float_int a b)).
Proof. intros fi. split; intros; [now apply resource_key_spec|now apply scope_key_spec]. Qed.
Print Assumptions C52_keys.
(** C52: flattened, the request is the batch in some order: each span under a resource and a scope equal to its own. *)
Theorem C52_each_span : forall float_int batch req, items_ok rs_resource rs_scope batch ->
  encode_spans same_resource_key (same_scope_key float_int) batch = Some req ->
  exists arranged, Permutation batch arranged /\
    Forall2 (fun t x => let '(g, h, m) := x in
      span_read (rs_span t) m
      /\ (exists r, In r (map rs_resource batch) /\ equal_resources r (rs_resource t) /\ resource_read r g)
      /\ (exists s, In s (map rs_scope batch) /\ same_scope_key float_int s (rs_scope t) = true /\ scope_read s h)) arranged (flatten req).
Proof. intros fi batch req H E. apply (request_each _ (scope_equiv fi) _ _ _ _ _ H). now apply C52_request. Qed.
Print Assumptions C52_each_span.
(** C52: no resource, and no scope of a resource, occurs twice. *)
Theorem C52_no_duplicates : forall float_int batch,
  all_different same_resource_key (firsts same_resource_key (map rs_resource batch))
  /\ forall r, all_different (same_scope_key float_int) (firsts (same_scope_key float_int) (map rs_scope (of_resource rs_resource r batch))).
Proof. intros. split; intros; apply firsts_different. Qed.
Print Assumptions C52_no_duplicates.
(** C52: such a request is made whenever every span, resource and scope can be encoded. *)
Theorem C52_succeeds : forall float_int batch, items_ok rs_resource rs_scope batch ->
  Forall (fun s => span_encodable (rs_span s) /\ resource_encodable (rs_resource s) /\ scope_encodable (rs_scope s)) batch ->
  exists req, encode_spans same_resource_key (same_scope_key float_int) batch = Some req.
Proof.
  intros fi batch H E. apply (encode_all_ex _ (scope_equiv fi)); auto; eapply Forall_impl; [|exact E| |exact E]; cbn; intros s (A & B & C); auto.
  now apply encode_span_ex.
Qed.
Print Assumptions C52_succeeds.

Definition oa (name : str) (v : pyval) := BA None None false [(name, v)] 0.
Definition a_status := new_status ERROR (PStr false (lit "bad")).
Definition a_ctx := SC 5 9 false 1 [(lit "k", lit "v")].
Definition limits0 := SLimits None None None None None None None None.
Definition span1 := Span (lit "one") a_ctx (Some (SC 5 7 true 1 [])) 2 limits0
  (oa (lit "x") (PSeq true [PInt false 1; PInt false (-1)]))
  (BL None [Ev (lit "e") 3 (oa (lit "y") (PBool true))] 1) (BL None [Lk (SC 6 8 true 0 []) (oa (lit "z") (PFloat false 4))] 0)
  a_status (Some 10) (Some 20).
Definition span2 := with_name (lit "two") span1.
Definition res1 := res_new [(PStr false (lit "r"), PInt false 1)] None.
Definition res2 := res_new [(PStr false (lit "r"), PBool true)] None.
Definition sco1 := Some (Scope (lit "lib") None [] [(lit "a", PInt false 1)]).
Definition sco2 := Some (Scope (lit "lib") None [] [(lit "a", PBool true)]).
Definition batch1 := [RSpan span1 res1 None; RSpan span2 res2 None; RSpan span2 res1 sco1; RSpan span1 res1 None; RSpan span2 res1 sco2].
Definition no_int : Z -> option Z := fun _ => None.
Lemma unicode_dec s : forallb (fun c => N.leb c 1114111 && negb (N.leb 55296 c && N.leb c 57343)) s = true -> unicode_text s.
Proof.
  intros H. apply Forall_forall. intros c I. rewrite forallb_forall in H. specialize (H c I). apply andb_true_iff in H. destruct H as [A B].
  apply N.leb_le in A. split; [exact A|]. apply negb_true_iff, andb_false_iff in B. destruct B as [B|B]; apply N.leb_gt in B; lia.
Qed.
Lemma span1_encodable n : unicode_text n -> span_encodable (with_name n span1).
Proof.
  intros U. split; [|split; [|split; [|split]]].
  - split; [split; vm_compute; congruence|]. split; [split; vm_compute; congruence|]. split; [split; vm_compute; congruence|apply unicode_dec; reflexivity].
  - split; [exact U|]. split; [split; vm_compute; congruence|]. split; [split; vm_compute; congruence|]. split; [split; vm_compute; congruence|].
    apply unicode_dec. reflexivity.
  - constructor; [|constructor]. split; [apply unicode_dec; reflexivity|]. split; split; vm_compute; congruence.
  - constructor; [|constructor]. split; [split; vm_compute; congruence|]. split; split; vm_compute; congruence.
  - split; [split; vm_compute; congruence|]. split; split; vm_compute; congruence.
Qed.
Example C52_example : items_ok rs_resource rs_scope batch1
  /\ Forall (fun s => span_encodable (rs_span s) /\ resource_encodable (rs_resource s) /\ scope_encodable (rs_scope s)) batch1
  /\ option_map (map (fun g => (pr_attrs g, map (fun h => map pb_name (pg_items h)) (pr_scopes g))))
       (encode_spans same_resource_key (same_scope_key no_int) batch1)
     = Some [([(lit "r", AVInt 1)], [[lit "one"; lit "one"]; [lit "two"; lit "two"]]); ([(lit "r", AVBool true)], [[lit "two"]])].
Proof.
  split; [|split].
  - assert (K : forall v, stored v -> kept_attrs [(lit "a", v)]) by (intros v S; split; [constructor; [intros []|constructor]|now constructor]).
    repeat (constructor; [split; [apply C52_hypothesis|try exact I; apply K; now constructor]|]). constructor.
  - assert (U1 : unicode_text (lit "one")) by (apply unicode_dec; reflexivity). assert (U2 : unicode_text (lit "two")) by (apply unicode_dec; reflexivity).
    assert (U3 : unicode_text (lit "lib")) by (apply unicode_dec; reflexivity). assert (U4 : unicode_text []) by constructor.
    pose proof (span1_encodable _ U1). pose proof (span1_encodable _ U2).
    repeat (constructor; [split; [assumption|split; [exact U4|cbn; auto]]|]). constructor.
  - vm_compute. reflexivity.
Qed.
(** Scopes are told apart by Python's equality only: a span of the scope with [a=True] is sent under the one with
    [a=1]. *)
Theorem C52_lookalike_scopes_refuted : exists batch req, items_ok rs_resource rs_scope batch
  /\ encode_spans same_resource_key (same_scope_key no_int) batch = Some req
  /\ map (fun s => option_map sco_attrs (rs_scope s)) batch = [Some [(lit "a", PInt false 1)]; Some [(lit "a", PBool true)]]
  /\ map (fun x => ps_attrs (pg_scope (snd (fst x)))) (flatten req) = [[(lit "a", AVInt 1)]; [(lit "a", AVInt 1)]].
Proof.
  exists [RSpan span1 res1 sco1; RSpan span2 res1 sco2]. eexists. split; [|split; [vm_compute; reflexivity|split; vm_compute; reflexivity]].
  assert (K : forall v, stored v -> kept_attrs [(lit "a", v)]) by (intros v S; split; [constructor; [intros []|constructor]|now constructor]).
  repeat (constructor; [split; [apply C52_hypothesis|apply K; now constructor]|]). constructor.
Qed.
Print Assumptions C52_lookalike_scopes_refuted.

(** C53: an id becomes exactly 16, or 8, bytes, from which it can be recovered; ids that are too large or negative
    raise. *)
Theorem C53_ids : forall z,
  (forall bs, encode_trace_id z = Some bs -> is_bytes 16 bs /\ number_of_bytes bs = z)
  /\ (forall bs, encode_span_id z = Some bs -> is_bytes 8 bs /\ number_of_bytes bs = z)
  /\ ((exists bs, encode_trace_id z = Some bs) <-> fits 128 z) /\ ((exists bs, encode_span_id z = Some bs) <-> fits 64 z).
Proof.
  intros z. split; [|split; [|split]].
  - intros bs H. now apply trace_id_some in H.
  - intros bs H. now apply span_id_some in H.
  - split; [intros [bs H]; now apply trace_id_some in H|apply trace_id_ex].
  - split; [intros [bs H]; now apply span_id_some in H|apply span_id_ex].
Qed.
Print Assumptions C53_ids.
Example C53_ids_example : encode_span_id (256 + 2) = Some [0; 0; 0; 0; 0; 0; 1; 2]%N /\ encode_span_id (-1) = None
  /\ encode_trace_id (2 ^ 128 - 1) = Some (repeat 255%N 16) /\ encode_trace_id (2 ^ 128) = None.
Proof. vm_compute. auto. Qed.
(** C53: the attributes that can be carried are in the message, in their order, with values that read as they were;
    the others are left out and change nothing else. *)
Theorem C53_attributes_partial : forall attrs, attributes_read attrs (encode_attributes attrs).
Proof. exact encode_attributes_read. Qed.
Print Assumptions C53_attributes_partial.
(** C53: values, for attributes ([null] false) and for the bodies of log records ([null] true): what is encoded reads
    as it was, and exactly the values that OTLP can carry are encoded. *)
Theorem C53_values : forall null v,
  (forall o, encode_value null v = Some o -> carried null v /\ read_value (match o with Some y => y | None => AVEmpty end) = v)
  /\ (carried null v -> exists o, encode_value null v = Some o).
Proof. exact encode_value_ok. Qed.
Print Assumptions C53_values.
Example C53_attributes_example :
  let attrs := [(lit "a", PSeq true [PStr false (lit "x"); PStr false [233%N]]); (lit "b", PSeq true [PInt false 1; PNone]); (lit "c", PBool false)] in
  encode_attributes attrs = [(lit "a", AVArray [AVStr (lit "x"); AVStr [233%N]]); (lit "c", AVBool false)].
Proof. vm_compute. reflexivity. Qed.
(** C53 is false of values that [BoundedAttributes] keeps: sequences with None, integers of more than 64 bits and
    strings with lone surrogates are lost. *)
Theorem C53_values_refuted : exists vs, length vs = 3%nat
  /\ Forall (fun v => storable None v /\ kept_attrs (r_attrs (res_new [(PStr false (lit "k"), v)] None))
                      /\ dget (lit "k") (r_attrs (res_new [(PStr false (lit "k"), v)] None)) = Some v
                      /\ encode_attributes [(lit "k", v)] = []) vs.
Proof.
  exists [PSeq true [PBool true; PNone]; PInt false (2 ^ 63); PStr false [55296%N]]. split; [reflexivity|].
  constructor; [|constructor; [|constructor; [|constructor]]]; (split; [|split; [apply C52_hypothesis|split; vm_compute; reflexivity]]).
  - cbn. split; [reflexivity|]. split; [|repeat constructor]. exists TBool. split; [left; reflexivity|].
    constructor; [right; reflexivity|]. constructor; [left; reflexivity|constructor].
  - exact I.
  - exact I.
Qed.
Print Assumptions C53_values_refuted.

(** C67: the fields of an encoded span read as those of the span; exactly the spans whose texts are Unicode, whose
    numbers fit and whose description is text are encoded. *)
Theorem C67_span_fields_partial : forall s,
  (forall p, encode_span s = Some p -> span_read s p) /\ ((exists p, encode_span s = Some p) <-> span_encodable s).
Proof.
  intros s. split; [intros p H; now apply encode_span_ok in H|]. split; [intros [p H]; now apply encode_span_ok in H|apply encode_span_ex].
Qed.
Print Assumptions C67_span_fields_partial.
Example C67_example : span_encodable span1 /\ option_map (fun p => (pb_kind p, pb_flags p, pb_state p, pb_status_message p, map pl_flags (pb_links p))) (encode_span span1)
  = Some (3, 768, lit "k=v", lit "bad", [768]).
Proof. split; [apply (span1_encodable (lit "one")); apply unicode_dec; reflexivity|vm_compute; reflexivity]. Qed.
(** C67: the W3C trace flags of the span (and of the parent), and the trace state of a link, are not sent: spans that
    differ only there have the same encoding. *)
Theorem C67_flags_and_link_state_refuted : exists s s',
  (sc_flags (sp_ctx s) <> sc_flags (sp_ctx s') /\ map (fun l => sc_state (lk_ctx l)) (bl_items (sp_links s)) <> map (fun l => sc_state (lk_ctx l)) (bl_items (sp_links s')))
  /\ encode_span s = encode_span s' /\ encode_span s <> None.
Proof.
  exists span1, (Span (lit "one") (SC 5 9 false 0 [(lit "k", lit "v")]) (Some (SC 5 7 true 1 [])) 2 limits0
    (oa (lit "x") (PSeq true [PInt false 1; PInt false (-1)]))
    (BL None [Ev (lit "e") 3 (oa (lit "y") (PBool true))] 1) (BL None [Lk (SC 6 8 true 0 [(lit "q", lit "w")]) (oa (lit "z") (PFloat false 4))] 0)
    a_status (Some 10) (Some 20)).
  split; [split; vm_compute; congruence|]. split; [vm_compute; reflexivity|]. vm_compute. discriminate.
Qed.
Print Assumptions C67_flags_and_link_state_refuted.
(** C67: one span that cannot be encoded makes the whole call raise. *)
Theorem C67_one_bad_span : forall float_int batch s, In s batch -> ~ span_encodable (rs_span s) ->
  encode_spans same_resource_key (same_scope_key float_int) batch = None.
Proof.
  intros fi batch s I N. apply (encode_all_none _ _ _ _ _ s I). destruct (encode_span (rs_span s)) eqn:E; [|reflexivity].
  apply encode_span_ok in E. destruct N. apply E.
Qed.
Print Assumptions C67_one_bad_span.
(** A falsy description that is not text is kept by Status and cannot be encoded. *)
Example C67_bad_span_example : ~ span_encodable (with_status (new_status ERROR (PInt false 0)) span1)
  /\ ~ span_encodable (with_name [55296%N] span1).
Proof.
  split.
  - intros (_ & (_ & _ & _ & _ & D) & _). exact D.
  - intros (_ & (U & _) & _). apply Forall_inv in U. destruct U as [_ U]. apply U. split; lia.
Qed.

(** C68: log records: as for spans. *)
Theorem C68_log_fields : forall r,
  (forall p, encode_log r = Some p -> log_read r p) /\ ((exists p, encode_log r = Some p) <-> log_encodable r).
Proof.
  intros r. split; [intros p H; now apply encode_log_ok in H|]. split; [intros [p H]; now apply encode_log_ok in H|apply encode_log_ex].
Qed.
Print Assumptions C68_log_fields.
Notation log_resource := (fun d => lr_resource (ld_record d)).
Theorem C68_request : forall float_int batch req, items_ok log_resource ld_scope batch ->
  encode_logs same_resource_key (same_scope_key float_int) batch = Some req ->
  request_of (same_scope_key float_int) log_resource ld_scope (fun d m => log_read (ld_record d) m) batch req.
Proof.
  intros fi batch req H E. eapply request_mono; [|apply (encode_all_request _ (scope_equiv fi) _ _ _ _ _ H E)].
  intros t m Q. cbn in Q. apply encode_log_ok in Q. apply Q.
Qed.
Print Assumptions C68_request.
Theorem C68_succeeds : forall float_int batch, items_ok log_resource ld_scope batch ->
  Forall (fun d => log_encodable (ld_record d) /\ resource_encodable (lr_resource (ld_record d)) /\ scope_encodable (ld_scope d)) batch ->
  exists req, encode_logs same_resource_key (same_scope_key float_int) batch = Some req.
Proof.
  intros fi batch H E. apply (encode_all_ex _ (scope_equiv fi)); auto; eapply Forall_impl; [|exact E| |exact E]; cbn; intros s (A & B & C); auto.
  now apply encode_log_ex.
Qed.
Print Assumptions C68_succeeds.
Definition log1 := LogRec (Some 7) (Some 8) (Some 5) (Some 0) (Some 1) (Some (lit "WARN")) (Some 13)
  (AMap [(lit "msg", AStr (lit "hi")); (lit "n", ANone); (lit "l", ASeq [AInt 1; AMap []])]) [(lit "a", PBool true)] 2 res1.
Example C68_example : log_encodable log1 /\ items_ok log_resource ld_scope [LogData log1 sco1]
  /\ option_map (fun p => (pbl_trace_id p, pbl_span_id p, pbl_body p)) (encode_log log1)
     = Some ([0; 0; 0; 0; 0; 0; 0; 0; 0; 0; 0; 0; 0; 0; 0; 5]%N, [], AVKvlist [(lit "msg", AVStr (lit "hi")); (lit "n", AVEmpty); (lit "l", AVArray [AVInt 1; AVKvlist []])]).
Proof.
  split; [|split; [|vm_compute; reflexivity]].
  - split; [|split; [|split; [|split; [|split]]]].
    + split; [exists 5|split; [exists 0|split; [exists 1|exists 13]]]; (split; [reflexivity|unfold fits; lia]).
    + split; vm_compute; congruence.
    + split; vm_compute; congruence.
    + apply unicode_dec. reflexivity.
    + constructor. repeat (constructor; [split; [apply unicode_dec; reflexivity|]|]); [constructor; apply unicode_dec; reflexivity|now constructor| |constructor].
      constructor. constructor; [constructor; split; vm_compute; congruence|]. constructor; [|constructor]. constructor. constructor.
    + split; vm_compute; congruence.
  - constructor; [|constructor]. split; [apply C52_hypothesis|]. split; [constructor; [intros []|constructor]|]. constructor; [now constructor|constructor].
Qed.
(** C68: a record made without a span context, severity or flags cannot be encoded, and the batch with it. *)
Theorem C68_incomplete_record_refuted : exists r good, lr_severity r = None /\ log_encodable good
  /\ encode_logs same_resource_key (same_scope_key no_int) [LogData good None; LogData r None] = None
  /\ encode_logs same_resource_key (same_scope_key no_int) [LogData good None] <> None.
Proof.
  exists (LogRec (Some 7) (Some 8) (Some 5) (Some 0) (Some 1) None None (AStr (lit "hi")) [] 0 res1), log1.
  split; [reflexivity|]. split; [apply C68_example|]. split; [vm_compute; reflexivity|vm_compute; discriminate].
Qed.
Print Assumptions C68_incomplete_record_refuted.

(** C69: metrics: if no resource and no scope of a resource occurs twice (as in what the SDK collects), the request
    has all of them in their order, and the points read as they were.
    Missing: data with repeated resources or scopes (C69_repeated_refuted); metrics without points (C69_empty_refuted). *)
Theorem C69_metrics_partial : forall to_float same_res same_sco l req,
  all_different same_res (map fst l) -> Forall (fun rm => all_different same_sco (map fst (snd rm))) l ->
  encode_metrics to_float same_res same_sco l = Some req -> Forall2 (resource_metrics_read to_float) l req.
Proof. exact encode_metrics_ok. Qed.
Print Assumptions C69_metrics_partial.
Theorem C69_succeeds : forall to_float same_res same_sco l, Forall (resource_metrics_ok to_float) l ->
  exists req, encode_metrics to_float same_res same_sco l = Some req.
Proof. exact encode_metrics_ex. Qed.
Print Assumptions C69_succeeds.
Definition exm1 := Exm [(lit "u", PInt false 4)] (NInt 3) 5 (Some 8) (Some 9).
Definition metrics1 := [(res1, [(Scope (lit "lib") (Some (lit "1")) [] [],
  [SMetric (lit "c") (Some (lit "d")) None (MSum [NumPt [(lit "a", PBool true)] (Some 1) 2 (NInt 3) [exm1]] 2 true);
   SMetric (lit "h") None (Some (lit "ms")) (MHistogram [HistPt [] (Some 1) 2 3 (NInt 4) [1; 2] [NFloat 7] (Some (NInt 1)) None []] 1);
   SMetric (lit "e") None None (MExponential [ExpPt [] (Some 1) 2 3 (NFloat 4) (-1) 0 (EB (-5) [1; 2]) (EB 3 []) 0 None None []] 1)])])].
Example C69_example : Forall (resource_metrics_ok (fun z => Some z)) metrics1
  /\ all_different same_resource_key (map fst metrics1)
  /\ Forall (fun rm => all_different (fun a b => same_scope_key no_int (Some a) (Some b)) (map fst (snd rm))) metrics1.
Proof.
  split; [|split].
  - constructor; [|constructor]. split; [constructor|]. constructor; [|constructor].
    split; [split; [apply unicode_dec; reflexivity|split; [apply unicode_dec; reflexivity|constructor]]|].
    constructor; [|constructor; [|constructor; [|constructor]]]; (split; [apply unicode_dec; reflexivity|split; [try exact I; apply unicode_dec; reflexivity|split; [try exact I; apply unicode_dec; reflexivity|]]]).
    + constructor; [|constructor]. split; [split; vm_compute; congruence|]. split; [split; vm_compute; congruence|]. split; [split; vm_compute; congruence|].
      constructor; [|constructor]. split; [split; vm_compute; congruence|]. split; [split; vm_compute; congruence|]. split; split; vm_compute; congruence.
    + constructor; [|constructor]. split; [|split].
      * split; [split; vm_compute; congruence|]. split; [split; vm_compute; congruence|]. split; [split; vm_compute; congruence|].
        constructor; [split; vm_compute; congruence|]. constructor; [split; vm_compute; congruence|constructor].
      * split; [exists 4; reflexivity|]. split; [constructor; [exact I|constructor]|]. split; [exists 1; reflexivity|exact I].
      * constructor.
    + constructor; [|constructor]. split; [|split; [|split]].
      * split; [split; vm_compute; congruence|]. split; [split; vm_compute; congruence|]. split; [split; vm_compute; congruence|]. split; split; vm_compute; congruence.
      * split; [exact I|]. split; exact I.
      * split; [split; vm_compute; congruence|]. split.
        -- split; [split; vm_compute; congruence|]. constructor; [split; vm_compute; congruence|]. constructor; [split; vm_compute; congruence|constructor].
        -- split; [split; vm_compute; congruence|constructor].
      * constructor.
  - constructor; [constructor|constructor].
  - constructor; [|constructor]. constructor; [constructor|constructor].
Qed.
(** C69: a metric without points loses its kind, and buckets without counts their offset. *)
Theorem C69_empty_refuted : exists d d', d <> d' /\
  let l := fun d => [(res1, [(Scope (lit "lib") None [] [], [SMetric (lit "c") None None d])])] in
  exists req, encode_metrics (fun z => Some z) same_resource_key (fun a b => same_scope_key no_int (Some a) (Some b)) (l d) = Some req
    /\ encode_metrics (fun z => Some z) same_resource_key (fun a b => same_scope_key no_int (Some a) (Some b)) (l d') = Some req.
Proof. exists (MGauge []), (MSum [] 2 true). split; [discriminate|]. eexists. split; vm_compute; reflexivity. Qed.
Print Assumptions C69_empty_refuted.
(** C69: if two entries have equal resources, or two entries of a resource equal scopes, the metrics of the first are not sent. *)
Theorem C69_repeated_refuted : forall to_float same_res same_sco r r' s s' sms sms' ms ms' req,
  (same_res r r' = true -> encode_metrics to_float same_res same_sco [(r, sms); (r', sms')] = Some req ->
   encode_metrics to_float same_res same_sco [(r, sms')] = Some req)
  /\ (same_sco s s' = true -> encode_metrics to_float same_res same_sco [(r, [(s, ms); (s', ms')])] = Some req ->
      encode_metrics to_float same_res same_sco [(r, [(s', ms')])] = Some req).
Proof.
  intros tf sr ss r r' s s' sms sms' ms ms' req. split.
  - intros H E. unfold encode_metrics in *. cbn [resource_dict] in *.
    destruct (scope_dict tf ss sms []) as [g|]; [|discriminate]. destruct (scope_dict tf ss sms' []) as [g'|]; [|discriminate].
    cbn [at_key] in *. rewrite H in E. exact E.
  - intros H E. unfold encode_metrics in *. cbn [resource_dict scope_dict] in *.
    destruct (encode_scope_metrics tf (s, ms)) as [g|]; [|discriminate]. destruct (encode_scope_metrics tf (s', ms')) as [g'|] eqn:G; [|discriminate].
    cbn [at_key] in *. cbn [fst] in *. rewrite H in E. exact E.
Qed.
Print Assumptions C69_repeated_refuted.
Example C69_repeated_example : same_resource_key res1 (res_new [(PStr false (lit "r"), PInt false 1)] None) = true
  /\ encode_metrics (fun z => Some z) same_resource_key (fun a b => same_scope_key no_int (Some a) (Some b)) (metrics1 ++ metrics1) <> None.
Proof. split; [reflexivity|vm_compute; discriminate]. Qed.
