(** C79-C81: Zipkin exporters.
    Vocabulary: Spec_Zipkin.v (a grammar of JSON arrays, rounding, what a zipkin span says, histories of calls). *)
From Verif Require Import Proof_Zipkin.

(** C79.  The tags of a span are those of its scope, status and dropped counts, else those of the resource's
    attributes, else those of its own; nothing else. *)
Theorem C79_tags : forall int_text float_text maxlen s z,
  NoDup (keys (r_attrs (rs_resource s))) -> NoDup (keys (ba_dict (sp_attrs (rs_span s)))) ->
  encode_v2 int_text float_text maxlen s = Ok z ->
  NoDup (keys (z_tags z)) /\
  forall k, exists tr ts,
    attr_tag int_text float_text maxlen (r_attrs (rs_resource s)) k tr
    /\ attr_tag int_text float_text maxlen (ba_dict (sp_attrs (rs_span s))) k ts
    /\ dget k (z_tags z) = match special_tag int_text s k, tr with
                           | Some v, _ => Some v
                           | None, Some t => Some (Some t)
                           | None, None => option_map Some ts
                           end.
Proof.
  intros it ft maxlen s z H1 H2 E. rewrite (v2_tags_read _ _ _ _ _ E). split; [apply tags_of_span_nodup|].
  intros k. apply tags_read; assumption.
Qed.
Print Assumptions C79_tags.

(** C79.  So, with a maximal length of at least 2, if no element of a sequence needs an escape in JSON, its tag is a
    complete JSON array of the longest prefix of the elements that fits. *)
Theorem C79_sequence_bounded_partial : forall int_text float_text z s out k b l es,
  NoDup (keys (r_attrs (rs_resource s))) -> NoDup (keys (ba_dict (sp_attrs (rs_span s)))) ->
  encode_v2 int_text float_text (Some z) s = Ok out -> (1 < z)%Z ->
  special_tag int_text s k = None -> dget k (r_attrs (rs_resource s)) = None ->
  dget k (ba_dict (sp_attrs (rs_span s))) = Some (PSeq b l) ->
  texts int_text float_text l es -> Forall plain_item es ->
  exists tag n, dget k (z_tags out) = Some (Some tag) /\ (Z.of_nat (length tag) <= z)%Z
    /\ (n <= length es)%nat /\ jarray tag (firstn n es)
    /\ (n = length es \/ (z < array_room (firstn (S n) es))%Z).
Proof.
  intros it ft z s out k b l es H1 H2 E Hz Hsp Hr Ha Ht Hp. rewrite (v2_tags_read _ _ _ _ _ E).
  rewrite (tags_of_span_get it ft (Some z) s k H1 H2), Hsp. unfold attr_text. rewrite Hr, Ha.
  destruct (seq_text_bounded it ft z l es Hz Ht) as (t & n & Et & J & Hn & Hr' & Hl & Hlen).
  { eapply Forall_impl; [|exact Hp]. apply plain_scalar. }
  exists t, n. unfold tag_text. cbn [scalar_text]. rewrite Et. cbn [option_map].
  assert (C : cut (Some z) t = t) by (apply cut_short, Hlen, Hp). rewrite C. auto 10.
Qed.
Print Assumptions C79_sequence_bounded_partial.

(** C79.  The tag of an attribute never exceeds the maximal length. *)
Theorem C79_attribute_length_partial : forall int_text float_text z s out k t,
  NoDup (keys (r_attrs (rs_resource s))) -> NoDup (keys (ba_dict (sp_attrs (rs_span s)))) ->
  encode_v2 int_text float_text (Some z) s = Ok out -> (0 < z)%Z -> special_tag int_text s k = None ->
  dget k (z_tags out) = Some (Some t) -> (Z.of_nat (length t) <= z)%Z.
Proof.
  intros it ft z s out k t H1 H2 E Hz Hsp H. rewrite (v2_tags_read _ _ _ _ _ E), (tags_of_span_get it ft (Some z) s k H1 H2), Hsp in H.
  assert (L : forall d t', attr_text it ft (Some z) d k = Some t' -> (Z.of_nat (length t') <= z)%Z).
  { intros d t' H'. unfold attr_text in H'. destruct (dget k d) as [v|]; [|discriminate]. exact (tag_length it ft z v t' Hz H'). }
  destruct (attr_text it ft (Some z) (r_attrs (rs_resource s)) k) as [t'|] eqn:E1.
  - injection H as <-. exact (L _ _ E1).
  - destruct (attr_text it ft (Some z) (ba_dict (sp_attrs (rs_span s))) k) as [t'|] eqn:E2; [|discriminate].
    injection H as <-. exact (L _ _ E2).
Qed.
Print Assumptions C79_attribute_length_partial.

Definition span_with (attrs : dict str pyval) : rspan :=
  RSpan (Span (lit "op") (SC 5 6 false 1 []) None 0 (SLimits None None None None None None None None)
           (BA None None false attrs 0) (BL None [] 0) (BL None [] 0) (St UNSET PNone) (Some 0%Z) (Some 1%Z)) (Res [] []) None.
Example C79_sequence_example :
  let it := fun z => if Z.eqb z 7 then lit "7" else [] in
  texts it it [PInt false 7; PNone; PObj 3; PBool true; PStr false (lit "long one")]
    [Some (lit "7"); None; Some (lit "true"); Some (lit "long one")]
  /\ (exists z, encode_v2 it it (Some 18%Z) (span_with [(lit "a", PSeq true [PInt false 7; PNone; PObj 3; PBool true; PStr false (lit "long one")])]) = Ok z
        /\ z_tags z = [(lit "a", Some (lit "[""7"",null,""true""]"))])
  /\ array_room [Some (lit "7"); None; Some (lit "true")] = 17%Z
  /\ Forall plain_item [Some (lit "7"); None; Some (lit "true"); Some (lit "long one")].
Proof.
  intros it. split; [|split; [|split]].
  - change (lit "7") with (it 7%Z). apply tx_int, tx_none, tx_other; [exact I|]. apply tx_true, tx_str, tx_nil.
  - eexists. split; [vm_compute; reflexivity|]. reflexivity.
  - vm_compute. reflexivity.
  - repeat constructor; cbn; intros; try lia; discriminate.
Qed.

(** C79.  Characters that JSON escapes are counted as one: the array is cut in the middle, and the tag is no JSON. *)
Theorem C79_escapes_refuted : exists s z tag,
  encode_v2 (fun _ => []) (fun _ => []) (Some 5%Z) s = Ok z /\ dget (lit "a") (ba_dict (sp_attrs (rs_span s))) = Some (PSeq true [PStr false [10%N]])
  /\ dget (lit "a") (z_tags z) = Some (Some tag) /\ forall es, ~ jarray tag es.
Proof.
  eexists (span_with [(lit "a", PSeq true [PStr false [10%N]])]), _, (lit "[""\n""").
  split; [vm_compute; reflexivity|]. split; [reflexivity|]. split; [vm_compute; reflexivity|].
  intros es' (parts & _ & E). apply (f_equal (@rev N)) in E. rewrite app_assoc, rev_app_distr in E.
  vm_compute in E. discriminate E.
Qed.
Print Assumptions C79_escapes_refuted.

Definition zipkin_span (desc : pyval) (version : option str) : rspan :=
  RSpan (Span (lit "op") (SC 5 6 false 1 []) (Some (SC 5 9 true 1 [])) 1 (SLimits None None None None None None None None)
           (BA None None false [(lit "a", PStr false (lit "hello")); (lit "b", PSeq true [PStr false (lit "x"); PNone])] 2)
           (BL None [Ev (lit "e") 1499 (BA None None true [(lit "k", PStr false (lit "value"))] 0)] 0) (BL None [] 0)
           (St ERROR desc) (Some 1500%Z) (Some 4499%Z))
    (Res [(lit "service.name", PStr false (lit "svc")); (lit "a", PInt false 3)] []) (Some (Scope (lit "lib") version [] [])).

Example C79_tags_example :
  exists z, encode_v2 (fun z => if Z.eqb z 3 then lit "3" else lit "2") (fun _ => []) (Some 4%Z) (zipkin_span (PStr false (lit "failed")) (Some (lit "1"))) = Ok z
  /\ z_tags z
  = [(lit "a", Some (lit "3")); (lit "b", Some (lit "[]")); (lit "service.name", Some (lit "svc"));
     (lit "otel.library.name", Some (lit "lib")); (lit "otel.library.version", Some (lit "1"));
     (lit "otel.scope.name", Some (lit "lib")); (lit "otel.scope.version", Some (lit "1"));
     (lit "otel.status_code", Some (lit "ERROR")); (lit "error", Some (lit "failed"));
     (lit "otel.dropped_attributes_count", Some (lit "2"))].
Proof. eexists. split; [vm_compute; reflexivity|]. vm_compute. reflexivity. Qed.

(** C79.  Other tags do (here: the description of an error, 6 characters with a maximum of 4). *)
Theorem C79_error_length_refuted : exists s z t, encode_v2 (fun _ => []) (fun _ => []) (Some 4%Z) s = Ok z
  /\ dget (lit "error") (z_tags z) = Some (Some t) /\ (4 < Z.of_nat (length t))%Z.
Proof.
  eexists (zipkin_span (PStr false (lit "failed")) None), _, (lit "failed"). split; [vm_compute; reflexivity|]. vm_compute. split; reflexivity.
Qed.
Print Assumptions C79_error_length_refuted.

(** C80.  A v2 span says what the span said: ids, name, times rounded to microseconds, kind, parent, sampled flag,
    events; for the tags see C79. *)
Theorem C80_v2_span : forall int_text float_text maxlen s z,
  ids_in_range (rs_span s) -> encode_v2 int_text float_text maxlen s = Ok z ->
  zipkin_read maxlen (rs_span s) z
  /\ nth_error kind_names (Z.to_nat (sp_kind (rs_span s))) = Some (z_kind z) /\ (0 <= sp_kind (rs_span s))%Z.
Proof. intros it ft maxlen s z H E. destruct (v2_read it ft maxlen s z H E) as (A & B & C & _). auto. Qed.
Print Assumptions C80_v2_span.

(** C80.  Every ended span can be encoded. *)
Theorem C80_v2_total : forall int_text float_text maxlen s st en,
  sp_start (rs_span s) = Some st -> sp_end (rs_span s) = Some en -> (0 <= sp_kind (rs_span s) <= 4)%Z ->
  exists z, encode_v2 int_text float_text maxlen s = Ok z.
Proof. exact v2_total. Qed.
Print Assumptions C80_v2_total.

Example C80_v2_example :
  ids_in_range (rs_span (zipkin_span PNone None)) /\
  exists z, encode_v2 (fun _ => []) (fun _ => []) None (zipkin_span PNone None) = Ok z
    /\ z_trace z = lit "00000000000000000000000000000005" /\ z_time z = 2%Z /\ z_duration z = 3%Z
    /\ z_kind z = Some (lit "SERVER") /\ z_parent z = Some (lit "0000000000000009") /\ length (z_annotations z) = 1%nat.
Proof.
  split.
  - split; [cbn; lia|]. split; [cbn; lia|]. intros p E. injection E as <-. cbn. lia.
  - eexists. split; [reflexivity|]. vm_compute. repeat split.
Qed.

(** C80.  With a maximal tag length set, v1 says the same as v2, with every tag cut to this length. *)
Theorem C80_v1_span_partial : forall int_text float_text z0 s z,
  ids_in_range (rs_span s) -> encode_v1 int_text float_text (Some z0) s = Ok z ->
  zipkin_read (Some z0) (rs_span s) z
  /\ forall z2, encode_v2 int_text float_text (Some z0) s = Ok z2 ->
       Forall2 (fun t u => fst u = fst t /\ snd u = option_map (shortened (Some z0)) (snd t)) (z_tags z2) (z_tags z).
Proof.
  intros it ft z0 s z H E. destruct (v1_read it ft z0 s z H E) as [A B]. split; [exact A|].
  intros z2 E2. rewrite (v2_tags_read _ _ _ _ _ E2). exact B.
Qed.
Print Assumptions C80_v1_span_partial.
Example C80_v1_example : exists z, encode_v1 (fun _ => []) (fun _ => []) (Some 3%Z) (zipkin_span (PStr false (lit "failed")) None) = Ok z
  /\ dget (lit "error") (z_tags z) = Some (Some (lit "fai")) /\ dget (lit "otel.scope.version") (z_tags z) = Some None.
Proof. eexists. split; [vm_compute; reflexivity|]. vm_compute. split; reflexivity. Qed.

(** C80.  Without one, which is the exporter's default, v1 raises for every span with an instrumentation scope. *)
Theorem C80_v1_default_refuted : forall int_text float_text s sc, rs_scope s = Some sc ->
  exists e, encode_v1 int_text float_text None s = Raises e.
Proof. exact v1_default_raises. Qed.
Print Assumptions C80_v1_default_refuted.
Example C80_v1_default_example : rs_scope (zipkin_span PNone None) = Some (Scope (lit "lib") None [] []).
Proof. reflexivity. Qed.

(** C80.  The protobuf encoder, when it does not raise, says the same in bytes, and every tag has a value. *)
Theorem C80_proto_span_partial : forall int_text float_text maxlen s p, encode_proto int_text float_text maxlen s = Some p ->
  let sp := rs_span s in
  is_bytes 16 (zp_trace p) /\ number_of_bytes (zp_trace p) = sc_trace_id (sp_ctx sp)
  /\ is_bytes 8 (zp_id p) /\ number_of_bytes (zp_id p) = sc_span_id (sp_ctx sp)
  /\ zp_name p = sp_name sp
  /\ (exists st en, sp_start sp = Some st /\ sp_end sp = Some en /\ rounded (zp_time p) st /\ rounded (zp_duration p) (en - st))
  /\ (0 <= sp_kind sp)%Z /\ nth_error [0; 2; 1; 3; 4]%Z (Z.to_nat (sp_kind sp)) = Some (zp_kind p)
  /\ (exists z, encode_v2 int_text float_text maxlen s = Ok z /\ z_tags z = map (fun kv => (fst kv, Some (snd kv))) (zp_tags p))
  /\ Forall2 (annotation_read maxlen) (bl_items (sp_events sp)) (zp_annotations p)
  /\ zp_debug p = Z.testbit (sc_flags (sp_ctx sp)) 0
  /\ match sp_parent sp, zp_parent p with
     | None, None => True
     | Some q, Some b => is_bytes 8 b /\ number_of_bytes b = sc_span_id q
     | _, _ => False
     end.
Proof.
  intros it ft maxlen s p E sp. destruct (proto_read it ft maxlen s p E) as (A1 & A2 & A3 & A4 & A5 & (st & en & Es & Ee & R) & A7 & A8 & A9).
  assert (K : (0 <= sp_kind sp <= 4)%Z).
  { pose proof (proto_kind it ft maxlen s p E) as K. exact K. }
  split; [exact A1|]. split; [exact A2|]. split; [exact A3|]. split; [exact A4|]. split; [exact A5|].
  split; [exists st, en; split; [exact Es|split; [exact Ee|exact R]]|]. split; [apply K|]. split; [exact A7|].
  split; [|exact A9]. destruct (v2_total it ft maxlen s st en Es Ee K) as [z Ez]. exists z. split; [exact Ez|].
  rewrite (v2_tags_read _ _ _ _ _ Ez). exact A8.
Qed.
Print Assumptions C80_proto_span_partial.
Example C80_proto_example : exists p, encode_proto (fun _ => []) (fun _ => []) None (zipkin_span PNone (Some (lit "1"))) = Some p
  /\ zp_id p = [0; 0; 0; 0; 0; 0; 0; 6]%N /\ zp_kind p = 2%Z /\ zp_parent p = Some [0; 0; 0; 0; 0; 0; 0; 9]%N.
Proof. eexists. split; [vm_compute; reflexivity|]. vm_compute. repeat split. Qed.

(** C80.  It does not raise if the span has ended, its identifiers and times fit, its texts are Unicode and every tag that
    v2 shows has a value. *)
Theorem C80_proto_total : forall int_text float_text maxlen s st en z,
  ids_in_range (rs_span s) -> sp_start (rs_span s) = Some st -> sp_end (rs_span s) = Some en ->
  (0 <= st <= en)%Z -> (en < 2 ^ 64)%Z -> (0 <= sp_kind (rs_span s) <= 4)%Z -> unicode_text (sp_name (rs_span s)) ->
  Forall (fun e => (0 <= ev_ts e < 2 ^ 64)%Z) (bl_items (sp_events (rs_span s))) ->
  encode_v2 int_text float_text maxlen s = Ok z ->
  Forall (fun kv => unicode_text (fst kv) /\ exists t, snd kv = Some t /\ unicode_text t) (z_tags z) ->
  exists p, encode_proto int_text float_text maxlen s = Some p.
Proof.
  intros it ft maxlen s st en z (I1 & I2 & I3) Hs He Ht Hb Hk Hn Hev Ez Htags. rewrite (v2_tags_read _ _ _ _ _ Ez) in Htags.
  unfold encode_proto, bind, encode_trace_id, encode_span_id. rewrite Hs, He.
  destruct (to_bytes_ex 16 (sc_trace_id (sp_ctx (rs_span s))) I1) as [b1 ->].
  destruct (to_bytes_ex 8 (sc_span_id (sp_ctx (rs_span s))) I2) as [b2 ->].
  rewrite (proj2 (pb_str_ok _ _) (conj eq_refl Hn)).
  assert (U : forall n, (0 <= n < 2 ^ 64)%Z -> pb_uint64 (usec n) = Some (usec n)).
  { intros n [L H]. unfold pb_uint64, pb_range, usec.
    assert (Q : (0 <= (n + 500) / 1000 <= 2 ^ 64 - 1)%Z).
    { split; [apply Z.div_pos; lia|]. apply Z.lt_le_pred. apply Z.div_lt_upper_bound; [lia|].
      change (2 ^ 64)%Z with 18446744073709551616%Z in *. lia. }
    rewrite (proj2 (Z.leb_le _ _) (proj1 Q)), (proj2 (Z.leb_le _ _) (proj2 Q)). reflexivity. }
  rewrite (U st) by lia. rewrite (U (en - st)%Z) by lia.
  destruct (kind_pb (sp_kind (rs_span s))) as [k|] eqn:Ek.
  2:{ exfalso. assert (K : (sp_kind (rs_span s) = 0 \/ sp_kind (rs_span s) = 1 \/ sp_kind (rs_span s) = 2 \/ sp_kind (rs_span s) = 3
        \/ sp_kind (rs_span s) = 4)%Z) by lia.
      destruct K as [E|[E|[E|[E|E]]]]; rewrite E in Ek; discriminate Ek. }
  match goal with |- context [map_opt ?f (tags_of_span _ _ _ _)] => destruct (proj1 (map_opt_ex f (tags_of_span it ft maxlen s))) as [tags ->] end.
  { eapply Forall_impl; [|exact Htags]. intros [k' v'] (Uk & t & Et & Ut). cbn [fst snd] in *. subst v'.
    rewrite (proj2 (pb_str_ok _ _) (conj eq_refl Uk)), (proj2 (pb_str_ok _ _) (conj eq_refl Ut)). eauto. }
  assert (P : exists pp, match sp_parent (rs_span s) with
            | None => Some None
            | Some p => match to_bytes 8 (sc_span_id p) with Some b => Some (Some b) | None => None end
            end = Some pp).
  { destruct (sp_parent (rs_span s)) as [q|]; [|eauto]. destruct (to_bytes_ex 8 (sc_span_id q) (I3 q eq_refl)) as [b3 ->]. eauto. }
  destruct P as [pp ->].
  match goal with |- context [map_opt ?f (annotations_of ?a ?b)] => destruct (proj1 (map_opt_ex f (annotations_of a b))) as [an ->] end.
  { apply Forall_forall. intros a Ha. unfold annotations_of in Ha. apply in_map_iff in Ha as (e & <- & He').
    cbn [an_time]. rewrite (U _ (proj1 (Forall_forall _ _) Hev e He')). eauto. }
  eauto.
Qed.
Print Assumptions C80_proto_total.
Example C80_proto_total_example : let s := zipkin_span PNone (Some (lit "1")) in
  ids_in_range (rs_span s) /\ (exists st en, sp_start (rs_span s) = Some st /\ sp_end (rs_span s) = Some en /\ (0 <= st <= en)%Z /\ (en < 2 ^ 64)%Z)
  /\ exists z, encode_v2 (fun _ => []) (fun _ => []) None s = Ok z
       /\ forallb (fun kv => match snd kv with Some _ => true | None => false end) (z_tags z) = true /\ length (z_tags z) = 10%nat.
Proof.
  split; [|split].
  - split; [cbn; lia|]. split; [cbn; lia|]. intros p E. injection E as <-. cbn. lia.
  - eexists _, _. split; [reflexivity|]. split; [reflexivity|]. cbn. lia.
  - eexists. split; [vm_compute; reflexivity|]. vm_compute. split; reflexivity.
Qed.

(** C80.  It raises, for the whole batch, if the scope of a span has no version. *)
Theorem C80_proto_version_refuted : forall int_text float_text maxlen s sc,
  rs_scope s = Some sc -> sco_version sc = None -> encode_proto int_text float_text maxlen s = None.
Proof. exact proto_needs_version. Qed.
Print Assumptions C80_proto_version_refuted.

(** C81.  An export call posts one payload with exactly the encoding of its spans, in order, and succeeds if and only
    if the collector answers 200 or 202; if a span cannot be encoded nothing is posted. *)
Theorem C81_export_partial : forall enc e l r, ze_closed e = false ->
  let '(p, x, e1) := zexport enc e l r in
  ze_closed e1 = false
  /\ ((exists svc zs, p = Some (svc, zs) /\ Forall2 (fun s z => enc s = Ok z) l zs
       /\ x = match r with Status c => Ok ((c =? 200)%Z || (c =? 202)%Z) | Fails ex => Raises ex end)
      \/ (p = None /\ (exists ex, x = Raises ex) /\ exists s ex, In s l /\ enc s = Raises ex)).
Proof.
  intros enc e l r He. unfold zexport. rewrite He.
  set (e1 := match l with [] => e | s :: _ => _ end).
  assert (H1 : ze_closed e1 = false).
  { unfold e1. destruct l as [|s l]; [exact He|]. destruct (dget (lit "service.name") (r_attrs (rs_resource s))); [|exact He].
    destruct (Model_Span.truthy p); [reflexivity|exact He]. }
  destruct (encode_each enc l) as [zs|ex] eqn:E; (split; [exact H1|]).
  - left. exists (ze_service e1), zs. split; [reflexivity|]. split; [apply encode_each_Forall2, E|reflexivity].
  - right. split; [reflexivity|]. split; [eauto|]. revert E. clear. revert ex.
    induction l as [|s l IH]; intros ex E; cbn [encode_each] in E; [discriminate|].
    destruct (enc s) as [z|ex'] eqn:Es; [|exists s, ex'; split; [left; reflexivity|exact Es]].
    destruct (encode_each enc l) as [zs|ex'']; [discriminate|]. destruct (IH ex'' eq_refl) as (s' & x' & H1 & H2).
    exists s', x'. split; [right; exact H1|exact H2].
Qed.
Print Assumptions C81_export_partial.

(** C81.  After shutdown nothing is posted any more and every export returns FAILURE, whatever the history. *)
Theorem C81_shutdown : forall enc e h1 h2,
  posts enc e (h1 ++ ZShutdown :: h2) = posts enc e h1
  /\ results enc e (h1 ++ ZShutdown :: h2) = results enc e h1 ++ repeat (Ok false) (exports_in h2).
Proof. exact after_shutdown. Qed.
Print Assumptions C81_shutdown.

Example C81_example :
  let enc := encode_v2 (fun _ => []) (fun _ => []) None in
  let e := ZExp (PStr false (lit "unknown_service")) false in
  let h := [ZExport [zipkin_span PNone None; zipkin_span PNone None] (Status 202); ZExport [] (Status 500); ZShutdown;
            ZExport [zipkin_span PNone None] (Status 200)] in
  map (fun p => (fst p, length (snd p))) (posts enc e h)
    = [(PStr false (lit "svc"), 2%nat); (PStr false (lit "svc"), 0%nat)]
  /\ results enc e h = [Ok true; Ok false; Ok false].
Proof. vm_compute. split; reflexivity. Qed.

(** C81.  The payload names one service: a batch with spans of two resources attributes all of them to the first. *)
Theorem C81_service_refuted : exists enc e s1 s2 zs,
  dget (lit "service.name") (r_attrs (rs_resource s2)) = Some (PStr false (lit "other"))
  /\ posts enc e [ZExport [s1; s2] (Status 200)] = [(PStr false (lit "svc"), zs)] /\ length zs = 2%nat.
Proof.
  exists (encode_v2 (fun _ => []) (fun _ => []) None), (ZExp PNone false), (zipkin_span PNone None),
    (RSpan (rs_span (zipkin_span PNone None)) (Res [(lit "service.name", PStr false (lit "other"))] []) None).
  eexists. split; [reflexivity|]. split; vm_compute; reflexivity.
Qed.
Print Assumptions C81_service_refuted.
