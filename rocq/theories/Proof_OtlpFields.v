(** Proofs for C67-C69: the fields of spans, log records and metrics. *)
From Verif Require Import Spec_Otlp Proof_Url Proof_Attr Proof_Dict Proof_Otlp Proof_Resource.
From Coq Require Import Lia.
Local Open Scope Z_scope.

Ltac fields :=
  repeat match goal with
         | H : pb_str _ = Some _ |- _ => apply pb_str_ok in H; destruct H as [-> H]
         | H : pb_uint64 _ = Some _ |- _ => apply pb_uint64_ok in H; destruct H as [-> H]
         | H : pb_uint32 _ = Some _ |- _ => apply pb_uint32_ok in H; destruct H as [-> H]
         | H : pb_sint32 _ = Some _ |- _ => apply pb_sint32_ok in H; destruct H as [-> H]
         | H : encode_trace_id _ = Some _ |- _ => apply trace_id_some in H
         | H : encode_span_id _ = Some _ |- _ => apply span_id_some in H
         end.
Lemma pb_opt64 o x : pb_opt pb_uint64 0 o = Some x -> x = or_zero o /\ opt_fits 64 o.
Proof. destruct o; cbn; intros H; [fields; auto|injection H as <-; auto]. Qed.
Lemma pb_opt_text o x : pb_opt pb_str [] o = Some x -> x = or_empty o /\ opt_text o.
Proof. destruct o; cbn; intros H; [fields; auto|injection H as <-; auto]. Qed.
Lemma pb_opt64_ex o : opt_fits 64 o -> exists x, pb_opt pb_uint64 0 o = Some x.
Proof. destruct o; cbn; eauto. intros. exists z. now apply pb_uint64_ok. Qed.
Lemma pb_opt_text_ex o : opt_text o -> exists x, pb_opt pb_str [] o = Some x.
Proof. destruct o; cbn; eauto. intros. exists s. now apply pb_str_ok. Qed.
Ltac run_ok lem := let Q := fresh in match goal with |- context [bind ?e _] => assert (Q : e = Some _) by (apply lem; split; [reflexivity|assumption]); rewrite Q; cbn [bind] end.
Ltac run_ex lem := let Q := fresh in let x := fresh in
  match goal with |- context [bind ?e _] => assert (Q : exists x, e = Some x) by (apply lem; assumption); destruct Q as [x Q]; rewrite Q; cbn [bind] end.

Lemma flags_ok c : remote_flags (match c with Some c => sc_is_remote c | None => false end) (span_flags c).
Proof. destruct c as [c|]; cbn; [destruct (sc_is_remote c)|]; split; reflexivity. Qed.
Lemma encode_event_read e p : encode_event e = Some p ->
  event_read e p /\ unicode_text (ev_name e) /\ fits 64 (ev_ts e) /\ count_fits (ba_dropped (ev_attrs e)).
Proof.
  unfold encode_event. intros H. chain H. injection H as <-. fields. split; [|auto].
  split; [|split; [|split]]; cbn; auto using encode_attributes_read.
Qed.
Lemma encode_event_ex e : unicode_text (ev_name e) /\ fits 64 (ev_ts e) /\ count_fits (ba_dropped (ev_attrs e)) -> exists p, encode_event e = Some p.
Proof. intros (A & B & C). unfold encode_event. run_ok pb_str_ok. run_ok pb_uint64_ok. run_ok pb_uint32_ok. eauto. Qed.
Lemma encode_link_read l p : encode_link l = Some p ->
  link_read l p /\ fits 128 (sc_trace_id (lk_ctx l)) /\ fits 64 (sc_span_id (lk_ctx l)) /\ count_fits (ba_dropped (lk_attrs l)).
Proof.
  unfold encode_link. intros H. chain H. injection H as <-. fields. split; [|intuition].
  split; [exact (proj2 E)|]. split; [exact (proj2 E0)|]. split; [apply encode_attributes_read|]. split; [reflexivity|]. apply (flags_ok (Some (lk_ctx l))).
Qed.
Lemma encode_link_ex l : fits 128 (sc_trace_id (lk_ctx l)) /\ fits 64 (sc_span_id (lk_ctx l)) /\ count_fits (ba_dropped (lk_attrs l)) ->
  exists p, encode_link l = Some p.
Proof. intros (A & B & C). unfold encode_link. run_ex trace_id_ex. run_ex span_id_ex. run_ok pb_uint32_ok. eauto. Qed.
Lemma encode_status_read st x : encode_status st = Some x ->
  fst x = code_number (st_code st) /\ description_read (st_desc st) (snd x) /\ description_ok (st_desc st).
Proof.
  unfold encode_status. intros H. chain H. injection H as <-. cbn [fst snd]. split; [reflexivity|].
  destruct (st_desc st); cbn in *; try discriminate.
  - now injection E as <-.
  - fields. auto.
  - apply strict_decode_spec in E. split; [exact E|eauto].
Qed.
Lemma encode_status_ex st : description_ok (st_desc st) -> exists x, encode_status st = Some x.
Proof.
  unfold encode_status. destruct (st_desc st) as [|b|b z|b z|b s|b y|b l|n]; cbn; try contradiction.
  - eauto.
  - intros U. assert (Q : pb_str s = Some s) by (now apply pb_str_ok). rewrite Q. cbn. eauto.
  - intros [s E]. apply strict_decode_spec in E. rewrite E. cbn. eauto.
Qed.
Lemma map_opt_read {A B} (f : A -> option B) (R : A -> B -> Prop) (P : A -> Prop) l ys :
  (forall x y, f x = Some y -> R x y /\ P x) -> map_opt f l = Some ys -> Forall2 R l ys /\ Forall P l.
Proof.
  intros H E. apply map_opt_some in E. induction E; [split; constructor|]. apply H in H0. destruct IHE. split; constructor; tauto.
Qed.
Lemma map_opt_ok {A B} (f : A -> option B) (P : A -> Prop) l : (forall x, P x -> exists y, f x = Some y) -> Forall P l -> exists ys, map_opt f l = Some ys.
Proof. intros H F. apply map_opt_ex. eapply Forall_impl; [|exact F]. exact H. Qed.

Lemma encode_span_ok s p : encode_span s = Some p -> span_read s p /\ span_encodable s.
Proof.
  unfold encode_span. intros H. chain H. injection H as <-.
  apply (map_opt_read _ _ _ _ _ encode_event_read) in E7. apply (map_opt_read _ _ _ _ _ encode_link_read) in E8.
  apply encode_status_read in E9. apply pb_opt64 in E5, E6. unfold encode_trace_state in E1. fields.
  assert (K : x4 = sp_kind s + 1 /\ 0 <= sp_kind s <= 4).
  { unfold span_kind_map in E4. destruct ((0 <=? sp_kind s) && (sp_kind s <=? 4)) eqn:Q; [|discriminate]. injection E4 as <-.
    apply andb_true_iff in Q. destruct Q as [A B]. apply Z.leb_le in A, B. lia. }
  assert (Pa : id_read 8 (option_map sc_span_id (sp_parent s)) x2 /\ opt_fits 64 (option_map sc_span_id (sp_parent s))).
  { destruct (sp_parent s); cbn in E2 |- *; [fields; cbn in E2; tauto|injection E2 as <-; auto]. }
  destruct E as [Ea Eb], E0 as [Ec Ed], Pa as [Pa Pb], K as [Ka Kb], E5 as [E5 E5b], E6 as [E6 E6b], E7 as [E7 E7b], E8 as [E8 E8b], E9 as (E9 & E9b & E9c).
  split.
  - unfold span_read. cbn [pb_trace_id pb_span_id pb_parent pb_state pb_flags pb_name pb_kind pb_start pb_end pb_status_code
      pb_status_message pb_attrs pb_dropped_attrs pb_events pb_dropped_events pb_links pb_dropped_links].
    split; [|split].
    + split; [exact Eb|]. split; [exact Ed|]. split; [exact Pa|]. split; [reflexivity|apply flags_ok].
    + split; [reflexivity|]. split; [exact Ka|]. split; [exact E5|]. split; [exact E6|]. split; [exact E9|exact E9b].
    + split; [apply encode_attributes_read|]. split; [reflexivity|]. split; [exact E7|]. split; [reflexivity|]. split; [exact E8|reflexivity].
  - unfold span_encodable. split; [|split; [|split; [|split]]]; try assumption.
    + split; [exact Ea|]. split; [exact Ec|]. split; [exact Pb|exact E1].
    + split; [exact E3|]. split; [exact Kb|]. split; [exact E5b|]. split; [exact E6b|exact E9c].
    + split; [|split]; assumption.
Qed.
Lemma encode_span_ex s : span_encodable s -> exists p, encode_span s = Some p.
Proof.
  intros ((A1 & A2 & A3 & A4) & (B1 & B2 & B3 & B4 & B5) & C & D & E1 & E2 & E3). unfold encode_span, encode_trace_state.
  run_ex trace_id_ex. run_ex span_id_ex.
  assert (Q : pb_str (ts_to_header (sc_state (sp_ctx s))) = Some (ts_to_header (sc_state (sp_ctx s)))) by (now apply pb_str_ok).
  change (join [44%N] (map (fun kv => fst kv ++ [61%N] ++ snd kv) (sc_state (sp_ctx s)))) with (ts_to_header (sc_state (sp_ctx s))).
  rewrite Q. cbn [bind].
  assert (Q2 : exists x, match sp_parent s with Some c => encode_span_id (sc_span_id c) | None => Some [] end = Some x).
  { destruct (sp_parent s); [now apply span_id_ex|eauto]. }
  destruct Q2 as [x Q2]. rewrite Q2. cbn [bind]. run_ok pb_str_ok.
  assert (Q3 : span_kind_map (sp_kind s) = Some (sp_kind s + 1)).
  { unfold span_kind_map. replace ((0 <=? sp_kind s) && (sp_kind s <=? 4)) with true; [reflexivity|]. symmetry. apply andb_true_iff.
    split; apply Z.leb_le; lia. }
  rewrite Q3. cbn [bind]. run_ex pb_opt64_ex. run_ex pb_opt64_ex.
  destruct (map_opt_ok _ _ _ encode_event_ex C) as [ev ->]. cbn [bind].
  destruct (map_opt_ok _ _ _ encode_link_ex D) as [lk ->]. cbn [bind].
  run_ex encode_status_ex. run_ok pb_uint32_ok. run_ok pb_uint32_ok. run_ok pb_uint32_ok. eauto.
Qed.

Lemma encode_log_ok r p : encode_log r = Some p -> log_read r p /\ log_encodable r.
Proof.
  unfold encode_log. intros H. chain H. injection H as <-. apply pb_opt64 in E3, E4. apply pb_opt_text in E8. fields.
  destruct (proj1 (encode_value_ok true (lr_body r)) _ E7) as [Cb Rb].
  assert (I1 : log_id_read 8 (Some x) x0 /\ fits 64 x).
  { destruct (Z.eqb_spec x 0) as [->|N]; [injection E0 as <-; split; [reflexivity|unfold fits; lia]|]. fields. cbn. cbn in E0. destruct x; tauto. }
  assert (I2 : log_id_read 16 (Some x1) x2 /\ fits 128 x1).
  { destruct (Z.eqb_spec x1 0) as [->|N]; [injection E2 as <-; split; [reflexivity|unfold fits; lia]|]. fields. cbn. cbn in E2. destruct x1; tauto. }
  destruct I1, I2, E3, E4, E8. split.
  - unfold log_read. rewrite E, E1, E5, E10. cbn [pbl_trace_id pbl_span_id pbl_flags pbl_time pbl_observed pbl_severity pbl_severity_text pbl_body pbl_attrs pbl_dropped].
    split; [auto|]. split; [assumption|]. split; [assumption|]. split; [reflexivity|]. split; [assumption|]. split; [exact Rb|].
    split; [apply encode_attributes_read|reflexivity].
  - unfold log_encodable. rewrite E, E1, E5, E10. split; [|auto]. split; [eauto|]. split; [eauto|]. split; eauto.
Qed.
Lemma encode_log_ex r : log_encodable r -> exists p, encode_log r = Some p.
Proof.
  intros (((t & Ht & Ft) & (i & Hi & Fi) & (f & Hf & Ff) & (v & Hv & Fv)) & A & B & C & D & F). unfold encode_log.
  rewrite Hi. cbn [bind].
  assert (Q1 : exists x, (if Z.eqb i 0 then Some [] else encode_span_id i) = Some x) by (destruct (Z.eqb i 0); [eauto|now apply span_id_ex]).
  destruct Q1 as [x1 ->]. cbn [bind]. rewrite Ht. cbn [bind].
  assert (Q1 : exists x, (if Z.eqb t 0 then Some [] else encode_trace_id t) = Some x) by (destruct (Z.eqb t 0); [eauto|now apply trace_id_ex]).
  destruct Q1 as [x2 ->]. cbn [bind]. run_ex pb_opt64_ex. run_ex pb_opt64_ex. rewrite Hf. cbn [bind]. run_ok pb_uint32_ok.
  destruct (proj2 (encode_value_ok true (lr_body r)) D) as [b ->]. cbn [bind].
  run_ex pb_opt_text_ex. run_ok pb_uint32_ok. rewrite Hv. cbn [bind]. run_ok pb_sint32_ok. eauto.
Qed.

(** ** Metrics *)
Section Metrics.
Variable to_float : Z -> option Z.
Lemma pb_double_read n f : pb_double to_float n = Some f -> double_read to_float n f.
Proof. destruct n; cbn; [auto|]. intros H. now injection H as <-. Qed.
Lemma opt_double_read_ok o p : opt_double to_float o = Some p -> opt_double_read to_float o p.
Proof.
  destruct o; cbn; intros H; [|now injection H as <-]. chain H. injection H as <-. now apply pb_double_read.
Qed.
Lemma pb_number_read n m : pb_number n = Some m -> m = n.
Proof. destruct n; cbn; intros H; [|now injection H as <-]. chain H. injection H as <-. apply pb_int64_ok in E. destruct E as [-> _]. reflexivity. Qed.
Lemma encode_exemplar_read e p : encode_exemplar e = Some p -> exemplar_read e p.
Proof.
  unfold encode_exemplar, exemplar_read. intros H. chain H. injection H as <-. fields. apply pb_number_read in E1. subst. cbn [px_attrs px_time px_value px_span px_trace].
  split; [apply encode_attributes_read|]. split; [reflexivity|]. split; [reflexivity|].
  destruct (ex_span e), (ex_trace e); try (injection E0 as <-; auto). chain E0. injection E0 as <-. fields. cbn [fst snd]. tauto.
Qed.
Lemma map_opt_read1 {A B} (f : A -> option B) (R : A -> B -> Prop) l ys :
  (forall x y, f x = Some y -> R x y) -> map_opt f l = Some ys -> Forall2 R l ys.
Proof. intros H E. apply map_opt_some in E. induction E; constructor; auto. Qed.
Lemma map_opt_id {A} (f : A -> option A) l ys : (forall x y, f x = Some y -> y = x) -> map_opt f l = Some ys -> ys = l.
Proof. intros H E. apply map_opt_some in E. induction E; [reflexivity|]. apply H in H0. congruence. Qed.
Lemma uint64_id x y : pb_uint64 x = Some y -> y = x. Proof. intros H. fields. reflexivity. Qed.
Lemma encode_num_read b d p : encode_num b d = Some p -> num_read b d p.
Proof.
  unfold encode_num, num_read. intros H. chain H. injection H as <-. fields. apply pb_number_read in E2. subst. cbn [pn_attrs pn_start pn_time pn_value pn_exemplars].
  split; [apply encode_attributes_read|]. split; [|split; [reflexivity|split; [reflexivity|]]].
  - destruct b; [apply pb_opt64 in E; tauto|now injection E as <-].
  - eapply map_opt_read1; [exact encode_exemplar_read|exact E1].
Qed.
Lemma encode_hist_read d p : encode_hist to_float d = Some p -> hist_read to_float d p.
Proof.
  unfold encode_hist, hist_read. intros H. chain H. injection H as <-. apply pb_opt64 in E0. destruct E0 as [-> _].
  apply (map_opt_id _ _ _ uint64_id) in E4. fields.
  cbn [ph_attrs ph_start ph_time ph_count ph_sum ph_buckets ph_bounds ph_exemplars ph_min ph_max].
  split; [apply encode_attributes_read|]. split; [reflexivity|]. split; [reflexivity|]. split; [reflexivity|].
  split; [now apply pb_double_read|]. split; [exact E4|]. split; [eapply map_opt_read1; [exact pb_double_read|exact E5]|].
  split; [eapply map_opt_read1; [exact encode_exemplar_read|exact E1]|]. split; now apply opt_double_read_ok.
Qed.
Lemma encode_buckets_read b p : encode_buckets b = Some p -> buckets_read b p.
Proof.
  unfold encode_buckets, buckets_read. destruct b as [o [|c cs]]; cbn [eb_counts eb_offset]; intros H; [now injection H as <-|].
  chain H. injection H as <-. apply (map_opt_id _ _ _ uint64_id) in E0. fields. subst. reflexivity.
Qed.
Lemma encode_exp_read d p : encode_exp to_float d = Some p -> exp_read to_float d p.
Proof.
  unfold encode_exp, exp_read. intros H. chain H. injection H as <-. apply pb_opt64 in E2. destruct E2 as [-> _].
  fields. cbn [px_at px_start px_ti px_count px_sum px_scale px_zero px_pos px_neg px_flags px_exemplars px_min px_max].
  split; [apply encode_attributes_read|]. split; [reflexivity|]. split; [reflexivity|]. split; [reflexivity|].
  split; [now apply pb_double_read|]. split; [reflexivity|]. split; [reflexivity|]. split; [now apply encode_buckets_read|].
  split; [now apply encode_buckets_read|]. split; [reflexivity|].
  split; [eapply map_opt_read1; [exact encode_exemplar_read|exact E3]|]. split; now apply opt_double_read_ok.
Qed.
Lemma encode_data_read d p : encode_data to_float d = Some p -> data_read to_float d p.
Proof.
  destruct d; cbn [encode_data data_read]; intros H.
  - chain H. apply (map_opt_read1 _ _ _ _ (encode_num_read false)) in E. destruct E; injection H as <-; [reflexivity|]. eexists. split; [reflexivity|now constructor].
  - chain H. apply (map_opt_read1 _ _ _ _ (encode_num_read true)) in E. destruct E; injection H as <-; [reflexivity|]. eexists. split; [reflexivity|now constructor].
  - chain H. apply (map_opt_read1 _ _ _ _ encode_hist_read) in E. destruct E; injection H as <-; [reflexivity|]. eexists. split; [reflexivity|now constructor].
  - chain H. apply (map_opt_read1 _ _ _ _ encode_exp_read) in E. destruct E; injection H as <-; [reflexivity|]. eexists. split; [reflexivity|now constructor].
  - now injection H as <-.
Qed.
Lemma encode_metric_read m p : encode_metric to_float m = Some p -> metric_read to_float m p.
Proof.
  unfold encode_metric, metric_read. intros H. chain H. injection H as <-. apply pb_opt_text in E0, E1. fields. cbn [pm_name pm_descr pm_unit pm_data].
  split; [reflexivity|]. split; [tauto|]. split; [tauto|]. now apply encode_data_read.
Qed.
Lemma encode_scope_metrics_read sm g : encode_scope_metrics to_float sm = Some g -> scope_metrics_read to_float sm g.
Proof.
  unfold encode_scope_metrics, scope_metrics_read. intros H. chain H. injection H as <-. cbn [pg_items]. split.
  - apply encode_scope_read; [exact E|]. exact E0.
  - eapply map_opt_read1; [exact encode_metric_read|exact E1].
Qed.
Lemma pb_number_ex n : number_ok n -> exists m, pb_number n = Some m.
Proof. destruct n; cbn; [|eauto]. intros H. assert (Q : pb_int64 z = Some z) by (now apply pb_int64_ok). rewrite Q. cbn. eauto. Qed.
Lemma pb_double_ex n : double_ok to_float n -> exists m, pb_double to_float n = Some m.
Proof. destruct n; cbn; [auto|eauto]. Qed.
Lemma opt_double_ex o : opt_double_ok to_float o -> exists m, opt_double to_float o = Some m.
Proof. destruct o; cbn; [|eauto]. intros H. destruct (pb_double_ex _ H) as [m ->]. cbn. eauto. Qed.
Lemma encode_exemplar_ex e : exemplar_ok e -> exists p, encode_exemplar e = Some p.
Proof.
  intros (A & B & C & D). unfold encode_exemplar. run_ok pb_uint64_ok.
  assert (Q : exists ids, match ex_span e, ex_trace e with
              | Some s, Some t => let? s := encode_span_id s in let? t := encode_trace_id t in Some (s, t)
              | _, _ => Some ([], [])
              end = Some ids).
  { destruct (ex_span e), (ex_trace e); eauto. cbn in C, D. run_ex span_id_ex. run_ex trace_id_ex. eauto. }
  destruct Q as [ids ->]. cbn [bind]. run_ex pb_number_ex. eauto.
Qed.
Lemma encode_num_ex b d : num_ok d -> exists p, encode_num b d = Some p.
Proof.
  intros (A & B & C & D). unfold encode_num.
  assert (Q : exists x, (if b then pb_opt pb_uint64 0 (n_start d) else Some 0) = Some x) by (destruct b; [now apply pb_opt64_ex|eauto]).
  destruct Q as [x ->]. cbn [bind]. run_ok pb_uint64_ok. destruct (map_opt_ok _ _ _ encode_exemplar_ex D) as [ex ->]. cbn [bind].
  run_ex pb_number_ex. eauto.
Qed.
Lemma uint64_ex x : fits 64 x -> exists y, pb_uint64 x = Some y. Proof. intros. exists x. now apply pb_uint64_ok. Qed.
Lemma encode_hist_ex d : hist_ok to_float d -> exists p, encode_hist to_float d = Some p.
Proof.
  intros ((A1 & A2 & A3 & A4) & (B1 & B2 & B3 & B4) & C). unfold encode_hist. run_ok pb_uint64_ok. run_ex pb_opt64_ex.
  destruct (map_opt_ok _ _ _ encode_exemplar_ex C) as [ex ->]. cbn [bind]. run_ok pb_uint64_ok. run_ex pb_double_ex.
  destruct (map_opt_ok _ _ _ uint64_ex A4) as [bs ->]. cbn [bind]. destruct (map_opt_ok _ _ _ pb_double_ex B2) as [bo ->]. cbn [bind].
  run_ex opt_double_ex. run_ex opt_double_ex. eauto.
Qed.
Lemma encode_buckets_ex b : buckets_ok b -> exists p, encode_buckets b = Some p.
Proof.
  destruct b as [o [|c cs]]; unfold encode_buckets; cbn [eb_counts eb_offset]; [eauto|]. intros [A B]. cbn [eb_counts eb_offset] in A, B. run_ok pb_sint32_ok.
  destruct (map_opt_ok _ _ _ uint64_ex B) as [bs ->]. cbn. eauto.
Qed.
Lemma encode_exp_ex d : exp_ok to_float d -> exists p, encode_exp to_float d = Some p.
Proof.
  intros ((A1 & A2 & A3 & A4 & A5) & (B1 & B2 & B3) & (C1 & C2 & C3) & D). unfold encode_exp. run_ex encode_buckets_ex. run_ex encode_buckets_ex.
  run_ok pb_uint64_ok. run_ex pb_opt64_ex. destruct (map_opt_ok _ _ _ encode_exemplar_ex D) as [ex ->]. cbn [bind]. run_ok pb_uint64_ok.
  run_ex pb_double_ex. run_ok pb_sint32_ok. run_ok pb_uint64_ok. run_ok pb_uint32_ok. run_ex opt_double_ex. run_ex opt_double_ex. eauto.
Qed.
Lemma encode_data_ex d : data_ok to_float d -> exists p, encode_data to_float d = Some p.
Proof.
  destruct d; cbn [data_ok encode_data]; intros H.
  - destruct (map_opt_ok _ _ _ (encode_num_ex false) H) as [ps ->]. cbn. eauto.
  - destruct (map_opt_ok _ _ _ (encode_num_ex true) H) as [ps ->]. cbn. eauto.
  - destruct (map_opt_ok _ _ _ encode_hist_ex H) as [ps ->]. cbn. eauto.
  - destruct (map_opt_ok _ _ _ encode_exp_ex H) as [ps ->]. cbn. eauto.
  - eauto.
Qed.
Lemma encode_metric_ex m : metric_ok to_float m -> exists p, encode_metric to_float m = Some p.
Proof.
  intros (A & B & C & D). unfold encode_metric. run_ok pb_str_ok. run_ex pb_opt_text_ex. run_ex pb_opt_text_ex. run_ex encode_data_ex. eauto.
Qed.
Lemma encode_scope_metrics_ex sm : scope_encodable (Some (fst sm)) /\ Forall (metric_ok to_float) (snd sm) -> exists g, encode_scope_metrics to_float sm = Some g.
Proof.
  intros [A B]. unfold encode_scope_metrics. apply encode_scope_ex in A. destruct A as [[p ->] [u Q]]. cbn [bind]. cbn in Q. rewrite Q. cbn [bind].
  destruct (map_opt_ok _ _ _ encode_metric_ex B) as [ms ->]. cbn. eauto.
Qed.
(** Keys that are new are appended. *)
Lemma at_key_new {K V} (same : K -> K -> bool) k (new : V) f d : (forall x, In x d -> same (fst x) k = false) -> at_key same k new f d = d ++ [(k, f new)].
Proof.
  induction d as [|[k' v] d IH]; intros H; cbn; [reflexivity|]. pose proof (H (k', v) (or_introl eq_refl)) as Q. cbn in Q. rewrite Q. f_equal. apply IH. intros; apply H; now right.
Qed.
Section Same.
Variable same_res : resource -> resource -> bool.
Variable same_sco : scope -> scope -> bool.
Lemma different_app {A} (same : A -> A -> bool) l x m : all_different same (l ++ x :: m) -> (forall y, In y l -> same y x = false).
Proof.
  induction l as [|z l IH]; cbn; intros H y I; [destruct I|]. inversion H; subst. destruct I as [->|I]; [|now apply IH].
  rewrite Forall_forall in H2. apply H2, in_or_app. cbn. auto.
Qed.
Lemma scope_dict_ok l : forall d g, all_different same_sco (map fst d ++ map fst l) -> scope_dict to_float same_sco l d = Some g ->
  exists gs, map snd g = map snd d ++ gs /\ Forall2 (scope_metrics_read to_float) l gs.
Proof.
  induction l as [|sm l IH]; intros d g D H; cbn in H.
  - injection H as <-. exists []. rewrite app_nil_r. split; [reflexivity|constructor].
  - chain H. rewrite at_key_new in H.
    + assert (D2 : all_different same_sco (map fst (d ++ [(fst sm, x)]) ++ map fst l)) by (rewrite map_app, <- app_assoc; exact D).
      destruct (IH _ _ D2 H) as (gs & Eq & F).
      exists (x :: gs). split; [rewrite Eq, map_app, <- app_assoc; reflexivity|]. constructor; [now apply encode_scope_metrics_read|exact F].
    + intros y I. eapply different_app; [exact D|]. now apply in_map.
Qed.
Lemma resource_dict_ok l : forall d g, all_different same_res (map fst d ++ map fst l) ->
  Forall (fun rm => all_different same_sco (map fst (snd rm))) l -> resource_dict to_float same_res same_sco l d = Some g ->
  exists gs, g = d ++ gs /\ Forall2 (fun rm x => fst x = fst rm /\ Forall2 (scope_metrics_read to_float) (snd rm) (snd x)) l gs.
Proof.
  induction l as [|[r sms] l IH]; intros d g D S H; cbn in H.
  - injection H as <-. exists []. rewrite app_nil_r. split; [reflexivity|constructor].
  - chain H. inversion S; subst. rewrite at_key_new in H.
    + assert (D2 : all_different same_res (map fst (d ++ [(r, map snd x)]) ++ map fst l)) by (rewrite map_app, <- app_assoc; exact D).
      destruct (IH _ _ D2 H3 H) as (gs & Eq & F).
      exists ((r, map snd x) :: gs). split; [rewrite Eq, <- app_assoc; reflexivity|]. constructor; [|exact F]. cbn [fst snd]. split; [reflexivity|].
      destruct (scope_dict_ok sms [] x H2 E) as (gs' & Eq' & F'). cbn in Eq'. now rewrite Eq'.
    + intros y I. eapply different_app; [exact D|]. now apply in_map.
Qed.
Theorem encode_metrics_ok l req : all_different same_res (map fst l) -> Forall (fun rm => all_different same_sco (map fst (snd rm))) l ->
  encode_metrics to_float same_res same_sco l = Some req -> Forall2 (resource_metrics_read to_float) l req.
Proof.
  intros D S H. unfold encode_metrics in H. chain H. destruct (resource_dict_ok l [] x D S E) as (gs & Eq & F). cbn in Eq. subst x. clear E.
  apply map_opt_some in H. revert req H. induction F as [|rm x l gs [Ex Fx] F IH]; intros req H; inversion H; subst; constructor.
  - chain H2. injection H2 as <-. fields. rewrite Ex. split; [split; [apply encode_attributes_read|reflexivity]|exact Fx].
  - apply IH; auto. now inversion D. now inversion S.
Qed.
Lemma scope_dict_ex l : Forall (fun sm => scope_encodable (Some (fst sm)) /\ Forall (metric_ok to_float) (snd sm)) l ->
  forall d, exists g, scope_dict to_float same_sco l d = Some g.
Proof.
  induction 1 as [|sm l H Hl IH]; intros d; cbn; [eauto|]. destruct (encode_scope_metrics_ex _ H) as [g ->]. cbn. apply IH.
Qed.
Lemma at_key_keys {K V} (same : K -> K -> bool) k (new : V) f d x : In x (map fst (at_key same k new f d)) -> x = k \/ In x (map fst d).
Proof.
  induction d as [|[k' v] d IH]; cbn; [intros [<-|[]]; auto|]. destruct (same k' k); cbn; intros [<-|H]; auto. destruct (IH H); auto.
Qed.
Lemma resource_dict_ex l : Forall (resource_metrics_ok to_float) l -> forall d, Forall resource_encodable (map fst d) ->
  exists g, resource_dict to_float same_res same_sco l d = Some g /\ Forall resource_encodable (map fst g).
Proof.
  induction 1 as [|[r sms] l [H1 H2] Hl IH]; intros d Hd; cbn; [eauto|]. destruct (scope_dict_ex sms H2 []) as [g ->]. cbn [bind]. apply IH.
  rewrite Forall_forall in *. intros x I. apply at_key_keys in I. destruct I as [->|I]; auto.
Qed.
Theorem encode_metrics_ex l : Forall (resource_metrics_ok to_float) l -> exists req, encode_metrics to_float same_res same_sco l = Some req.
Proof.
  intros H. unfold encode_metrics. destruct (resource_dict_ex l H [] (Forall_nil _)) as (g & -> & F). cbn [bind]. apply map_opt_ex.
  rewrite Forall_forall in *. intros x I. assert (Q : pb_str (r_schema (fst x)) = Some (r_schema (fst x))).
  { apply pb_str_ok. split; [reflexivity|]. apply F. now apply in_map. }
  rewrite Q. cbn. eauto.
Qed.
End Same.
End Metrics.

(** ** What [BoundedAttributes] keeps *)
Lemma clean_seq_prims l : forall first l', clean_seq first l None = Some l' -> Forall stored l'.
Proof.
  induction l as [|e l IH]; intros first l' H; cbn in H; [injection H as <-; constructor|].
  destruct (clean_value e None) as [e'|] eqn:Q.
  - assert (St : type_of e' <> TOther -> stored e') by (destruct e'; cbn; intros; constructor; auto; congruence).
    destruct (type_of e') eqn:T; try discriminate;
      (destruct first as [t0|]; [match type of H with (if ?c then _ else _) = _ => destruct c; [|discriminate] end|]);
      (match type of H with option_map _ ?c = _ => destruct c eqn:R; [|discriminate] end);
      injection H as <-; (constructor; [apply St; congruence|eapply IH; exact R]).
  - destruct (clean_seq first l None) eqn:R; [|discriminate]. injection H as <-. constructor; [now constructor|eapply IH; exact R].
Qed.
Lemma clean_stored k v w : clean_attribute k v None = Some w -> stored w.
Proof.
  unfold clean_attribute. destruct (valid_key k); [|discriminate]. destruct v; cbn; try discriminate.
  - intros H. injection H as <-. now constructor.
  - intros H. injection H as <-. now constructor.
  - intros H. injection H as <-. now constructor.
  - intros H. injection H as <-. now constructor.
  - destruct (strict_decode b); [|discriminate]. intros H. injection H as <-. now constructor.
  - destruct (clean_seq None l None) eqn:E; [|discriminate]. intros H. injection H as <-. apply sto_seq. eapply clean_seq_prims; exact E.
Qed.
Lemma res_new_kept attrs schema : kept_attrs (r_attrs (res_new attrs schema)).
Proof.
  destruct (res_new_ok attrs schema) as [N H]. split; [exact N|]. apply Forall_forall. intros [k v] I. destruct (H k v I) as [_ C].
  eapply clean_stored. exact C.
Qed.
