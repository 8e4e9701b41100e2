(** Proofs for C98. *)
From Verif Require Import Spec_Logging Proof_Logs Proof_Span Proof_Sampling Proof_Processor Proof_Batch Proof_Tracing Proof_Provider.
From Coq Require Import Lia.
Local Open Scope nat_scope.

(** ** Histories *)
Lemma traces_app h k : traces (h ++ k) = traces h ++ traces k.
Proof. unfold traces. apply flat_map_app. Qed.
Lemma logs_app h k : logs (h ++ k) = logs h + logs k.
Proof. unfold logs. now rewrite filter_app, app_length. Qed.
Lemma was_logged h : forall n, n < logs h -> exists c k, logged_by h n c k.
Proof.
  induction h as [|e h IH] using rev_ind; [cbn; lia|]. intros n L. rewrite logs_app in L.
  destruct (Nat.lt_ge_cases n (logs h)) as [K|K].
  - destruct (IH n K) as (c & k & b & l & -> & R). exists c, k, b, (l ++ [e]). rewrite <- app_assoc. auto.
  - unfold logs in L. cbn [filter] in L. destruct (is_log_call e) eqn:Q; [|cbn in L; unfold logs in K; lia].
    exists e, (starts (traces h)), h, []. split; [reflexivity|]. split; [exact Q|]. split; [cbn in L; unfold logs in *; lia|reflexivity].
Qed.

Section World.
Context {G : Type}.
Variable gt gs : G -> Z * G.
Variable tr : tracer.
Variable tres : resource.
Variable tmaxq tmaxb : nat.
Variable disabled : bool.
Variable res : resource.
Variable maxq maxb : nat.
Notation step := (lw_step gt gs tr tres tmaxq tmaxb res maxq maxb).
Notation run := (lw_run gt gs tr tres tmaxq tmaxb disabled res maxq maxb).
Notation trun := (tw_run gt gs tr tres tmaxq tmaxb).

Lemma lrun_snoc g h e : run g (h ++ [e]) = step (run g h) e.
Proof. unfold lw_run. now rewrite fold_left_app. Qed.
Lemma lrun_app g h k : run g (h ++ k) = fold_left step k (run g h).
Proof. unfold lw_run. now rewrite fold_left_app. Qed.

(** The tracing goes on as without the logging. *)
Lemma lrun_tr g h : lw_tr (run g h) = trun g (traces h).
Proof.
  induction h as [|e h IH] using rev_ind; [reflexivity|]. rewrite lrun_snoc, traces_app.
  assert (K : lw_tr (step (run g h) e) = fold_left (tw_step gt gs tr tres tmaxq tmaxb) (traces [e]) (lw_tr (run g h))).
  { destruct e as [e|f now p r|a now now2 p e|a x|n t|e]; cbn [lw_step traces flat_map app fold_left]; try reflexivity.
    - unfold log_call. destruct (ask res _ _). reflexivity.
    - unfold log_call. destruct (ask res _ _). reflexivity.
    - unfold log_call. destruct (ask res _ _). reflexivity.
    - destruct (nth_error (lw_logs (run g h)) n) as [[[d|] [|]]|]; try reflexivity. destruct (in_no_call _ _); reflexivity. }
  rewrite K, IH. unfold tw_run. now rewrite fold_left_app.
Qed.

(** A step keeps what the calls have made, and log calls add one. *)
Lemma step_logs w e : exists l, length l = logs [e] /\ exists hs, lw_logs (step w e) = hs ++ l /\ map fst hs = map fst (lw_logs w).
Proof.
  destruct e as [e|f now p r|a now now2 p e|a x|n t|e]; cbn [lw_step].
  - exists []. split; [reflexivity|]. exists (lw_logs w). now rewrite app_nil_r.
  - unfold log_call. destruct (ask res _ _). eexists [_]. split; [reflexivity|]. eexists. split; reflexivity.
  - unfold log_call. destruct (ask res _ _). eexists [_]. split; [reflexivity|]. eexists. split; reflexivity.
  - unfold log_call. destruct (ask res _ _). eexists [_]. split; [reflexivity|]. eexists. split; reflexivity.
  - exists []. split; [reflexivity|]. exists (lw_logs (step w (LHand n t))). split; [now rewrite app_nil_r|].
    cbn [lw_step]. destruct (nth_error (lw_logs w) n) as [[[d|] [|]]|] eqn:E; try reflexivity. destruct (in_no_call _ _); [|reflexivity].
    cbn [lw_logs]. clear -E. revert n E. induction (lw_logs w) as [|y l IH]; intros [|n] E; cbn in *; try reflexivity.
    + injection E as ->. reflexivity.
    + f_equal. now apply IH.
  - exists []. split; [reflexivity|]. exists (lw_logs w). now rewrite app_nil_r.
Qed.
Lemma lrun_length g h : length (lw_logs (run g h)) = logs h.
Proof.
  induction h as [|e h IH] using rev_ind; [reflexivity|]. rewrite lrun_snoc, logs_app.
  destruct (step_logs (run g h) e) as (l & L & hs & -> & E). rewrite app_length, L. apply (f_equal (@length _)) in E.
  rewrite !map_length in E. rewrite E, IH. reflexivity.
Qed.
Lemma later_logs k : forall w n o b, nth_error (lw_logs w) n = Some (o, b) -> exists b', nth_error (lw_logs (fold_left step k w)) n = Some (o, b').
Proof.
  induction k as [|e k IH]; intros w n o b E; [eauto|]. cbn [fold_left].
  destruct (step_logs w e) as (l & _ & hs & E1 & E2).
  assert (K : nth_error (map fst hs) n = Some o) by (rewrite E2; rewrite (map_nth_error fst _ _ E); reflexivity).
  assert (N : exists b', nth_error hs n = Some (o, b')).
  { clear -K. revert n K. induction hs as [|[o' b'] hs IH]; intros [|n] K; cbn in *; try discriminate; [injection K as ->; eauto|auto]. }
  destruct N as [b' N]. apply (IH _ n o b'). rewrite E1, nth_error_app1; [exact N|]. apply nth_error_Some. congruence.
Qed.

(** ** Disabled *)
Lemma disabled_prov g h : disabled = true -> lw_prov (run g h) = lp_new true /\ Forall (fun l => fst l = None) (lw_logs (run g h)).
Proof.
  intros DI. induction h as [|e h [IH IF]] using rev_ind; [split; [unfold lw_run; cbn; now rewrite DI|constructor]|]. rewrite lrun_snoc.
  assert (A : forall a, ask res a (lw_prov (run g h)) = (lp_new true, LNoOp)) by (intros a; unfold ask, get_logger; now rewrite IH).
  destruct e as [e|f now p r|a now now2 p e|a x|n t|e]; cbn [lw_step]; try (split; assumption).
  - unfold log_call. rewrite A. split; [reflexivity|]. apply Forall_app. split; [exact IF|]. repeat constructor.
  - unfold log_call. rewrite A. split; [reflexivity|]. apply Forall_app. split; [exact IF|]. repeat constructor.
  - unfold log_call. rewrite A. split; [reflexivity|]. apply Forall_app. split; [exact IF|]. repeat constructor.
  - destruct (nth_error (lw_logs (run g h)) n) as [[[d|] [|]]|] eqn:E; try (split; assumption).
    rewrite Forall_forall in IF. specialize (IF _ (nth_error_In _ _ E)). discriminate.
Qed.

(** ** What the calls make *)
Definition the_log (logs : list (option log_data * bool)) (n : nat) (d : log_data) : Prop := nth_error logs n = Some (Some d, true).
Notation lreach := (bsp_reach litem litem_sampled maxq maxb).
Lemma lrun_ninv g h : ninv log_data litem_sampled (the_log (lw_logs (run g h))) (lw_proc (run g h)) /\ lreach (lw_proc (run g h)).
Proof.
  induction h as [|e h [IH IR]] using rev_ind.
  { split; [|apply br_init]. apply ninv_init. intros n x E. unfold the_log in E. destruct n; discriminate. }
  rewrite lrun_snoc.
  assert (CALL : forall a f, let w := log_call res (run g h) a f in
            ninv log_data litem_sampled (the_log (lw_logs w)) (lw_proc w) /\ lreach (lw_proc w)).
  { intros a f. unfold log_call. destruct (ask res a (lw_prov (run g h))) as [p1 lg]. cbn [lw_logs lw_proc]. split; [|exact IR].
    eapply ninv_iff; [|exact IH]. intros n x. unfold the_log. destruct (Nat.lt_ge_cases n (length (lw_logs (run g h)))) as [K|K].
    - rewrite nth_error_app1 by exact K. tauto.
    - rewrite nth_error_app2 by exact K. assert (N : nth_error (lw_logs (run g h)) n = None) by now apply nth_error_None. rewrite N.
      split; [discriminate|]. destruct (n - _) as [|[|?]]; discriminate. }
  destruct e as [e|f now p r|a now now2 p e|a x|n t|e]; cbn [lw_step]; try apply CALL; [split; assumption| |].
  - destruct (nth_error (lw_logs (run g h)) n) as [[[d|] [|]]|] eqn:E; try (split; assumption).
    destruct (in_no_call litem (b_thr (lw_proc (run g h)) t)) eqn:NC; [|split; assumption]. cbn [lw_logs lw_proc]. unfold lproc_step.
    destruct (bsp_step litem litem_sampled maxq maxb (lw_proc (run g h)) (ECall t (COnEnd (n, d)))) as [b'|] eqn:ST.
    2: { exfalso. cbn [bsp_step] in ST. rewrite NC in ST. discriminate. }
    split; [|eapply br_step; [exact IR|exact ST]]. eapply ninv_call; [exact IH|exact ST| |].
    + intros y. unfold the_log. rewrite E. discriminate.
    + intros m y. unfold the_log. rewrite nth_set_nth. destruct (Nat.eqb n m) eqn:Q.
      * apply Nat.eqb_eq in Q. subst m. rewrite E. split; [intros K; right; congruence|]. intros [K|K]; [discriminate|congruence].
      * apply Nat.eqb_neq in Q. split; [auto|]. intros [K|K]; [exact K|congruence].
  - cbn [lw_logs lw_proc]. unfold lproc_step. destruct (bsp_step litem litem_sampled maxq maxb (lw_proc (run g h)) (pev_lbev e)) as [b'|] eqn:E; [|split; assumption].
    split; [|eapply br_step; eassumption]. eapply ninv_proc; [exact IH|exact E|]. intros t x. destruct e; discriminate.
Qed.

Section Enabled.
Hypothesis En : disabled = false.
Hypothesis Lim : limits_ok (t_limits tr).
Lemma ask_ok a p who : lp_ok p who -> exists p' who' s, ask res a p = (p', LSdk res s) /\ names_scope a s /\ lp_ok p' who'.
Proof.
  intros H. destruct (get_logger_ok p who a H) as (p' & w' & n & E & H' & N & _). unfold ask. rewrite E.
  exists p', (who ++ w'), (scope_of_args a). rewrite (ok_made _ _ H'), (map_nth_error scope_of_args _ _ N).
  split; [reflexivity|]. split; [apply scope_describes|exact H'].
Qed.
Lemma lrun_prov g h : exists who, lp_ok (lw_prov (run g h)) who.
Proof.
  induction h as [|e h [who IH]] using rev_ind; [exists []; unfold lw_run, lw_init; cbn; rewrite En; apply lp_new_ok|]. rewrite lrun_snoc.
  assert (CALL : forall a f, exists who, lp_ok (lw_prov (log_call res (run g h) a f)) who).
  { intros a f. unfold log_call. destruct (ask_ok a _ who IH) as (p' & w' & s & -> & _ & H'). exists w'. exact H'. }
  destruct e as [e|f now p r|a now now2 p e|a x|n t|e]; cbn [lw_step]; try apply CALL; [eauto| |eauto].
  destruct (nth_error (lw_logs (run g h)) n) as [[[d|] [|]]|]; eauto. destruct (in_no_call _ _); eauto.
Qed.
Lemma current_place g before k p :
  current_span_context (place_context (tw_spans (trun g before)) p) = current_in (trun g (before ++ k)) (starts before) p.
Proof.
  destruct p as [m base|c]; [|reflexivity]. cbn [place_context current_in].
  destruct (Nat.ltb m (starts before)) eqn:Q.
  - apply Nat.ltb_lt in Q. rewrite <- (run_length gt gs tr tres tmaxq tmaxb Lim g before) in Q. apply nth_error_Some in Q.
    destruct (nth_error (tw_spans (trun g before)) m) as [[s sco]|] eqn:E; [|congruence]. rewrite current_after.
    assert (C : context_of (trun g before) m = Some (started_context s)) by (unfold context_of; rewrite E; reflexivity).
    now rewrite (context_later gt gs tr tres tmaxq tmaxb Lim g before k m _ C).
  - apply Nat.ltb_ge in Q. rewrite <- (run_length gt gs tr tres tmaxq tmaxb Lim g before) in Q. apply nth_error_None in Q. rewrite Q. reflexivity.
Qed.
(** Every log call makes a record that says what it is to say. *)
Lemma log_made g h n c k : dicts h -> logged_by h n c k ->
  exists d b sco, nth_error (lw_logs (run g h)) n = Some (Some d, b) /\ ld_scope d = Some sco /\ names_scope (logger_for c) sco
    /\ match c with
       | LHandle format now p r => handled format now (current_in (lw_tr (run g h)) k p) res r (ld_record d)
       | LEvent _ now now2 p e => event_said now now2 (current_in (lw_tr (run g h)) k p) res e (ld_record d)
       | LRecord _ x => ld_record d = x
       | _ => False
       end.
Proof.
  intros D (before & later & -> & LC & <- & <-). destruct (lrun_prov g before) as [who PR].
  assert (KEY : exists d sco, lw_logs (step (run g before) c) = lw_logs (run g before) ++ [(Some d, false)]
            /\ ld_scope d = Some sco /\ names_scope (logger_for c) sco
            /\ match c with
               | LHandle format now p r => handled format now (current_in (lw_tr (run g (before ++ c :: later))) (starts (traces before)) p) res r (ld_record d)
               | LEvent _ now now2 p e => event_said now now2 (current_in (lw_tr (run g (before ++ c :: later))) (starts (traces before)) p) res e (ld_record d)
               | LRecord _ x => ld_record d = x
               | _ => False
               end).
  { assert (DC : dicts [c]).
    { unfold dicts in *. apply Forall_app in D. destruct D as [_ D]. apply Forall_inv in D. repeat constructor. exact D. }
    unfold dicts in DC. apply Forall_inv in DC.
    rewrite (lrun_tr g (before ++ c :: later)), traces_app.
    destruct c as [e|f now p r|a now now2 p e|a x|m t|e]; try discriminate; cbn [lw_step logger_for]; unfold log_call.
    - destruct (ask_ok (LArgs (sr_name r) (Some []) None None) _ who PR) as (p' & w' & s & -> & NS & _).
      rewrite (lrun_tr g before).
      destruct (handler_emit_spec f now (place_context (tw_spans (trun g (traces before))) p) res s r DC) as (x & raw & E & H1).
      rewrite E. rewrite (current_place g (traces before) (traces (LHandle f now p r :: later)) p) in H1.
      exists (LogData x (Some s)), s. split; [reflexivity|]. split; [reflexivity|]. split; [exact NS|]. unfold handled.
      cbn [ld_record]. decompose [and] H1. do 9 (split; [assumption|]). exists raw. auto.
    - destruct (ask_ok a _ who PR) as (p' & w' & s & -> & NS & _). rewrite (lrun_tr g before).
      destruct (event_emit_spec now now2 (place_context (tw_spans (trun g (traces before))) p) res res s (ea_name e) (ea_time e) (ea_trace_id e) (ea_span_id e)
        (ea_flags e) (ea_body e) (ea_severity e) (ea_attrs e) DC) as (x & raw & E & H1).
      rewrite E. rewrite (current_place g (traces before) (traces (LEvent a now now2 p e :: later)) p) in H1.
      exists (LogData x (Some s)), s. split; [reflexivity|]. split; [reflexivity|]. split; [exact NS|]. unfold event_said, given.
      cbn [ld_record]. decompose [and] H1. do 9 (split; [assumption|]). exists raw. auto.
    - destruct (ask_ok a _ who PR) as (p' & w' & s & -> & NS & _). exists (LogData x (Some s)), s. auto. }
  destruct KEY as (d & sco & E & S1 & NS & C).
  assert (N : nth_error (lw_logs (step (run g before) c)) (logs before) = Some (Some d, false)).
  { rewrite E, nth_error_app2; rewrite (lrun_length g before); [|lia]. now rewrite Nat.sub_diag. }
  destruct (later_logs later _ _ _ _ N) as [b N']. exists d, b, sco. split; [|auto].
  rewrite lrun_app. cbn [fold_left]. exact N'.
Qed.
Lemma the_log_is g h n d : dicts h -> the_log (lw_logs (run g h)) n d -> is_log res (lw_tr (run g h)) h n d.
Proof.
  intros D T. destruct (was_logged h n) as (c & k & L).
  { rewrite <- (lrun_length g h). apply nth_error_Some. unfold the_log in T. congruence. }
  destruct (log_made g h n c k D L) as (d' & b & sco & N & S1 & NS & C). unfold the_log in T. rewrite N in T. injection T as -> _.
  exists c, k, sco. auto.
Qed.
End Enabled.

(** ** Encoding *)
Lemma names_scope_unique a s : names_scope a s -> s = scope_of_args a.
Proof.
  intros (A & B & C & D). destruct (scope_describes a) as (A' & B' & C' & D').
  specialize (D _ (accepted_taken None _)). specialize (D' _ (accepted_taken None _)).
  destruct s, (scope_of_args a). cbn in *. congruence.
Qed.
Lemma context_fits (Lim : limits_ok (t_limits tr)) (Ids : valid_ids gt gs) g h m c : context_of (trun g h) m = Some c -> ids_fit c.
Proof.
  intros C. pose proof (context_valid gt gs tr tres tmaxq tmaxb Lim Ids g h m c C) as V. unfold sc_is_valid in V.
  apply andb_prop in V. destruct V as [V V4]. apply andb_prop in V. destruct V as [V V3]. apply andb_prop in V. destruct V as [V1 V2].
  unfold TRACE_ID_MAX, SPAN_ID_MAX in *. split; [unfold fits; lia|]. split; [unfold fits; lia|].
  unfold context_of in C. destruct (nth_error (tw_spans (trun g h)) m) as [[s sco]|] eqn:E; [|discriminate]. injection C as <-.
  destruct (was_started h m) as (a & later & B).
  { rewrite <- (run_length gt gs tr tres tmaxq tmaxb Lim g h). apply nth_error_Some. congruence. }
  destruct (started_now gt gs tr tres tmaxq tmaxb Lim g h m a later B) as (b & ex & s0 & g' & acts & _ & DS & L & N & _).
  rewrite E in N. injection N as -> _. cbn [fst]. rewrite (proj1 (advance_ctx acts s0 L)).
  assert (K : forall cur o s gg, start_span gt gs tr cur o (c_name a) (c_kind a) (c_attrs a) (c_links a) (c_start a) (c_now a) (tw_gen (trun g b)) = (Ok s, gg) ->
            fits 32 (sc_flags (started_context s))).
  { intros cur o s gg ES. pose proof (start_span_spec gt gs tr cur o (c_name a) (c_kind a) (c_attrs a) (c_links a) (c_start a) (c_now a) (tw_gen (trun g b)) Lim) as H.
    cbn zeta in H. destruct (if sc_is_valid _ then _ else _) as [tid g1]. destruct H as (s' & E1 & E2 & _). rewrite ES in E1. injection E1 as <- _.
    rewrite E2. cbn [sc_flags]. unfold fits. destruct (sr_decision _); lia. }
  unfold do_start in DS. cbn zeta in DS. destruct ex; eapply K; exact DS.
Qed.
Lemma in_keys_dget {A} (d : list (str * A)) k : dget k d <> None -> In k (keys d).
Proof. intros H. destruct (in_dec str_eq_dec k (keys d)) as [I|I]; [exact I|]. apply dget_keys in I. contradiction. Qed.
Lemma shown_keys r k : shown r k <> None ->
  In k (map lit ["code.filepath"; "code.function"; "code.lineno"; "exception.type"; "exception.message"; "exception.stacktrace"]%string ++ keys (sr_vars r)).
Proof.
  intros H. apply in_or_app. unfold shown in H.
  repeat match type of H with context [str_eqb k ?x] =>
    let E := fresh in destruct (str_eqb k x) eqn:E;
    [apply str_eqb_eq in E; subst k; left; cbn [map]; repeat (try (left; reflexivity); right); fail|] end.
  right. destruct (in_dec _ _ _); [congruence|]. apply in_keys_dget. exact H.
Qed.
Lemma handled_encodable (Lim : limits_ok (t_limits tr)) (Ids : valid_ids gt gs) g h k format now p r x :
  encodable_call (LHandle format now p r) -> handled format now (current_in (trun g h) k p) res r x -> log_encodable x.
Proof.
  intros (F1 & F2 & _ & U & BC & FD & FI) (H1 & H2 & H3 & H4 & H5 & H6 & H7 & H8 & H9 & raw & ND & SH & KP).
  assert (CI : ids_fit (current_in (trun g h) k p)).
  { destruct p as [m base|c]; [|exact FI]. cbn [current_in]. destruct (Nat.ltb m k); [|exact FI].
    destruct (context_of (trun g h) m) as [c|] eqn:C; [|exact FI]. exact (context_fits Lim Ids g h m c C). }
  destruct CI as (C1 & C2 & C3). unfold log_encodable.
  split; [split; [eauto|split; [eauto|split; [eauto|]]]|].
  { exists (severity_of_level (sr_levelno r)). split; [exact H6|]. pose proof (severity_range (sr_levelno r)). lia. }
  rewrite H1, H2, H7. split; [exact F1|]. split; [exact F2|]. split.
  { cbn [opt_text]. destruct (str_eq_dec _ _); [|exact U]. apply Forall_forall. intros c Ic. cbn in Ic. decompose [or] Ic; subst; try contradiction; split; try lia; intros [? ?]; lia. }
  split; [exact (BC _ H8)|]. specialize (KP _ (accepted_taken None _)). destruct KP as [_ KD]. rewrite KD. cbn [zlim option_map].
  assert (LR : length raw <= length (sr_vars r) + 6).
  { assert (I : incl (keys raw) (map lit ["code.filepath"; "code.function"; "code.lineno"; "exception.type"; "exception.message"; "exception.stacktrace"]%string ++ keys (sr_vars r))).
    { intros key K. apply shown_keys. rewrite <- SH. intros Z0. apply dget_keys in Z0. exact (Z0 K). }
    pose proof (NoDup_incl_length ND I) as L. rewrite app_length in L. unfold keys in L. rewrite !map_length in L. cbn [length] in L. lia. }
  assert (LA : length (accepted None (as_arg raw)) <= length raw).
  { clear. induction raw as [|[key v] raw IH]; [cbn; lia|]. unfold accepted, as_arg in *. cbn [map flat_map fst snd]. rewrite app_length.
    cbn [length]. match goal with |- length ?l + _ <= _ => assert (length l <= 1) by (destruct (valid_key _); [destruct (clean_attribute _ _ _)|]; cbn; lia) end.
    lia. }
  unfold fits in *. lia.
Qed.

Section Sizes.
Hypothesis Q1 : 1 <= maxq.
Hypothesis B1 : 1 <= maxb.
Lemma exported_the_log g h n d : In (n, d) (exported_logs (run g h)) -> the_log (lw_logs (run g h)) n d.
Proof.
  intros I. destruct (lrun_ninv g h) as [P R]. apply (n_acc _ _ _ _ P). now apply (handed_acc log_data litem_sampled maxq maxb Q1 B1).
Qed.
Lemma exported_logs_once g h : NoDup (map fst (exported_logs (run g h))).
Proof. destruct (lrun_ninv g h) as [P R]. eapply (handed_once log_data litem_sampled maxq maxb Q1 B1); eassumption. Qed.
Lemma exported_logs_disabled g h : disabled = true -> exported_logs (run g h) = [].
Proof.
  intros D. destruct (disabled_prov g h D) as [_ F]. destruct (exported_logs (run g h)) as [|[n d] l] eqn:E; [reflexivity|].
  assert (T : the_log (lw_logs (run g h)) n d) by (apply exported_the_log; rewrite E; now left).
  rewrite Forall_forall in F. specialize (F _ (nth_error_In _ _ T)). discriminate.
Qed.
(** The events of the processor in a history. *)
Lemma proc_events t k : no_log_by t k -> forall w, exists es, lw_proc (fold_left step k w) = bsp_run litem litem_sampled maxq maxb es (lw_proc w)
  /\ forall c, ~ In (ECall t c) es.
Proof.
  induction 1 as [|e k N _ IH]; intros w; [exists []; auto|]. cbn [fold_left].
  assert (K : exists es, lw_proc (step w e) = bsp_run litem litem_sampled maxq maxb es (lw_proc w) /\ forall c, ~ In (ECall t c) es).
  { destruct e as [e|f now p r|a now now2 p e|a x|n t'|e]; cbn [lw_step].
    - exists []. auto.
    - exists []. unfold log_call. destruct (ask _ _ _). auto.
    - exists []. unfold log_call. destruct (ask _ _ _). auto.
    - exists []. unfold log_call. destruct (ask _ _ _). auto.
    - destruct (nth_error (lw_logs w) n) as [[[d|] [|]]|]; try (exists []; auto; fail). destruct (in_no_call _ _); [|exists []; auto].
      exists [ECall t' (COnEnd (n, d))]. split; [reflexivity|]. intros c [K|[]]. congruence.
    - exists [pev_lbev e]. split; [reflexivity|]. intros c [K|[]]. destruct e; cbn in K; congruence. }
  destruct K as (es & E1 & N1). destruct (IH (step w e)) as (es' & E2 & N2). exists (es ++ es'). rewrite E2, E1, brun_app. split; [reflexivity|].
  intros c I. apply in_app_or in I. destruct I; [eapply N1|eapply N2]; eassumption.
Qed.
Lemma flush_exports_logs g before t later n :
  n < logs before -> handed_in_log (run g before) n -> disabled = false -> limits_ok (t_limits tr) -> dicts before ->
  in_no_call litem (b_thr (lw_proc (run g before)) t) = true -> no_log_by t later ->
  forall h, (h = before ++ LProc (PFlush t) :: later /\ (exists n0, b_thr (lw_proc (run g h)) t = TFlushRet n0 false true))
         \/ (h = before ++ LProc (PShutdown t) :: later /\ b_done (lw_proc (run g before)) = false
             /\ (exists n0 f, b_thr (lw_proc (run g h)) t = TShutRet n0 f)) ->
  exists d, (In (n, d) (exported_logs (run g h)) \/ evicted_log (run g h) (n, d))
    /\ (length (b_acc (lw_proc (run g h))) <= maxq -> In (n, d) (exported_logs (run g h))).
Proof.
  intros L HI En Lim D NC NL h H. destruct (lrun_ninv g before) as [P R].
  destruct (was_logged before n L) as (c & k & LB). destruct (log_made En Lim g before n c k D LB) as (d & b & sco & N & _).
  destruct HI as [[o HI] HT]. assert (T : the_log (lw_logs (run g before)) n d) by (unfold the_log; pose proof (eq_trans (eq_sym N) HI) as Q; injection Q as <- ->; exact N).
  assert (KEY : b_done (lw_proc (run g before)) = false /\ exists l, b_acc (lw_proc (run g h)) = b_acc (lw_proc (run g before)) ++ l
            /\ settled (length (b_acc (lw_proc (run g before)))) (lw_proc (run g h))).
  { destruct H as [(-> & n0 & TH)|(-> & DD & n0 & f & TH)];
      match goal with |- context [before ++ ?e :: later] => destruct (proc_events t later NL (step (run g before) e)) as (es & E & NE) end;
      rewrite lrun_app in TH |- *; cbn [fold_left] in TH |- *; rewrite E in TH |- *; cbn [lw_step lw_proc pev_lbev] in TH |- *; unfold lproc_step in TH |- *.
    - apply (call_settles litem litem_sampled maxq maxb Q1 B1 (lw_proc (run g before)) t es R NC NE). left. split; [reflexivity|]. exists n0. exact TH.
    - apply (call_settles litem litem_sampled maxq maxb Q1 B1 (lw_proc (run g before)) t es R NC NE). right. split; [reflexivity|]. split; [exact DD|].
      exists n0, f. exact TH. }
  destruct KEY as (DD & l & EA & ST). destruct (lrun_ninv g h) as [P' R'].
  assert (I : In (n, d) (b_acc (lw_proc (run g before)))).
  { destruct (n_all _ _ _ _ P n d T eq_refl) as [K|[(t' & K)|K]]; [exact K| |pose proof (eq_trans (eq_sym K) DD); discriminate]. exfalso. unfold carried in K. change (nat * log_data)%type with litem in K. destruct (HT t' d) as [H1 H2].
    destruct (b_thr (lw_proc (run g before)) t'); try discriminate; injection K as ->; [now apply H1|now apply H2]. }
  assert (ND : NoDup (b_acc (lw_proc (run g h)))) by (eapply NoDup_map_inv, (n_once _ _ _ _ P')).
  pose proof (settled_item litem litem_sampled maxq maxb Q1 B1 _ _ l (n, d) R' ND EA I ST) as Q. exists d. split; [exact Q|].
  intros LE. destruct Q as [Q|Q]; [exact Q|]. pose proof (evicted_full litem litem_sampled maxq maxb Q1 B1 _ R' _ Q). lia.
Qed.
End Sizes.
End World.
