(** C98: what the OTLP requests of a batch log record processor say about the log calls of the program, and how they
    refer to its spans, under every interleaving of its threads and the workers. *)
From Verif Require Import Spec_Logging Proof_Logs Proof_Provider Proof_Logging Proof_Tracing Proof_Otlp Proof_OtlpFields Props_Otlp Props_Tracing.
From Coq Require Import Lia Permutation.
Local Open Scope nat_scope.

Lemma exported_of {G} (w : lworld (G := G)) b i : In (XExport b) (b_log (lw_proc w)) -> In i b -> In i (exported_logs w).
Proof. intros J I. unfold exported_logs, handed_over. apply in_flat_map. exists (XExport b). auto. Qed.
(** Every log record that the exporter gets is that of a log call of the program, as it was at the call; it gets none
    twice, and none at all if the SDK is disabled. *)
Theorem C98_exported : forall (G : Type) (gen_trace_id gen_span_id : G -> Z * G) tr tres tmaxq tmaxb disabled res maxq maxb,
  limits_ok (t_limits tr) -> 1 <= maxq -> 1 <= maxb ->
  forall g h, dicts h -> let w := lw_run gen_trace_id gen_span_id tr tres tmaxq tmaxb disabled res maxq maxb g h in
  NoDup (map fst (exported_logs w))
  /\ (forall n d, In (n, d) (exported_logs w) -> is_log res (lw_tr w) h n d)
  /\ (disabled = true -> exported_logs w = []).
Proof.
  intros G gt gs tr tres tmaxq tmaxb disabled res maxq maxb L Q1 B1 g h D w.
  assert (DD : disabled = true -> exported_logs w = []) by (apply exported_logs_disabled; assumption).
  split; [now apply exported_logs_once|]. split; [|exact DD].
  intros n d I. destruct (Bool.bool_dec disabled true) as [E|E]; [rewrite (DD E) in I; contradiction|].
  apply the_log_is; auto; [now destruct disabled|]. now apply exported_the_log.
Qed.
Print Assumptions C98_exported.

(** In the request for a batch each of its log records has exactly one message, which says what was logged; it is under
    the record's resource and the scope of its logger. *)
Theorem C98_request : forall (G : Type) (gen_trace_id gen_span_id : G -> Z * G) tr tres tmaxq tmaxb disabled res maxq maxb float_int,
  limits_ok (t_limits tr) -> 1 <= maxq -> 1 <= maxb -> resource_ok res ->
  forall g h, dicts h -> (forall a x, In (LRecord a x) h -> resource_ok (lr_resource x)) ->
  let w := lw_run gen_trace_id gen_span_id tr tres tmaxq tmaxb disabled res maxq maxb g h in
  forall b req, In (XExport b) (b_log (lw_proc w)) -> log_request float_int b = Some req ->
  exists arranged, Permutation b arranged
    /\ Forall2 (fun i m => let '(group, scope_group, message) := m in
         exists d, is_log res (lw_tr w) h (fst i) d /\ log_read (ld_record d) message
         /\ (exists r, equal_resources r (lr_resource (ld_record d)) /\ resource_read r group)
         /\ exists s, python_equal_scopes float_int s (ld_scope d) /\ scope_read s scope_group)
       arranged (flatten req).
Proof.
  intros G gt gs tr tres tmaxq tmaxb disabled res maxq maxb fi L Q1 B1 R g h D RR w b req I E.
  assert (IS : forall n x, In (n, x) b -> is_log res (lw_tr w) h n x).
  { intros n x J. apply (C98_exported G gt gs tr tres tmaxq tmaxb disabled res maxq maxb L Q1 B1 g h D). unfold exported_logs, handed_over.
    apply in_flat_map. exists (XExport b). auto. }
  assert (OK : items_ok log_resource ld_scope (map snd b)).
  { apply Forall_forall. intros x J. apply in_map_iff in J. destruct J as ([n y] & <- & J). destruct (IS n y J) as (c & k & sco & LB & S1 & NS & C).
    cbn [snd]. split.
    - destruct c; try contradiction.
      + destruct C as (_ & _ & _ & _ & _ & _ & _ & _ & -> & _). exact R.
      + destruct C as (_ & _ & _ & _ & _ & _ & _ & _ & -> & _). exact R.
      + rewrite C. destruct LB as (before & later & -> & _). apply (RR a). apply in_or_app. right. now left.
    - rewrite S1, (names_scope_unique _ _ NS). apply scope_of_args_kept. }
  assert (EACH := request_each _ (scope_equiv fi) _ _ _ _ _ OK (C68_request fi _ _ OK E)).
  destruct EACH as (arr & P & F).
  apply Permutation_sym in P. apply Permutation_map_inv in P. destruct P as (arr' & -> & P).
  exists arr'. split; [exact P|].
  assert (IN : incl arr' b) by (intros i J; eapply Permutation_in; [apply Permutation_sym, P|exact J]).
  assert (OK' := OK). unfold items_ok in OK'. rewrite Forall_forall in OK'.
  clear P. revert IN F. generalize (flatten req). induction arr' as [|i arr' IH]; intros l IN F; inversion F as [|? ? ? ? F1 F2]; subst; constructor.
  - assert (J : In i b) by (apply IN; now left). destruct i as [n x], y as [[g0 h0] m]. cbn [fst snd] in *.
    destruct F1 as (S1 & (r & Ir & Er & Rr) & (s & Is & Es & Rs)). exists x. split; [now apply IS|]. split; [exact S1|]. split; [eauto|].
    exists s. split; [|exact Rs]. apply (proj2 (C52_keys fi)); [| |exact Es].
    + apply in_map_iff in Is. destruct Is as (y & <- & Iy). exact (proj2 (OK' y Iy)).
    + exact (proj2 (OK' x (in_map snd b (n, x) J))).
  - apply IH; [|exact F2]. intros j J. apply IN. now right.
Qed.
Print Assumptions C98_request.

(** Logs and spans are correlated: the message of a log made in a span has the ids of the message of that span, and the
    span's flags; the message of one made with no span has no ids. *)
Theorem C98_correlated : forall (G : Type) (gen_trace_id gen_span_id : G -> Z * G) tr tres tmaxq tmaxb res maxq maxb,
  limits_ok (t_limits tr) -> valid_ids gen_trace_id gen_span_id -> built_in (t_sampler tr) -> 1 <= tmaxq -> 1 <= tmaxb ->
  1 <= maxq -> 1 <= maxb ->
  forall g h, dicts h -> let w := lw_run gen_trace_id gen_span_id tr tres tmaxq tmaxb false res maxq maxb g h in
  forall n c k d p, logged_by h n c k -> In (n, d) (exported_logs w) -> encode_log (ld_record d) = Some p ->
  (forall m base y q, made_in c (InSpan m base) -> m < k -> In (m, y) (exported (lw_tr w)) -> encode_span (rs_span y) = Some q ->
     pbl_trace_id p = pb_trace_id q /\ pbl_span_id p = pb_span_id q /\ pbl_flags p = sc_flags (sp_ctx (rs_span y)))
  /\ (forall ctx, made_in c (InContext ctx) -> current_span_context ctx = INVALID_SPAN_CONTEXT ->
     pbl_trace_id p = [] /\ pbl_span_id p = [] /\ pbl_flags p = 0%Z)
  /\ (forall ctx, made_in c (InContext ctx) -> sc_is_valid (current_span_context ctx) = true ->
     id_read 16 (Some (sc_trace_id (current_span_context ctx))) (pbl_trace_id p)
     /\ id_read 8 (Some (sc_span_id (current_span_context ctx))) (pbl_span_id p)
     /\ pbl_flags p = sc_flags (current_span_context ctx)).
Proof.
  intros G gt gs tr tres tmaxq tmaxb res maxq maxb L V B TQ TB Q1 B1 g h D w n c k d p LB I E.
  assert (PL : forall pl, made_in c pl -> log_id_read 16 (Some (sc_trace_id (current_in (lw_tr w) k pl))) (pbl_trace_id p)
            /\ log_id_read 8 (Some (sc_span_id (current_in (lw_tr w) k pl))) (pbl_span_id p)
            /\ pbl_flags p = sc_flags (current_in (lw_tr w) k pl)).
  { intros pl MI. apply (exported_the_log gt gs tr tres tmaxq tmaxb false res maxq maxb Q1 B1) in I. unfold the_log in I.
    destruct (log_made gt gs tr tres tmaxq tmaxb false res maxq maxb eq_refl L g h n c k D LB) as (d' & b & sco & N & _ & _ & C).
    pose proof (eq_trans (eq_sym N) I) as X. injection X as -> _. apply encode_log_ok in E. destruct E as [((R1 & R2 & R3) & _) _].
    destruct c; try contradiction; cbn [made_in] in MI.
    - subst p0. destruct C as (_ & _ & C1 & C2 & C3 & _). rewrite C1 in R1. rewrite C2 in R2. rewrite C3 in R3. injection R3 as R3. auto.
    - destruct MI as (-> & M1 & M2 & M3). destruct C as (_ & _ & C1 & C2 & C3 & _). rewrite M1 in C1. rewrite M2 in C2. rewrite M3 in C3.
      rewrite C1 in R1. rewrite C2 in R2. rewrite C3 in R3. injection R3 as R3. auto. }
  assert (NZ : forall z n bs, z <> 0%Z -> log_id_read n (Some z) bs -> id_read n (Some z) bs).
  { intros z n0 bs Z0 R. unfold log_id_read in R. destruct z; [congruence| |]; exact R. }
  assert (VN : forall sc, sc_is_valid sc = true -> sc_trace_id sc <> 0%Z /\ sc_span_id sc <> 0%Z).
  { intros sc H. unfold sc_is_valid in H. repeat (apply andb_prop in H; destruct H as [H ?]). lia. }
  split; [|split].
  - intros m base y q MI LT J E2. destruct (PL _ MI) as (P1 & P2 & P3). clear PL.
    assert (X : exists sw sco, nth_error (tw_spans (lw_tr w)) m = Some (Recording sw, sco) /\ rs_span y = w_span sw).
    { unfold w in J |- *. rewrite (lrun_tr gt gs tr tres tmaxq tmaxb false res maxq maxb g h) in J |- *. apply exported_acc in J; auto.
      destruct (run_pinv gt gs tr tres tmaxq tmaxb L V B g (traces h)) as [P _]. destruct (p_acc _ _ _ P _ _ J) as (sw & sco & N & _ & _ & ->). eauto. }
    destruct X as (sw & sco & N & X).
    assert (CT : context_of (lw_tr w) m = Some (sp_ctx (rs_span y))) by (unfold context_of; rewrite N, X; reflexivity).
    assert (VA : sc_is_valid (sp_ctx (rs_span y)) = true).
    { unfold w in CT. rewrite (lrun_tr gt gs tr tres tmaxq tmaxb false res maxq maxb g h) in CT. eapply context_valid; eassumption. }
    assert (CU : current_in (lw_tr w) k (InSpan m base) = sp_ctx (rs_span y)).
    { cbn [current_in]. apply Nat.ltb_lt in LT. now rewrite LT, CT. }
    rewrite CU in P1, P2, P3. destruct (VN _ VA) as [V1 V2]. apply encode_span_ok in E2. destruct E2 as [((T1 & T2 & _) & _) _].
    split; [exact (id_read_unique 16 _ _ _ (NZ _ _ _ V1 P1) T1)|]. split; [exact (id_read_unique 8 _ _ _ (NZ _ _ _ V2 P2) T2)|exact P3].
  - intros ctx MI IV. destruct (PL _ MI) as (P1 & P2 & P3). cbn [current_in] in P1, P2, P3. rewrite IV in P1, P2, P3. auto.
  - intros ctx MI VA. destruct (PL _ MI) as (P1 & P2 & P3). cbn [current_in] in P1, P2, P3. destruct (VN _ VA) as [V1 V2].
    split; [exact (NZ _ _ _ V1 P1)|]. split; [exact (NZ _ _ _ V2 P2)|exact P3].
Qed.
Print Assumptions C98_correlated.

(** Nothing is lost: a log record whose call was past the queue when force_flush was called has been given to the
    exporter when force_flush has returned True (and did not find the processor shut down), unless the full queue dropped
    it, which does not happen before more than [maxq] log records have been accepted. *)
Theorem C98_force_flush : forall (G : Type) (gen_trace_id gen_span_id : G -> Z * G) tr tres tmaxq tmaxb res maxq maxb,
  limits_ok (t_limits tr) -> 1 <= maxq -> 1 <= maxb ->
  forall g before t later, dicts before ->
  let w0 := lw_run gen_trace_id gen_span_id tr tres tmaxq tmaxb false res maxq maxb g before in
  let w := lw_run gen_trace_id gen_span_id tr tres tmaxq tmaxb false res maxq maxb g (before ++ LProc (PFlush t) :: later) in
  in_no_call litem (b_thr (lw_proc w0) t) = true -> no_log_by t later ->
  (exists n0, b_thr (lw_proc w) t = TFlushRet n0 false true) ->
  forall n, n < logs before -> handed_in_log w0 n ->
  exists d, (In (n, d) (exported_logs w) \/ evicted_log w (n, d))
    /\ (length (b_acc (lw_proc w)) <= maxq -> In (n, d) (exported_logs w)).
Proof. intros. eapply flush_exports_logs; eauto. Qed.
Print Assumptions C98_force_flush.
(** The same for shutdown, called on a processor that was not shut down. *)
Theorem C98_shutdown : forall (G : Type) (gen_trace_id gen_span_id : G -> Z * G) tr tres tmaxq tmaxb res maxq maxb,
  limits_ok (t_limits tr) -> 1 <= maxq -> 1 <= maxb ->
  forall g before t later, dicts before ->
  let w0 := lw_run gen_trace_id gen_span_id tr tres tmaxq tmaxb false res maxq maxb g before in
  let w := lw_run gen_trace_id gen_span_id tr tres tmaxq tmaxb false res maxq maxb g (before ++ LProc (PShutdown t) :: later) in
  in_no_call litem (b_thr (lw_proc w0) t) = true -> no_log_by t later -> b_done (lw_proc w0) = false ->
  (exists n0 first, b_thr (lw_proc w) t = TShutRet n0 first) ->
  forall n, n < logs before -> handed_in_log w0 n ->
  exists d, (In (n, d) (exported_logs w) \/ evicted_log w (n, d))
    /\ (length (b_acc (lw_proc w)) <= maxq -> In (n, d) (exported_logs w)).
Proof. intros. eapply flush_exports_logs; eauto. Qed.
Print Assumptions C98_shutdown.

(** Logging does not disturb tracing: the spans and what the span processor does are those of the same program without the
    log calls, of which C90 speaks. *)
Theorem C98_tracing : forall (G : Type) (gen_trace_id gen_span_id : G -> Z * G) tr tres tmaxq tmaxb disabled res maxq maxb g h,
  lw_tr (lw_run gen_trace_id gen_span_id tr tres tmaxq tmaxb disabled res maxq maxb g h)
  = tw_run gen_trace_id gen_span_id tr tres tmaxq tmaxb g (traces h).
Proof.
  intros. unfold lw_run, tw_run, traces. change (tw_init g) with (lw_tr (lw_init disabled g)). generalize (lw_init disabled g).
  induction h as [|e h IH]; intros w; [reflexivity|]. cbn [fold_left flat_map]. rewrite IH, fold_left_app. f_equal.
  destruct e; try reflexivity; cbn; unfold log_call; try (destruct (ask _ _ _); reflexivity).
  destruct (nth_error (lw_logs w) n) as [[[d|] [|]]|]; try reflexivity. destruct (in_no_call _ _); reflexivity.
Qed.
Print Assumptions C98_tracing.

(** If all log calls are calls of the logging module whose parts can be encoded, every batch has a request. *)
Theorem C98_encodable : forall (G : Type) (gen_trace_id gen_span_id : G -> Z * G) tr tres tmaxq tmaxb disabled res maxq maxb float_int,
  limits_ok (t_limits tr) -> valid_ids gen_trace_id gen_span_id -> 1 <= maxq -> 1 <= maxb ->
  resource_ok res -> resource_encodable res ->
  forall g h, dicts h -> (forall c, In c h -> is_log_call c = true -> encodable_call c) ->
  let w := lw_run gen_trace_id gen_span_id tr tres tmaxq tmaxb disabled res maxq maxb g h in
  forall b, In (XExport b) (b_log (lw_proc w)) -> exists req, log_request float_int b = Some req.
Proof.
  intros G gt gs tr tres tmaxq tmaxb disabled res maxq maxb fi L V Q1 B1 R RE g h D EN w b I.
  assert (IS : forall n x, In (n, x) b -> is_log res (lw_tr w) h n x).
  { intros n x J. apply (C98_exported G gt gs tr tres tmaxq tmaxb disabled res maxq maxb L Q1 B1 g h D). unfold exported_logs, handed_over.
    apply in_flat_map. exists (XExport b). auto. }
  assert (K : Forall (fun d => (resource_ok (lr_resource (ld_record d)) /\ scope_ok (ld_scope d))
            /\ log_encodable (ld_record d) /\ resource_encodable (lr_resource (ld_record d)) /\ scope_encodable (ld_scope d)) (map snd b)).
  { apply Forall_forall. intros x J. apply in_map_iff in J. destruct J as ([n y] & <- & J). destruct (IS n y J) as (c & k & sco & LB & S1 & NS & C).
    assert (EC : encodable_call c) by (destruct LB as (before & later & -> & LC & _); apply EN; [apply in_or_app; right; now left|exact LC]).
    destruct c; try contradiction. cbn [snd]. rewrite S1.
    assert (RX : lr_resource (ld_record y) = res) by apply C. rewrite RX. split; [split; [exact R|]|].
    - rewrite (names_scope_unique _ _ NS). apply scope_of_args_kept.
    - unfold w in C. rewrite (lrun_tr gt gs tr tres tmaxq tmaxb disabled res maxq maxb g h) in C.
      split; [exact (handled_encodable gt gs tr tres tmaxq tmaxb res L V g (traces h) k _ _ _ _ _ EC C)|]. split; [exact RE|].
      destruct NS as (N1 & N2 & N3 & _). cbn [logger_for la_name la_version la_schema] in N1, N2, N3.
      unfold scope_encodable. rewrite N1, N2, N3. split; [apply EC|]. split; constructor. }
  apply C68_succeeds; (eapply Forall_impl; [|exact K]); intros d [A B]; assumption.
Qed.
Print Assumptions C98_encodable.

(** A request span; in it a warning of the logging module and an event; a record of the logging module outside any span;
    then a flush of the logs by a third thread, and one of the spans. *)
Definition ex_std (name levelname msg : string) (level created : Z) : std_record :=
  Std [(lit "name", PStr false (lit name)); (lit "order", PInt false 7)] (lit name) created level (lit levelname)
    (PStr false (lit "a.py")) (PStr false (lit "f")) (PInt false 12) (AStr (lit msg)) false (lit msg) None.
Definition hand (n t : nat) : list lev := LHand n t :: repeat (LProc (PStep t)) 3.
Definition ex_calls : list lev :=
  [LTrace (VStart ex_scope None (InContext []) (lit "request") 1%Z [] [] None 10);
   LHandle None 101 (InSpan 0 []) (ex_std "shop" "WARNING" "low" 30 100)]
  ++ hand 0 7 ++
  [LEvent (LArgs (lit "shop.events") None None None) 102 103 (InSpan 0 [])
     (EventArgs (lit "sold") None None None None (AInt 5) None (Some [(lit "k", PInt false 1)]));
   LTrace (VCall 0 (OEnd None 20)); LTrace (VOnEnd 0 8)]
  ++ repeat (LTrace (VProc (PStep 8))) 3 ++ hand 1 7 ++
  [LHandle None 110 (InContext []) (ex_std "shop" "INFO" "idle" 20 109)] ++ hand 2 7.
Definition ex_flushes : list lev :=
  [LProc (PStep 9); LProc (PStep 9)] ++ repeat (LProc PWork) 30
  ++ [LProc (PStep 9); LTrace (VProc (PFlush 9)); LTrace (VProc (PStep 9)); LTrace (VProc (PStep 9))]
  ++ repeat (LTrace (VProc PWork)) 30 ++ [LTrace (VProc (PStep 9))].
Definition ex_logging := lw_run ex_trace_id ex_trace_id ex_tracer ex_resource 10 10 false ex_resource 10 10 1%Z.
Lemma ex_dicts : dicts ex_calls.
Proof.
  apply Forall_forall. intros e I. cbn in I. repeat (destruct I as [<-|I]; [try exact Logic.I; cbn; repeat constructor; cbn; intuition discriminate|]). contradiction.
Qed.
Lemma ex_handed n : n < 3 -> handed_in_log (ex_logging ex_calls) n.
Proof.
  intros L. split.
  { destruct n as [|[|[|n]]]; [| | |lia]; eexists; vm_compute; reflexivity. }
  intros t d. destruct (Nat.eq_dec t 7) as [->|NE].
  - assert (K : exists y, b_thr (lw_proc (ex_logging ex_calls)) 7 = TOnEndRet y true) by (eexists; vm_compute; reflexivity).
    destruct K as [y ->]. split; discriminate.
  - assert (K : b_thr (lw_proc (ex_logging ex_calls)) t = TIdle).
    { do 10 (destruct t as [|t]; [solve [vm_compute; reflexivity|congruence]|]). vm_compute. reflexivity. }
    rewrite K. split; discriminate.
Qed.
Example C98_example :
  let w := ex_logging (ex_calls ++ LProc (PFlush 9) :: ex_flushes) in
  map fst (exported_logs w) = [0; 1; 2] /\ map fst (exported (lw_tr w)) = [0]
  /\ b_thr (lw_proc w) 9 = TFlushRet 3 false true
  /\ in_no_call litem (b_thr (lw_proc (ex_logging ex_calls)) 9) = true /\ logs ex_calls = 3
  /\ exists b req sb sreq, b_log (lw_proc w) = [XExport b] /\ log_request (fun _ => None) b = Some req
     /\ b_log (tw_proc (lw_tr w)) = [XExport sb] /\ batch_request (fun _ => None) sb = Some sreq
     /\ map (fun m => (pb_trace_id (snd m), pb_span_id (snd m))) (flatten sreq) = [(repeat 0%N 15 ++ [2%N], repeat 0%N 7 ++ [3%N])]
     /\ map (fun m => let '(g, s, p) := m in (ps_name (pg_scope s), pbl_body p, pbl_severity_text p, pbl_trace_id p, pbl_span_id p)) (flatten req)
        = [(lit "shop", AVStr (lit "low"), lit "WARN", repeat 0%N 15 ++ [2%N], repeat 0%N 7 ++ [3%N]);
           (lit "shop", AVStr (lit "idle"), lit "INFO", [], []);
           (lit "shop.events", AVInt 5, [], repeat 0%N 15 ++ [2%N], repeat 0%N 7 ++ [3%N])]
     /\ map (fun m => map fst (pbl_attrs (snd m))) (flatten req)
        = [map lit ["order"; "code.filepath"; "code.function"; "code.lineno"]%string;
           map lit ["order"; "code.filepath"; "code.function"; "code.lineno"]%string; [lit "k"; lit "event.name"]].
Proof.
  do 5 (split; [vm_compute; reflexivity|]). eexists _, _, _, _.
  do 6 (split; [vm_compute; reflexivity|]). vm_compute; reflexivity.
Qed.
Example C98_example_encodable : encodable_call (LHandle None 101 (InSpan 0 []) (ex_std "shop" "WARNING" "low" 30 100)).
Proof.
  unfold encodable_call. split; [split; vm_compute; congruence|]. split; [split; vm_compute; congruence|].
  split; [apply unicode_dec; reflexivity|]. split; [apply unicode_dec; reflexivity|]. split.
  { intros b H. inversion H as [? X|X Y Z0|X Y]; [discriminate|exfalso; now apply (Z0 (lit "low"))|]. constructor. apply unicode_dec. reflexivity. }
  split; [split; vm_compute; congruence|]. repeat split; vm_compute; congruence.
Qed.

Lemma ex_is_log h b n d : dicts h -> In (XExport b) (b_log (lw_proc (ex_logging h))) -> In (n, d) b ->
  is_log ex_resource (lw_tr (ex_logging h)) h n d.
Proof.
  intros D J I. pose proof (exported_of _ _ _ J I) as K. unfold ex_logging in *.
  refine (proj1 (proj2 (C98_exported Z ex_trace_id ex_trace_id ex_tracer ex_resource 10 10 false ex_resource 10 10 ex_limits _ _ 1%Z h D)) n d K); lia.
Qed.
Definition ex_poisoned : list lev :=
  [LHandle None 101 (InContext []) (ex_std "shop" "WARNING" "low" 30 100)] ++ hand 0 7
  ++ [LRecord (LArgs (lit "own") None None None)
        (LogRec (Some 1%Z) (Some 1%Z) None None None None None (AStr (lit "x")) [] 0 ex_resource)] ++ hand 1 7
  ++ LProc (PFlush 9) :: ex_flushes.
(** Given to the exporter is not sent: a record of the program's own without a severity makes the request of its whole
    batch fail, so that the record of the logging module in the same batch is lost although force_flush returned
    True. *)
Theorem C98_force_flush_sends_refuted : exists h b d,
  let w := ex_logging h in
  dicts h /\ (exists n0, b_thr (lw_proc w) 9 = TFlushRet n0 false true)
  /\ b_log (lw_proc w) = [XExport b] /\ In (0, d) b /\ is_log ex_resource (lw_tr w) h 0 d /\ encode_log (ld_record d) <> None
  /\ log_request (fun _ => None) b = None.
Proof.
  assert (DH : dicts ex_poisoned).
  { apply Forall_forall. intros e I. unfold ex_poisoned in I. cbn in I.
    repeat (destruct I as [<-|I]; [try exact Logic.I; cbn; repeat constructor; cbn; intuition discriminate|]). contradiction. }
  assert (X : exists b d, b_log (lw_proc (ex_logging ex_poisoned)) = [XExport b] /\ In (0, d) b /\ encode_log (ld_record d) <> None
            /\ log_request (fun _ => None) b = None).
  { eexists _, _. split; [vm_compute; reflexivity|]. split; [left; reflexivity|]. split; [vm_compute; discriminate|vm_compute; reflexivity]. }
  assert (T : exists n0, b_thr (lw_proc (ex_logging ex_poisoned)) 9 = TFlushRet n0 false true) by (eexists; vm_compute; reflexivity).
  destruct X as (b & d & B1 & I & E & N). exists ex_poisoned, b, d. revert DH B1 T. generalize ex_poisoned. intros h DH B1 T.
  assert (J : In (XExport b) (b_log (lw_proc (ex_logging h)))) by (rewrite B1; left; reflexivity).
  exact (conj DH (conj T (conj B1 (conj I (conj (ex_is_log h b 0 d DH J I) (conj E N)))))).
Qed.
Print Assumptions C98_force_flush_sends_refuted.
