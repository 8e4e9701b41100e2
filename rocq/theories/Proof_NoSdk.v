(** Programs without an SDK: what they do is said by their blocks. *)
From Verif Require Import Spec_NoSdk Proof_Runtime Proof_Trace Proof_TraceContext Proof_Dict.
From Coq Require Import Lia.
Local Open Scope nat_scope.

Section Ind.
Variable P : astmt -> Prop.
Hypothesis H1 : forall b, Forall P b -> P (AWith b).
Hypothesis H2 : forall e r s b, Forall P b -> P (AUse e r s b).
Hypothesis H3 : forall c b, Forall P b -> P (AReceived c b).
Hypothesis H4 : forall n v b, Forall P b -> P (ABaggage n v b).
Hypothesis H5 : P ACalls.
Hypothesis H6 : forall c, P (ASend c).
Hypothesis H7 : P AAsk.
Hypothesis H8 : forall e, P (ARaise e).
Hypothesis H9 : forall o, P (AOthers o).
Hypothesis H10 : forall a b, Forall P b -> P (ATry a b).
Fixpoint astmt_ind2 (s : astmt) : P s :=
  let go := fix go (l : list astmt) : Forall P l := match l with [] => Forall_nil _ | s :: r => Forall_cons _ (astmt_ind2 s) (go r) end in
  match s with
  | AWith b => H1 b (go b) | AUse e r st b => H2 e r st b (go b) | AReceived c b => H3 c b (go b) | ABaggage n v b => H4 n v b (go b)
  | ACalls => H5 | ASend c => H6 c | AAsk => H7 | ARaise e => H8 e | AOthers o => H9 o | ATry a b => H10 a b (go b)
  end.
End Ind.

Section P.
Variable extract : context -> carrier -> context.
Variable inject : context -> writes.
Variable u : nat.
Notation aexec := (aexec extract inject u).
Notation arun := (arun extract inject u).
Notation seen := (seen extract inject).
Notation seens := (seens extract inject).

Definition good (f : runtime -> list aev -> runtime * list aev * outcome) (g : context -> list aev * outcome) : Prop :=
  forall rt log, let '(rt', log', out) := f rt log in
  nested u rt rt' /\ log' = log ++ fst (g (get_current u rt)) /\ out = snd (g (get_current u rt)).
Lemma nested_trans s s1 s2 : nested u s s1 -> nested u s1 s2 -> nested u s s2.
Proof. induction 1; intro K; [exact K|eapply nest_block; eauto|eapply nest_other; eauto|eapply nest_stray; eauto]. Qed.
Lemma run_good l : Forall (fun s => good (aexec s) (seen s)) l -> good (arun l) (seens l).
Proof.
  induction 1 as [|s l H F IH]; intros rt log; cbn [Model_NoSdk.arun Spec_NoSdk.seens].
  - split; [constructor|]. now rewrite app_nil_r.
  - specialize (H rt log). destruct (aexec s rt log) as [[rt1 log1] out1]. destruct H as (N & -> & ->).
    destruct (seen s (get_current u rt)) as [a [|e]]; cbn [fst snd].
    + specialize (IH rt1 (log ++ a)). destruct (arun l rt1 (log ++ a)) as [[rt2 log2] out2]. destruct IH as (N2 & -> & ->).
      rewrite (nested_restores _ _ _ N). split; [eapply nested_trans; eauto|]. now rewrite app_assoc.
    + now split.
Qed.
(** The blocks that attach something *)
Lemma attached_good f g c rt log : good f g ->
  let (rt1, tok) := attach u c rt in
  let '(rt2, log2, out) := f rt1 log in
  nested u rt (detach u tok rt2) /\ log2 = log ++ fst (g c) /\ out = snd (g c).
Proof.
  intro H. destruct (attach u c rt) as [rt1 tok] eqn:E. specialize (H rt1 log). destruct (f rt1 log) as [[rt2 log2] out]. destruct H as (N & -> & ->).
  assert (C : get_current u rt1 = c).
  { change rt1 with (fst (rt1, tok)). rewrite <- E. cbn. unfold get_current, set_cur. cbn. now rewrite Nat.eqb_refl. }
  rewrite C. split; [|now split]. apply (nest_block u rt c rt2); rewrite E; [exact N|constructor].
Qed.
Lemma exec_good s : good (aexec s) (seen s).
Proof.
  induction s as [b IH|e r st b IH|c b IH|n v b IH| |c| |e|o|a b IH] using astmt_ind2.
  - exact (run_good b IH).
  - apply run_good in IH. intros rt log.
    pose proof (attached_good _ _ (set_value SPAN_KEY noop_span (get_current u rt)) rt log IH) as H.
    change (aexec (AUse e r st b) rt log)
      with (use_span (list aev) (fun _ => false) (fun _ l => l) (fun _ l => l) (fun l => l) (arun b) u noop_span e r st rt log).
    unfold use_span. destruct (attach u _ rt) as [rt1 tok]. destruct (arun b rt1 log) as [[rt2 log2] out].
    destruct H as (N & L & O). split; [exact N|]. split; [|exact O]. destruct out as [|x]; [now destruct e|]. rewrite andb_false_r. now destruct e.
  - apply run_good in IH. intros rt log. pose proof (attached_good _ _ (extract (get_current u rt) c) rt log IH) as H.
    change (aexec (AReceived c b) rt log) with (let (rt1, tok) := attach u (extract (get_current u rt) c) rt in
      let '(rt2, log2, out) := arun b rt1 log in (detach u tok rt2, log2, out)).
    destruct (attach u _ rt) as [rt1 tok]. now destruct (arun b rt1 log) as [[rt2 log2] out].
  - apply run_good in IH. intros rt log. pose proof (attached_good _ _ (set_baggage n v (get_current u rt)) rt log IH) as H.
    change (aexec (ABaggage n v b) rt log) with (let (rt1, tok) := attach u (set_baggage n v (get_current u rt)) rt in
      let '(rt2, log2, out) := arun b rt1 log in (detach u tok rt2, log2, out)).
    destruct (attach u _ rt) as [rt1 tok]. now destruct (arun b rt1 log) as [[rt2 log2] out].
  - intros rt log. cbn. split; [constructor|]. now rewrite app_nil_r.
  - intros rt log. cbn. now split; [constructor|].
  - intros rt log. change (aexec AAsk rt log) with (rt, log ++ [AAnswered (recording_of (get_current_span (get_current u rt)))], Returned).
    split; [constructor|]. split; [|reflexivity]. cbn [Spec_NoSdk.seen fst]. do 3 f_equal. unfold get_current_span. now destruct (get_value SPAN_KEY (get_current u rt)).
  - intros rt log. cbn. split; [constructor|]. now rewrite app_nil_r.
  - intros rt log. cbn. rewrite app_nil_r. split; [|now split]. destruct (Nat.eqb_spec (rop_unit o) u); [constructor|]. eapply nest_other; [eassumption|constructor].
  - apply run_good in IH. intros rt log. specialize (IH rt log).
    change (aexec (ATry a b) rt log) with (let '(rt', log', out) := arun b rt log in
      (rt', log', match out with Raised e => if a || ex_error e then Returned else Raised e | Returned => Returned end)).
    change (seen (ATry a b) (get_current u rt)) with (match seens b (get_current u rt) with
      | (x, Returned) => (x, Returned) | (x, Raised e) => (x, if a then Returned else if ex_error e then Returned else Raised e) end).
    destruct (arun b rt log) as [[rt2 log2] out]. destruct IH as (N & -> & ->). split; [exact N|].
    destruct (seens b (get_current u rt)) as [x [|e]]; cbn [fst snd]; split; try reflexivity. now destruct a.
Qed.
Lemma program_good l : good (arun l) (seens l).
Proof. apply run_good. apply Forall_forall. intros s _. apply exec_good. Qed.

(** Taking the tracer out *)
Lemma seens_app a b ctx : seens (a ++ b) ctx = match seens a ctx with (x, Returned) => (x ++ fst (seens b ctx), snd (seens b ctx)) | (x, Raised e) => (x, Raised e) end.
Proof.
  induction a as [|s a IH]; cbn [app Spec_NoSdk.seens]; [now destruct (seens b ctx)|]. destruct (seen s ctx) as [x [|e]]; [|reflexivity].
  rewrite IH. destruct (seens a ctx) as [y [|e]]; cbn [fst snd]; [now rewrite app_assoc|reflexivity].
Qed.
Lemma bares_step l : (fix bares (l : list astmt) : list astmt := match l with [] => [] | s :: r => bare s ++ bares r end) l = bares l.
Proof. induction l as [|s l IH]; [reflexivity|]. cbn [bares flat_map]. now rewrite IH. Qed.
Lemma bares_seen l : Forall (fun s => forall ctx, seens (bare s) ctx = seen s ctx) l -> forall ctx, seens (bares l) ctx = seens l ctx.
Proof.
  induction 1 as [|s l H F IH]; intro ctx; [reflexivity|]. cbn [bares flat_map Spec_NoSdk.seens]. rewrite seens_app, H. fold (bares l). now rewrite IH.
Qed.
Lemma single s ctx : seens [s] ctx = seen s ctx.
Proof. cbn [Spec_NoSdk.seens]. destruct (seen s ctx) as [x [|e]]; cbn [fst snd]; [now rewrite app_nil_r|reflexivity]. Qed.
Lemma bare_seen s : forall ctx, seens (bare s) ctx = seen s ctx.
Proof.
  induction s as [b IH|e r st b IH|c b IH|n v b IH| |c| |e|o|a b IH] using astmt_ind2; intro ctx; try (apply single); try reflexivity; cbn [bare]; rewrite bares_step;
    pose proof (bares_seen b IH) as B; rewrite ?single.
  - apply B.
  - exact (B (no_span ctx)).
  - exact (B (extract ctx c)).
  - exact (B (set_baggage n v ctx)).
  - change (seen (ATry a (bares b)) ctx) with (match seens (bares b) ctx with
      | (x, Returned) => (x, Returned) | (x, Raised e) => (x, if a then Returned else if ex_error e then Returned else Raised e) end). now rewrite B.
Qed.
Lemma program_bare l ctx : seens (bares l) ctx = seens l ctx.
Proof. apply bares_seen. apply Forall_forall. intros s _. apply bare_seen. Qed.

(** Nothing records *)
Lemma quiet_set k v ctx : k <> SPAN_KEY -> no_recording ctx -> no_recording (set_value k v ctx).
Proof. intros N H sc p. unfold get_value, set_value. rewrite dget_dset_ne by congruence. exact (H sc p). Qed.
Lemma quiet_seens l : (forall ctx c, no_recording ctx -> no_recording (extract ctx c)) ->
  Forall (fun s => forall ctx, no_recording ctx -> ~ In (AAnswered true) (fst (seen s ctx))) l ->
  forall ctx, no_recording ctx -> ~ In (AAnswered true) (fst (seens l ctx)).
Proof.
  intro X. induction 1 as [|s l H F IH]; intros ctx Q; cbn [Spec_NoSdk.seens]; [easy|]. specialize (H ctx Q).
  destruct (seen s ctx) as [a [|e]]; cbn [fst] in *; [|exact H]. rewrite in_app_iff. intros [I|I]; [now apply H|]. now apply (IH ctx Q).
Qed.
Lemma quiet_seen s : (forall ctx c, no_recording ctx -> no_recording (extract ctx c)) ->
  forall ctx, no_recording ctx -> ~ In (AAnswered true) (fst (seen s ctx)).
Proof.
  intro X. induction s as [b IH|e r st b IH|c b IH|n v b IH| |c| |e|o|a b IH] using astmt_ind2; intros ctx Q.
  - exact (quiet_seens b X IH ctx Q).
  - apply (quiet_seens b X IH (no_span ctx)). intros sc p. unfold get_value, no_span. rewrite dget_dset_eq. discriminate.
  - apply (quiet_seens b X IH). now apply X.
  - apply (quiet_seens b X IH). apply quiet_set; [discriminate|exact Q].
  - easy.
  - cbn. intros [H|[]]. discriminate.
  - cbn [Spec_NoSdk.seen fst]. intros [H|[]]. injection H as H. destruct (get_value SPAN_KEY ctx) eqn:E; try discriminate. subst. exact (Q _ _ E).
  - easy.
  - easy.
  - pose proof (quiet_seens b X IH ctx Q) as H. change (seen (ATry a b) ctx) with (match seens b ctx with
      | (x, Returned) => (x, Returned) | (x, Raised e) => (x, if a then Returned else if ex_error e then Returned else Raised e) end).
    destruct (seens b ctx) as [x [|e]]; exact H.
Qed.

(** What is passed on *)
Definition sends_in (ctx0 : context) (r : list aev) : Prop :=
  forall c', In (ASent c') r -> exists ctx c, c' = default_set (inject ctx) c /\ dget TRACESTATE c = None /\ current_span_context ctx = current_span_context ctx0.
Lemma passes_step l : (fix all (l : list astmt) : Prop := match l with [] => True | s :: r => passes s /\ all r end) l -> Forall passes l.
Proof. induction l as [|s l IH]; [constructor|]. intros [A B]. constructor; auto. Qed.
Lemma pass_seens l : Forall (fun s => passes s -> forall ctx, sends_in ctx (fst (seen s ctx))) l -> Forall passes l -> forall ctx, sends_in ctx (fst (seens l ctx)).
Proof.
  induction 1 as [|s l H F IH]; intros P ctx c' I; cbn [Spec_NoSdk.seens] in I; [destruct I|]. apply Forall_cons_iff in P as [Ps P].
  pose proof (H Ps ctx c') as H0. destruct (seen s ctx) as [a [|e]]; cbn [fst] in *; [|now apply H0].
  apply in_app_iff in I as [I|I]; [now apply H0|now apply (IH P ctx)].
Qed.
Lemma pass_seen s : passes s -> forall ctx, sends_in ctx (fst (seen s ctx)).
Proof.
  induction s as [b IH|e r st b IH|c b IH|n v b IH| |c| |e|o|a b IH] using astmt_ind2; intros P ctx; try (now destruct P); try (intros c' []; fail).
  - apply passes_step in P. exact (pass_seens b IH P ctx).
  - apply passes_step in P. intros c' I. destruct (pass_seens b IH P (set_baggage n v ctx) c' I) as (x & y & E & D & C). exists x, y. split; [exact E|]. split; [exact D|].
    rewrite C. unfold current_span_context, get_current_span, set_baggage, get_value, set_value. now rewrite dget_dset_ne by discriminate.
  - intros c' [[= <-]|[]]. exists ctx, c. now repeat split.
  - intros c' [H|[]]. discriminate.
  - apply passes_step in P. pose proof (pass_seens b IH P ctx) as H. change (seen (ATry a b) ctx) with (match seens b ctx with
      | (x, Returned) => (x, Returned) | (x, Raised e) => (x, if a then Returned else if ex_error e then Returned else Raised e) end).
    destruct (seens b ctx) as [x [|e]]; exact H.
Qed.
Lemma program_passes l : Forall passes l -> forall ctx, sends_in ctx (fst (seens l ctx)).
Proof. intro P. apply pass_seens; [|exact P]. apply Forall_forall. intros s _. apply pass_seen. Qed.
End P.

Lemma w3c_quiet ctx c : no_recording ctx -> no_recording (w3c_in ctx c).
Proof.
  intros Q sc p. unfold w3c_in. destruct (tc_extract_cases (default_getter c) ctx) as [[-> _]|(h & rest & v & t & s & f & ext & _ & _ & _ & -> & _)]; [apply Q|].
  unfold set_span_in_context, get_value, set_value. rewrite dget_dset_eq. discriminate.
Qed.
Lemma passed_on u c body rt h rest v t s f ext next sent :
  g_get (default_getter c) TRACEPARENT = Some (h :: rest) -> traceparent_text h v t s f ext -> traceparent_acceptable v t s ext ->
  Forall passes body ->
  In (ASent sent) (snd (fst (arun w3c_in w3c_out u [AReceived c body] rt []))) ->
  current_span_context (w3c_in next sent)
  = SC (Z.of_N (hex_value t)) (Z.of_N (hex_value s)) true (Z.of_N (hex_value f)) (match g_get (default_getter c) TRACESTATE with None => [] | Some hs => ts_from_header hs end).
Proof.
  intros G T A P I. pose proof (program_good w3c_in w3c_out u [AReceived c body] rt []) as R.
  destruct (arun w3c_in w3c_out u [AReceived c body] rt []) as [[rt' log'] out]. destruct R as (_ & -> & _). cbn [fst snd app] in I.
  rewrite single in I. change (seen w3c_in w3c_out (AReceived c body) (get_current u rt)) with (seens w3c_in w3c_out body (w3c_in (get_current u rt) c)) in I.
  destruct (program_passes w3c_in w3c_out body P _ _ I) as (ctx & c0 & -> & D & C).
  assert (X : let sc := current_span_context ctx in sc_is_valid sc = true /\ (0 <= sc_flags sc < 256)%Z /\ ts_wf (sc_state sc)
     /\ SC (sc_trace_id sc) (sc_span_id sc) true (sc_flags sc) (sc_state sc)
        = SC (Z.of_N (hex_value t)) (Z.of_N (hex_value s)) true (Z.of_N (hex_value f)) (match g_get (default_getter c) TRACESTATE with None => [] | Some hs => ts_from_header hs end)).
  { rewrite C. unfold w3c_in. destruct (tc_extract_observed (default_getter c) (get_current u rt)) as [[_ N]|(h' & rest' & v' & t' & s' & f' & ext' & G' & T' & A' & V & _ & E1 & E2 & E3 & E4 & _)].
    - exfalso. apply N. now exists h, rest, v, t, s, f, ext.
    - rewrite G in G'. injection G' as <- <-. destruct (traceparent_unique _ _ _ _ _ _ _ _ _ _ _ T T') as (-> & -> & -> & -> & _).
      split; [exact V|]. rewrite E1, E2, E3, E4. split; [|split; [|reflexivity]].
      + destruct T' as (_ & _ & _ & [L F] & _). pose proof (hex_value_lt f') as B. rewrite L in B. change (16 ^ N.of_nat 2)%N with 256%N in B.
        assert (X : forallb is_hex f' = true).
        { apply forallb_forall. intros x I'. rewrite Forall_forall in F. specialize (F x I'). apply is_lhex_is_hex. unfold is_lhex, is_digit, in_range.
          destruct F as [[F1 F2]|[F1 F2]]; apply N.leb_le in F1, F2; rewrite F1, F2; cbn; [reflexivity|]. now rewrite ?orb_true_r. }
        specialize (B X). lia.
      + destruct (g_get (default_getter c) TRACESTATE); [apply from_header_wf|apply (from_header_wf [])]. }
  destruct X as (V & F & W & <-). exact (proj1 (tc_round_trip_obs ctx _ next c0 eq_refl V F W D)).
Qed.
