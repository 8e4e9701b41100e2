(** Proofs about the way from a program's spans to Zipkin. *)
From Verif Require Import Proof_Dict Proof_Attr Proof_Span Proof_Zipkin Proof_Processor Proof_Tracing Props_Zipkin Props_Tracing Spec_ZipkinTracing.
From Coq Require Import Lia.
Local Open Scope nat_scope.

Section Posts.
Variable answers : nat -> reply.
Variable enc : rspan -> outcome_of zspan.
Variable res : resource.
Variable svc : pyval.
Hypothesis Svc : service_of res svc.

Lemma posted_batches bs : forall n e k, ze_closed e = false ->
  Forall (fun b => b <> [] /\ Forall (fun i : item => rs_resource (snd i) = res /\ exists z, enc (snd i) = Ok z) b) bs ->
  Forall2 (fun b p => fst p = svc /\ Forall2 (fun i : item => fun z => enc (snd i) = Ok z) b (snd p)) bs (posted answers enc n e (map XExport bs ++ repeat XShutdown k)).
Proof.
  induction bs as [|b bs IH]; intros n e k C F.
  - cbn [map app]. assert (Z0 : forall k n e, posted answers enc n e (repeat XShutdown k) = []) by (clear; induction k; intros; cbn; auto). rewrite Z0. constructor.
  - inversion F as [|? ? [NE Fb] F']; subst. cbn [map app posted].
    destruct b as [|i0 b']; [congruence|]. clear NE. destruct (zexport enc e (map snd (i0 :: b')) (answers n)) as [[p x] e1] eqn:E.
    unfold zexport in E. rewrite C in E. cbn [map] in E.
    assert (R0 : rs_resource (snd i0) = res) by (inversion Fb as [|? ? [X _] _]; exact X). rewrite R0 in E.
    destruct Svc as (Sv & b0 & c & s & Es). rewrite Sv in E. assert (T : Model_Span.truthy svc = true) by (rewrite Es; reflexivity). rewrite T in E.
    assert (En : exists zs, encode_each enc (map snd (i0 :: b')) = Ok zs /\ Forall2 (fun i : item => fun z => enc (snd i) = Ok z) (i0 :: b') zs).
    { clear - Fb. induction Fb as [|i l [_ (z & Ez)] _ (zs & A & B)]; [exists []; split; [reflexivity|constructor]|].
      exists (z :: zs). cbn [map encode_each]. rewrite Ez, A. split; [reflexivity|now constructor]. }
    destruct En as (zs & En & Fz). cbn [map] in En. rewrite En in E. injection E as <- _ <-. cbn [app]. constructor.
    + cbn [fst snd ze_service]. split; [reflexivity|exact Fz].
    + apply IH; [reflexivity|exact F'].
Qed.
End Posts.

Lemma valid_ranges c : sc_is_valid c = true -> (0 <= sc_trace_id c < 2 ^ 128 /\ 0 <= sc_span_id c < 2 ^ 64)%Z.
Proof. unfold sc_is_valid, TRACE_ID_MAX, SPAN_ID_MAX. intros H. apply andb_prop in H as [H H4]. apply andb_prop in H as [H H3]. apply andb_prop in H as [H1 H2].
  apply Z.ltb_lt in H1, H3. apply Z.leb_le in H2, H4. lia. Qed.
Lemma window_nodup {K V} (m : option Z) (l : list (K * V)) : NoDup (map fst l) -> NoDup (map fst (window m l)).
Proof.
  destruct m as [z|]; [|trivial]. cbn. unfold lastn. generalize (length l - Z.to_nat z). intros k. revert l. induction k as [|k IH]; intros [|x l] H; cbn; auto.
  - apply IH. now inversion H.
Qed.

Section End_to_end.
Context {G : Type}.
Variable gen_trace_id gen_span_id : G -> Z * G.
Variable tr : tracer.
Variable res : resource.
Variable maxq maxb : nat.
Hypothesis L : limits_ok (t_limits tr).
Hypothesis V : valid_ids gen_trace_id gen_span_id.
Hypothesis B : built_in (t_sampler tr).
Hypothesis Q1 : 1 <= maxq.
Hypothesis B1 : 1 <= maxb.
Notation run := (tw_run gen_trace_id gen_span_id tr res maxq maxb).

Lemma parent_valid g h n p c : parent_of (run g h) n p = Some c -> sc_is_valid c = true.
Proof.
  assert (S1 : forall k, span_in k = Some c -> sc_is_valid c = true).
  { intros k. unfold span_in. destruct (sc_is_valid (current_span_context k)) eqn:E; [|discriminate]. now intros [= <-]. }
  destruct p as [m base|k]; cbn [parent_of]; eauto. destruct (Nat.ltb m n); eauto.
  intros H. eapply context_valid; eassumption.
Qed.
Lemma span_ids g h n x : is_span (t_limits tr) res (run g h) h n x -> ids_in_range (rs_span x).
Proof.
  intros (a & later & ctx & S1 & C & K & _). assert (VC : sc_is_valid ctx = true) by (eapply context_valid; eassumption).
  apply valid_ranges in VC. unfold ids_in_range. rewrite (ca_ctx _ _ _ _ _ _ _ _ _ _ K), (ca_parent _ _ _ _ _ _ _ _ _ _ K).
  split; [tauto|]. split; [tauto|]. intros p P. apply parent_valid in P. now apply valid_ranges in P.
Qed.
Lemma span_nodup g h n x : is_span (t_limits tr) res (run g h) h n x -> NoDup (keys (ba_dict (sp_attrs (rs_span x)))).
Proof.
  intros (a & later & ctx & S1 & C & K & _). destruct (ca_attrs _ _ _ _ _ _ _ _ _ _ K) as (ps & _ & -> & _).
  apply window_nodup, latest_nodup.
Qed.

Variable int_text float_text : Z -> str.
Variable maxlen : option Z.
Lemma span_shows g h n x z : NoDup (keys (r_attrs res)) -> is_span (t_limits tr) res (run g h) h n x ->
  encode_v2 int_text float_text maxlen x = Ok z -> shows int_text float_text maxlen x z.
Proof.
  intros ND I E. destruct (C80_v2_span int_text float_text maxlen x z (span_ids g h n x I) E) as (R & K & _).
  split; [exact R|]. split; [exact K|]. apply C79_tags; [|exact (span_nodup g h n x I)|exact E].
  destruct I as (a & later & ctx & _ & _ & _ & _ & _ & _ & ->). exact ND.
Qed.
Lemma span_encodes g h n x : kinds_known h -> is_span (t_limits tr) res (run g h) h n x ->
  exists z, encode_v2 int_text float_text maxlen x = Ok z.
Proof.
  intros KK (a & later & ctx & S1 & C & K & E & NE & _). destruct (end_of n later) as [en|] eqn:Een; [|congruence].
  eapply v2_total; [exact (ca_start _ _ _ _ _ _ _ _ _ _ K)|exact E|]. rewrite (ca_kind _ _ _ _ _ _ _ _ _ _ K). exact (KK _ _ _ S1).
Qed.

Lemma posts_of_run g h svc0 svc answers : NoDup (keys (r_attrs res)) -> service_of res svc -> kinds_known h ->
  Forall (fun b => 1 <= length b <= maxb) (exports (b_log (tw_proc (run g h))))
  /\ Forall2 (fun b p => fst p = svc
       /\ Forall2 (fun i z => is_span (t_limits tr) res (run g h) h (fst i) (snd i)
                      /\ encode_v2 int_text float_text maxlen (snd i) = Ok z /\ shows int_text float_text maxlen (snd i) z) b (snd p))
       (exports (b_log (tw_proc (run g h)))) (posted answers (encode_v2 int_text float_text maxlen) 0 (ZExp svc0 false) (b_log (tw_proc (run g h)))).
Proof.
  intros ND SV KK. destruct (run_pinv gen_trace_id gen_span_id tr res maxq maxb L V B g h) as [_ R].
  destruct (c37_log _ _ maxq maxb Q1 B1 _ R) as (bs & n & E). destruct (c35_bounds _ _ maxq maxb Q1 B1 _ R) as [_ BD].
  assert (IB : forall b, In b bs -> In (XExport b) (b_log (tw_proc (run g h)))).
  { intros b I. rewrite E. apply in_or_app. left. now apply in_map. }
  assert (IS : forall b i, In b bs -> In i b -> is_span (t_limits tr) res (run g h) h (fst i) (snd i)).
  { intros b [k x] I J. refine (proj1 (proj2 (C90_exported G _ _ tr res maxq maxb L V B Q1 B1 g h) k x _)). unfold exported, handed_over.
    apply in_flat_map. exists (XExport b). auto. }
  rewrite E. replace (exports (map XExport bs ++ repeat XShutdown n)) with bs
    by (unfold exports; rewrite flat_map_app; replace (flat_map _ (repeat XShutdown n)) with (@nil (list item)) by (clear; induction n; auto); rewrite app_nil_r; clear; induction bs; cbn; congruence).
  split.
  { apply Forall_forall. intros b I. exact (BD b (IB b I)). }
  assert (F : Forall (fun b => b <> [] /\ Forall (fun i : item => rs_resource (snd i) = res /\ exists z, encode_v2 int_text float_text maxlen (snd i) = Ok z) b) bs).
  { apply Forall_forall. intros b I. split.
    - pose proof (BD b (IB b I)) as [X _]. destruct b; [cbn in X; lia|discriminate].
    - apply Forall_forall. intros i J. pose proof (IS b i I J) as X. split; [|exact (span_encodes _ _ _ _ KK X)].
      destruct X as (a & later & ctx & _ & _ & _ & _ & _ & _ & X). exact X. }
  pose proof (posted_batches answers (encode_v2 int_text float_text maxlen) res svc SV bs 0 (ZExp svc0 false) n eq_refl F) as P.
  clear E F BD IB. revert IS P. generalize (posted answers (encode_v2 int_text float_text maxlen) 0 (ZExp svc0 false) (map XExport bs ++ repeat XShutdown n)).
  induction bs as [|b bs IH]; intros ps IS P; inversion P as [|? p ? ps' [P1 P2] P3]; subst; constructor.
  - split; [reflexivity|]. assert (X : forall i, In i b -> is_span (t_limits tr) res (run g h) h (fst i) (snd i)) by (intros i J; exact (IS b i (or_introl eq_refl) J)).
    clear IH IS P P3. induction P2 as [|i z b zs Ez _ IH2]; constructor.
    + split; [apply X; now left|]. split; [exact Ez|]. exact (span_shows g h (fst i) (snd i) z ND (X i (or_introl eq_refl)) Ez).
    + apply IH2. intros j J. apply X. now right.
  - apply IH; [|exact P3]. intros b' i I J. exact (IS b' i (or_intror I) J).
Qed.

Lemma forall2_combine {A B0} (R : A -> B0 -> Prop) l l' a b : Forall2 R l l' -> In (a, b) (combine l l') -> R a b /\ In a l.
Proof.
  induction 1 as [|x y l l' H _ IH]; cbn; [tauto|]. intros [E|I]; [injection E as <- <-; auto|]. destruct (IH I). auto.
Qed.
Lemma sent_is g h svc0 svc answers n z : NoDup (keys (r_attrs res)) -> service_of res svc -> kinds_known h ->
  sent_as (exports (b_log (tw_proc (run g h)))) (posted answers (encode_v2 int_text float_text maxlen) 0 (ZExp svc0 false) (b_log (tw_proc (run g h)))) n z ->
  exists x, is_span (t_limits tr) res (run g h) h n x /\ encode_v2 int_text float_text maxlen x = Ok z /\ shows int_text float_text maxlen x z.
Proof.
  intros ND SV KK (b & p & x & I & J). destruct (posts_of_run g h svc0 svc answers ND SV KK) as [_ F].
  destruct (forall2_combine _ _ _ _ _ F I) as [[_ F2] _]. destruct (forall2_combine _ _ _ _ _ F2 J) as [X _]. eauto.
Qed.
Lemma v2_parts x z : encode_v2 int_text float_text maxlen x = Ok z ->
  z_trace z = format_trace_id (sc_trace_id (sp_ctx (rs_span x))) /\ z_id z = format_span_id (sc_span_id (sp_ctx (rs_span x)))
  /\ z_parent z = option_map (fun p => format_span_id (sc_span_id p)) (sp_parent (rs_span x)).
Proof.
  unfold encode_v2. destruct (sp_start (rs_span x)); [|discriminate]. destruct (sp_end (rs_span x)); [|discriminate].
  destruct (kind_text (sp_kind (rs_span x))); [|discriminate]. intros [= <-]. auto.
Qed.
Lemma started_once h : forall n a later a' later', started_by h n a later -> started_by h n a' later' -> a = a'.
Proof.
  intros n a later a' later' (b1 & e1 & E1 & N1) (b2 & e2 & E2 & N2). revert n h b2 E1 E2 N1 N2.
  induction b1 as [|x b1 IH]; intros n h b2 E1 E2 N1 N2.
  - destruct b2 as [|y b2].
    + rewrite E1 in E2. cbn [app] in E2. destruct a, a'. cbn in *. injection E2 as -> _ -> -> -> -> -> -> -> _. reflexivity.
    + rewrite E1 in E2. cbn [app] in E2. injection E2 as <- _. cbn in N1, N2. congruence.
  - destruct b2 as [|y b2].
    + rewrite E1 in E2. cbn [app] in E2. injection E2 as -> _. cbn in N1, N2. congruence.
    + rewrite E1 in E2. cbn [app] in E2. injection E2 as <- E2. destruct x; cbn [starts] in N1, N2;
        try (eapply (IH n (b1 ++ _ :: later) b2 eq_refl E2 N1 N2)).
      destruct n as [|n]; [discriminate|]. injection N1 as N1. injection N2 as N2. eapply (IH n (b1 ++ _ :: later) b2 eq_refl E2 N1 N2).
Qed.
Lemma tree_sent g h svc0 svc answers : NoDup (keys (r_attrs res)) -> service_of res svc -> kinds_known h ->
  let w := run g h in
  let posts := posted answers (encode_v2 int_text float_text maxlen) 0 (ZExp svc0 false) (b_log (tw_proc w)) in
  let sent := sent_as (exports (b_log (tw_proc w))) posts in
  forall n a later z, started_by h n a later -> sent n z ->
  (forall m base z', c_place a = InSpan m base -> m < n -> sent m z' -> z_parent z = Some (z_id z') /\ z_trace z = z_trace z')
  /\ (forall c, c_place a = InContext c -> sc_is_valid (current_span_context c) = false -> z_parent z = None)
  /\ (forall c, c_place a = InContext c -> sc_is_valid (current_span_context c) = true ->
        hex_id 32 (sc_trace_id (current_span_context c)) (z_trace z)
        /\ exists t, z_parent z = Some t /\ hex_id 16 (sc_span_id (current_span_context c)) t).
Proof.
  intros ND SV KK w posts sent n a later z S1 I. destruct (sent_is g h svc0 svc answers n z ND SV KK I) as (x & IS & E & SH).
  destruct IS as (a' & later' & ctx & S1' & C & K & _). rewrite <- (started_once _ _ _ _ _ _ S1 S1') in K.
  pose proof (ca_parent _ _ _ _ _ _ _ _ _ _ K) as KP. pose proof (ca_ctx _ _ _ _ _ _ _ _ _ _ K) as KC.
  destruct (v2_parts _ _ E) as (P1 & P2 & P3). rewrite KP in P3. rewrite KC in P1.
  split; [|split].
  - intros m base z' PL LT J. destruct (sent_is g h svc0 svc answers m z' ND SV KK J) as (y & ISy & Ey & _).
    destruct ISy as (b & laterb & ctxb & S2 & Cb & Kb & _). destruct (v2_parts _ _ Ey) as (R1 & R2 & _). rewrite (ca_ctx _ _ _ _ _ _ _ _ _ _ Kb) in R1, R2.
    assert (PA : parent_of (run g h) n (c_place a) = Some ctxb).
    { rewrite PL. cbn [parent_of]. apply Nat.ltb_lt in LT. now rewrite LT. }
    rewrite PA in P3. cbn [option_map] in P3. split; [congruence|].
    destruct (C90_family G _ _ tr res maxq maxb L V g h n a later _ _ S1 C PA) as (F & _). congruence.
  - intros c PL NV. rewrite PL in P3. unfold parent_of, span_in in P3. now rewrite NV in P3.
  - intros c PL VA. assert (PA : parent_of (run g h) n (c_place a) = Some (current_span_context c)).
    { rewrite PL. unfold parent_of, span_in. now rewrite VA. }
    destruct (C90_family G _ _ tr res maxq maxb L V g h n a later _ _ S1 C PA) as (F & _).
    destruct SH as ((H1 & _ & _ & _ & _ & _ & H2) & _). rewrite KC, F in H1. split; [exact H1|]. rewrite KP, PA in H2.
    destruct (z_parent z) as [t|]; [eauto|contradiction].
Qed.
End End_to_end.
