From Verif Require Proof_Tracing.
From Verif Require Import Spec_Blocks Proof_Runtime Proof_Sampling Proof_Span.
Local Open Scope nat_scope.

Lemma app_cons_split {A} (l1 l2 pre post : list A) x : l1 ++ l2 = pre ++ x :: post ->
  (exists p, l1 = pre ++ x :: p /\ post = p ++ l2) \/ (exists p, pre = l1 ++ p /\ l2 = p ++ x :: post).
Proof.
  revert pre. induction l1 as [|y l1 IH]; intros pre E; cbn in E.
  - right. now exists pre.
  - destruct pre as [|z pre]; cbn in E.
    + injection E as -> E. left. exists l1. now rewrite E.
    + injection E as -> E. destruct (IH _ E) as [(p & -> & ->)|(p & -> & ->)].
      * left. now exists p.
      * right. now exists p.
Qed.

Lemma calls_on_app n l1 l2 : calls_on n (l1 ++ l2) = calls_on n l1 ++ calls_on n l2.
Proof. apply flat_map_app. Qed.
Lemma starts_app l1 l2 : starts (l1 ++ l2) = starts l1 + starts l2.
Proof. unfold starts. now rewrite filter_app, app_length. Qed.
Lemma clock_times_app l1 l2 : clock_times (l1 ++ l2) = clock_times l1 ++ clock_times l2.
Proof. apply flat_map_app. Qed.
Lemma calls_on_exits n ops : calls_on n (map (BExit n) ops) = ops.
Proof.
  induction ops as [|o ops IH]; [reflexivity|]. cbn [map]. unfold calls_on in *. cbn [flat_map].
  now rewrite Nat.eqb_refl, IH.
Qed.

Definition enc_step (l : list (nat + context)) (e : bev) : list (nat + context) :=
  match e with
  | BEnter n _ _ => inl n :: l
  | BAttach c => inr c :: l
  | BLeave _ _ | BDetach => tl l
  | _ => l
  end.
Definition enc (log : list bev) (l : list (nat + context)) := fold_left enc_step log l.
Lemma enclosing_enc log : enclosing log = enc log [].
Proof. reflexivity. Qed.
Lemma enc_app l1 l2 s : enc (l1 ++ l2) s = enc l2 (enc l1 s).
Proof. apply fold_left_app. Qed.
Lemma enc_exits n ops s : enc (map (BExit n) ops) s = s.
Proof. induction ops as [|o ops IH]; [reflexivity|]. exact IH. Qed.
Lemma well_nested_enc d l : well_nested d l -> forall s, enc l s = s.
Proof.
  induction 1 as [|n o l _ IH|n l _ IH|c inner l _ IH1 _ IH2|n b now inner out live t1 t2 l _ IH1 _ IH2]; intros s.
  - reflexivity.
  - apply IH.
  - apply IH.
  - cbn. change (enc (inner ++ BDetach :: l) (inr c :: s) = s). rewrite enc_app, IH1. cbn. apply IH2.
  - change (enc (inner ++ BLeave n out :: map (BExit n) (leaving d b out live t1 t2) ++ l) (inl n :: s) = s).
    rewrite enc_app, IH1. cbn. rewrite fold_left_app. fold (enc (map (BExit n) (leaving d b out live t1 t2)) s).
    rewrite enc_exits. apply IH2.
Qed.
Lemma well_nested_prefix d l : well_nested d l -> forall pre post, l = pre ++ post ->
  forall s, enc pre s = enc pre [] ++ s.
Proof.
  assert (pre_cases : forall (x : bev) (l pre post : list bev), x :: l = pre ++ post ->
    pre = [] \/ exists p, pre = x :: p /\ l = p ++ post).
  { intros x l0 [|y pre] post E; [now left|]. right. injection E as <- E. now exists pre. }
  assert (app_cases : forall (l1 l2 pre post : list bev), l1 ++ l2 = pre ++ post ->
    (exists p, l1 = pre ++ p) \/ exists p, pre = l1 ++ p /\ l2 = p ++ post).
  { induction l1 as [|y l1 IH]; intros l2 pre post E; [right; now exists pre|].
    destruct pre as [|z pre]; [left; now exists (y :: l1)|]. injection E as <- E.
    destruct (IH _ _ _ E) as [(p & ->)|(p & -> & Hp)]; [left|right]; exists p; [reflexivity|now split]. }
  induction 1 as [|n o l Hl IH|n l Hl IH|c inner l Hi IH1 Hl IH2|n b now inner out live t1 t2 l Hi IH1 Hl IH2];
    intros pre post E s.
  - destruct pre; [reflexivity|discriminate].
  - destruct (pre_cases _ _ _ _ E) as [->|(p & -> & E')]; [reflexivity|]. now apply (IH p post).
  - destruct (pre_cases _ _ _ _ E) as [->|(p & -> & E')]; [reflexivity|]. now apply (IH p post).
  - destruct (pre_cases _ _ _ _ E) as [->|(p & -> & E')]; [reflexivity|].
    change (enc p (inr c :: s) = enc p [inr c] ++ s).
    destruct (app_cases _ _ _ _ E') as [(q & Eq)|(q & -> & E2)].
    + rewrite (IH1 p q Eq (inr c :: s)), (IH1 p q Eq [inr c]), <- app_assoc. reflexivity.
    + rewrite !enc_app, !(well_nested_enc _ _ Hi).
      destruct (pre_cases _ _ _ _ E2) as [->|(r & -> & E3)]; [reflexivity|]. cbn [enc fold_left enc_step tl].
      now apply (IH2 r post).
  - destruct (pre_cases _ _ _ _ E) as [->|(p & -> & E')]; [reflexivity|].
    change (enc p (inl n :: s) = enc p [inl n] ++ s).
    destruct (app_cases _ _ _ _ E') as [(q & Eq)|(q & -> & E2)].
    + rewrite (IH1 p q Eq (inl n :: s)), (IH1 p q Eq [inl n]), <- app_assoc. reflexivity.
    + rewrite !enc_app, !(well_nested_enc _ _ Hi).
      destruct (pre_cases _ _ _ _ E2) as [->|(r & -> & E3)]; [reflexivity|].
      change (enc r s = enc r [] ++ s).
      destruct (app_cases _ _ _ _ E3) as [(q & Eq)|(q & -> & E4)].
      * assert (Hr : forall l', (exists q, map (BExit n) l' = r ++ q) -> forall s, enc r s = s).
        { clear. induction r as [|e r IH]; intros l' (q & Eq) s; [reflexivity|].
          destruct l' as [|o l']; [discriminate|]. injection Eq as <- Eq. apply (IH l'). now exists q. }
        rewrite !(Hr _ (ex_intro _ q Eq)). reflexivity.
      * rewrite !enc_app, !enc_exits. now apply (IH2 q post).
Qed.

Lemma enc_members l : forall s m, In (inl m) (enc l s) -> In (inl m) s \/ exists b now, In (BEnter m b now) l.
Proof.
  induction l as [|e l IH]; intros s m Hm; [now left|]. change (In (inl m) (enc l (enc_step s e))) in Hm.
  destruct (IH _ _ Hm) as [Hs|(b & now & Hb)]; [|right; exists b, now; now right].
  destruct e; cbn [enc_step] in Hs; try (now left); try (left; destruct s; [contradiction|now right]).
  - destruct Hs as [[= ->]|Hs]; [right; exists b, now; now left|now left].
  - destruct Hs as [[=]|Hs]; now left.
Qed.

Lemma well_nested_app d l1 l2 : well_nested d l1 -> well_nested d l2 -> well_nested d (l1 ++ l2).
Proof.
  induction 1 as [|n o l _ IH|n l _ IH|c inner l Hi _ _ IH2|n b now inner out live t1 t2 l Hi _ _ IH2]; intros H.
  - exact H.
  - constructor. now apply IH.
  - constructor. now apply IH.
  - cbn. rewrite <- app_assoc. cbn. constructor; [assumption|now apply IH2].
  - cbn. rewrite <- app_assoc. cbn. rewrite <- app_assoc. constructor; [assumption|now apply IH2].
Qed.

(** ** Spans and calls *)
Definition after (ops : list sop) (s : started) : started := fold_left (fun s o => call_span o s) ops s.
Lemma after_app a b s : after (a ++ b) s = after b (after a s).
Proof. apply fold_left_app. Qed.
Lemma call_span_context o s : started_context (call_span o s) = started_context s.
Proof.
  destruct s as [w|sc]; [|reflexivity].
  change (sp_ctx (w_span (sw_step (sw_step w (ACall o)) AOnEnd)) = sp_ctx (w_span w)).
  assert (E2 : forall w a, sp_ctx (w_span (sw_step w a)) = sp_ctx (w_span w)).
  { clear. intros w [o'|]; cbn.
    - destruct o'; cbn; unfold set_attributes, add_event, add_link, check_ended, set_status, record_exception,
        start_locked, end_locked; repeat (match goal with |- context [match ?x with _ => _ end] => destruct x end);
        try reflexivity; unfold add_event, check_ended; repeat (match goal with |- context [match ?x with _ => _ end] => destruct x end); reflexivity.
    - now destruct (w_pending w). }
  now rewrite !E2.
Qed.
Lemma after_context ops s : started_context (after ops s) = started_context s.
Proof.
  revert s. induction ops as [|o ops IH]; intros s; [reflexivity|]. cbn. unfold after in IH.
  rewrite IH. apply call_span_context.
Qed.
Lemma nth_call_eq n o l s : nth_error l n = Some s -> nth_error (call_nth n o l) n = Some (call_span o s).
Proof.
  revert n. induction l as [|x l IH]; intros [|n] E; try discriminate; cbn in *; [now injection E as ->|]. now apply IH.
Qed.
Lemma nth_call_ne n m o l : m <> n -> nth_error (call_nth n o l) m = nth_error l m.
Proof.
  revert n m. induction l as [|x l IH]; intros [|n] [|m] Hn; cbn; try reflexivity; [congruence|]. apply IH. congruence.
Qed.
Lemma call_nth_length n o l : length (call_nth n o l) = length l.
Proof. revert n. induction l as [|x l IH]; intros [|n]; cbn; [reflexivity..|]. now rewrite IH. Qed.

Section Blocks.
Context {G : Type}.
Variable gen_trace_id gen_span_id : G -> Z * G.
Variable tr : tracer.
Variable u : nat.
Variable clock : nat -> Z.
Variable noise : nat -> list nact.
Variable describe : exc -> exc_info.
Hypothesis Hl : limits_ok (t_limits tr).
Notation exec := (exec gen_trace_id gen_span_id tr u clock noise describe).
Notation run := (run gen_trace_id gen_span_id tr u clock noise describe).
Notation start := (start_span gen_trace_id gen_span_id tr).
Notation start_block := (Model_Blocks.start_block gen_trace_id gen_span_id tr).
Notation others := (Model_Blocks.others gen_trace_id gen_span_id tr u noise).
Notation nstep := (Model_Blocks.nstep gen_trace_id gen_span_id tr u).
Notation store := (@store G).
Implicit Types st : store.

Definition born (cur : context) (b : block) (now : Z) (s : started) : Prop :=
  exists g, fst (start cur (b_context b) (b_name b) (b_kind b) (b_attrs b) (b_links b) (b_start b) now g) = Ok s.

Lemma start_block_ok cur b now e st : exists s g, born cur b now s
  /\ start_block cur b now e st
     = (Ok s, log_event (e (length (st_spans st))) (Store g (st_spans st ++ [s]) (st_tick st) (st_log st))).
Proof.
  unfold Model_Blocks.start_block.
  pose proof (start_span_spec gen_trace_id gen_span_id tr cur (b_context b) (b_name b) (b_kind b) (b_attrs b) (b_links b)
                (b_start b) now (st_gen st) Hl) as H. cbn zeta in H.
  match type of H with let '(_, _) := ?x in _ => destruct x as [tid g1] end. destruct H as (s & E & _).
  exists s, (snd (gen_span_id g1)). split; [exists (st_gen st); now rewrite E|]. now rewrite E.
Qed.

Definition mono := forall i j, i <= j -> (clock i <= clock j)%Z.

(** What any stretch of an execution does to the store. *)
Record grows st st' (new : list bev) : Prop := Grows {
  g_log : st_log st' = st_log st ++ new;
  g_len : length (st_spans st') = length (st_spans st) + starts new;
  g_spans : forall n s, nth_error (st_spans st) n = Some s ->
              nth_error (st_spans st') n = Some (after (calls_on n new) s);
  g_tick : st_tick st <= st_tick st';
  g_times : mono -> StronglySorted Z.le (clock_times new)
              /\ Forall (fun x => (clock (st_tick st) <= x)%Z /\ exists k, k < st_tick st' /\ (x <= clock k)%Z) (clock_times new)
}.
Lemma grows_refl st : grows st st [].
Proof.
  constructor; [now rewrite app_nil_r|cbn; lia|intros n s E; exact E|lia|]. intros _. split; constructor.
Qed.
Lemma sorted_app (l1 l2 : list Z) : StronglySorted Z.le l1 -> StronglySorted Z.le l2 ->
  (forall x y, In x l1 -> In y l2 -> (x <= y)%Z) -> StronglySorted Z.le (l1 ++ l2).
Proof.
  induction l1 as [|x l1 IH]; intros H1 H2 H; [exact H2|]. cbn. inversion H1 as [|? ? H3 H4]; subst. constructor.
  - apply IH; [assumption..|]. intros a b Ha Hb. apply H; [now right|assumption].
  - apply Forall_app. split; [assumption|]. apply Forall_forall. intros y Hy. apply H; [now left|assumption].
Qed.
Lemma grows_app st1 st2 st3 n1 n2 : grows st1 st2 n1 -> grows st2 st3 n2 -> grows st1 st3 (n1 ++ n2).
Proof.
  intros [L1 N1 S1 T1 C1] [L2 N2 S2 T2 C2]. constructor.
  - now rewrite L2, L1, app_assoc.
  - rewrite N2, N1, starts_app. lia.
  - intros n s E. rewrite calls_on_app, after_app. apply S2, S1, E.
  - lia.
  - intros M. destruct (C1 M) as [A1 B1], (C2 M) as [A2 B2]. rewrite clock_times_app.
    rewrite Forall_forall in B1, B2. split.
    + apply sorted_app; [assumption..|]. intros x y Hx Hy. destruct (B1 x Hx) as (_ & k & Hk & Hxk).
      destruct (B2 y Hy) as (Hy1 & _). assert (clock k <= clock (st_tick st2))%Z by (apply M; lia). lia.
    + apply Forall_forall. intros x Hx. apply in_app_iff in Hx. destruct Hx as [Hx|Hx].
      * destruct (B1 x Hx) as (H1 & k & Hk & H2). split; [assumption|]. exists k. split; [lia|assumption].
      * destruct (B2 x Hx) as (H1 & k & Hk & H2). split; [|exists k; now split].
        assert (clock (st_tick st1) <= clock (st_tick st2))%Z by (apply M; lia). lia.
Qed.
Lemma grows_log e st : (match e with BLeave _ _ | BAttach _ | BDetach => True | _ => False end) ->
  grows st (log_event e st) [e].
Proof.
  intros He. constructor; cbn; [reflexivity| | |lia|].
  - destruct e; try contradiction; cbn; lia.
  - intros n s E. destruct e; try contradiction; exact E.
  - intros _. destruct e; try contradiction; split; constructor.
Qed.
Lemma grows_tick st : grows st (tick st) [].
Proof. constructor; [now rewrite app_nil_r|cbn; lia|intros n s E; exact E|cbn; lia|]. intros _. split; constructor. Qed.
Lemma calls_on_one n m o e : e = BCall m o \/ e = BExit m o -> calls_on n [e] = if Nat.eqb m n then [o] else [].
Proof. intros [-> | ->]; cbn; now rewrite app_nil_r. Qed.
Lemma grows_call n o st : grows st (call_on n o (BCall n o) st) [BCall n o].
Proof.
  constructor; cbn [call_on log_event st_log st_spans st_tick].
  - reflexivity.
  - rewrite call_nth_length. cbn. lia.
  - intros m s E. rewrite (calls_on_one _ n o) by now left. destruct (Nat.eqb_spec n m) as [->|Hn]; cbn.
    + now apply nth_call_eq.
    + rewrite nth_call_ne by congruence. exact E.
  - lia.
  - intros _. split; constructor.
Qed.
Lemma grows_exit n (o : Z -> sop) st :
  (forall now, clock_times [BExit n (o now)] = [] \/ clock_times [BExit n (o now)] = [now]) ->
  grows st (exit_call clock n o st) [BExit n (o (clock (st_tick st)))].
Proof.
  intros Ho. constructor; cbn [exit_call call_on log_event tick st_log st_spans st_tick].
  - reflexivity.
  - rewrite call_nth_length. cbn. lia.
  - intros m s E. rewrite (calls_on_one _ n (o (clock (st_tick st)))) by now right.
    destruct (Nat.eqb_spec n m) as [->|Hn]; cbn.
    + now apply nth_call_eq.
    + rewrite nth_call_ne by congruence. exact E.
  - lia.
  - intros _. destruct (Ho (clock (st_tick st))) as [E|E]; rewrite E; (split; [constructor; constructor|constructor]).
    + split; [lia|]. exists (st_tick st). split; lia.
    + constructor.
Qed.
Lemma grows_started cur b now e st : (e = BOther \/ (now = clock (pred (st_tick st)) /\ 0 < st_tick st /\ e = fun n => BEnter n b now)) ->
  forall st0, (st0 = st \/ st = tick st0) -> (e = BOther \/ st = tick st0) ->
  exists s, born cur b now s /\ start_block cur b now e st = (Ok s, snd (start_block cur b now e st))
  /\ nth_error (st_spans (snd (start_block cur b now e st))) (length (st_spans st)) = Some s
  /\ grows st0 (snd (start_block cur b now e st)) [e (length (st_spans st))].
Proof.
  intros He st0 H0 H1. destruct (start_block_ok cur b now e st) as (s & g & Hb & E). exists s. split; [assumption|].
  rewrite E. cbn [snd]. split; [reflexivity|].
  assert (Hs : st_spans st = st_spans st0 /\ st_log st = st_log st0 /\ st_tick st0 <= st_tick st)
    by (destruct H0 as [-> | ->]; cbn; auto).
  destruct Hs as (Hs & Hg & Ht). cbn [log_event st_spans]. split.
  - rewrite nth_error_app2, Nat.sub_diag by lia. reflexivity.
  - constructor; cbn [log_event st_log st_spans st_tick].
    + now rewrite Hg.
    + rewrite app_length, Hs. destruct He as [-> |(_ & _ & ->)]; reflexivity.
    + intros n x En. rewrite nth_error_app1 by (rewrite Hs; apply nth_error_Some; congruence).
      rewrite Hs, En. destruct He as [-> |(_ & _ & ->)]; reflexivity.
    + exact Ht.
    + intros M. destruct H1 as [-> |H1].
      * split; constructor.
      * destruct He as [-> |(Hn & _ & ->)]; [split; constructor|]. subst st. cbn in Hn. subst now. cbn.
        split; (constructor; [|constructor]); [constructor|]. split; [lia|]. exists (st_tick st0). split; lia.
Qed.

Definition is_noise (e : bev) : Prop := match e with BCall _ _ | BOther _ => True | _ => False end.
Lemma noise_nested new : Forall is_noise new -> well_nested describe new.
Proof.
  induction 1 as [|e l He _ IH]; [constructor|]. destruct e; try contradiction; now constructor.
Qed.
Lemma nested_trans a b c : nested u a b -> nested u b c -> nested u a c.
Proof.
  induction 1 as [s|s x s2 s' H1 _ _ IH2|s o s' Ho _ IH|s t s' Hst _ IH]; intros H.
  - exact H.
  - eapply nest_block; [exact H1|]. now apply IH2.
  - eapply nest_other; [exact Ho|]. now apply IH.
  - eapply nest_stray; [exact Hst|]. now apply IH.
Qed.
Lemma nsteps_ok l : forall rt st, let (rt', st') := fold_left nstep l (rt, st) in
  exists new, grows st st' new /\ Forall is_noise new /\ nested u rt rt'.
Proof.
  induction l as [|a l IH]; intros rt st; cbn [fold_left].
  - exists []. split; [apply grows_refl|]. split; [constructor|apply nest_nil].
  - destruct (nstep (rt, st) a) as [rt1 st1] eqn:E1. specialize (IH rt1 st1).
    destruct (fold_left nstep l (rt1, st1)) as [rt2 st2]. destruct IH as (new & Hg & Hn & Hr).
    assert (exists n1, grows st st1 n1 /\ Forall is_noise n1 /\ nested u rt rt1) as (n1 & Hg1 & Hn1 & Hr1).
    { destruct a as [cur b now|n o|o]; cbn [Model_Blocks.nstep] in E1; injection E1 as <- <-.
      - destruct (grows_started cur b now BOther st (or_introl eq_refl) st (or_introl eq_refl) (or_introl eq_refl))
          as (s & _ & _ & _ & H). exists [BOther (length (st_spans st))]. split; [exact H|]. split; [|apply nest_nil].
        repeat constructor.
      - exists [BCall n o]. split; [apply grows_call|]. split; [repeat constructor|apply nest_nil].
      - exists []. split; [apply grows_refl|]. split; [constructor|]. destruct (Nat.eqb_spec (rop_unit o) u) as [_|H].
        + apply nest_nil.
        + eapply nest_other; [exact H|apply nest_nil]. }
    exists (n1 ++ new). split; [eapply grows_app; eassumption|]. split; [apply Forall_app; now split|].
    eapply nested_trans; eassumption.
Qed.
Lemma others_ok rt st : let (rt', st') := others rt st in
  exists new, grows st st' new /\ Forall is_noise new /\ nested u rt rt'.
Proof.
  unfold Model_Blocks.others. pose proof (nsteps_ok (noise (st_tick st)) rt (tick st)) as H.
  destruct (fold_left nstep (noise (st_tick st)) (rt, tick st)) as [rt' st']. destruct H as (new & Hg & H).
  exists new. split; [|exact H]. exact (grows_app _ _ _ [] new (grows_tick st) Hg).
Qed.

(** What is known of the blocks that were entered. *)
Definition rec0 (s : started) : bool := match s with Recording _ => true | NonRecording _ => false end.
Definition entered (base : context) st st' (new : list bev) : Prop :=
  forall pre n b now post, new = pre ++ BEnter n b now :: post ->
  exists cur s0 inner out live t1 t2 rest,
    born cur b now s0 /\ n = length (st_spans st) + starts pre
    /\ nth_error (st_spans st') n = Some (after (calls_on n post) s0)
    /\ current_span_context (resolve cur (b_context b)) = found base (st_spans st') b (enclosing pre)
    /\ post = inner ++ BLeave n out :: map (BExit n) (leaving describe b out live t1 t2) ++ rest
    /\ well_nested describe inner
    /\ live = rec0 s0 && negb (existsb is_end (calls_on n inner)).

Lemma noise_entered base st st' new : Forall is_noise new -> entered base st st' new.
Proof.
  intros H pre n b now post ->. apply Forall_app in H. destruct H as [_ H]. inversion H. contradiction.
Qed.
Lemma rec0_after ops s : rec0 (after ops s) = rec0 s.
Proof. revert s. induction ops as [|o ops IH]; intros s; [reflexivity|]. cbn. unfold after in IH. rewrite IH. now destruct s. Qed.

Lemma enclosing_known base st st' new pre post m : entered base st st' new -> new = pre ++ post ->
  In (inl m) (enclosing pre) -> exists s, nth_error (st_spans st') m = Some s.
Proof.
  intros He -> Hm. rewrite enclosing_enc in Hm. destruct (enc_members _ _ _ Hm) as [[]|(b & now & Hb)].
  apply in_split in Hb. destruct Hb as (p1 & p2 & ->). rewrite <- app_assoc in He.
  destruct (He p1 m b now (p2 ++ post) eq_refl) as (cur & s0 & ? & ? & ? & ? & ? & ? & _ & _ & E & _).
  eauto.
Qed.
Lemma found_later base st st' new spans2 pre n b now post : entered base st st' new ->
  new = pre ++ BEnter n b now :: post ->
  (forall m s, nth_error (st_spans st') m = Some s -> exists ops, nth_error spans2 m = Some (after ops s)) ->
  found base spans2 b (enclosing pre) = found base (st_spans st') b (enclosing pre).
Proof.
  intros He En Hs. unfold found. destruct (b_context b); [reflexivity|].
  destruct (enclosing pre) as [|[m|c] r] eqn:Ep; [reflexivity| |reflexivity].
  destruct (enclosing_known base st st' new pre (BEnter n b now :: post) m He En) as (s & E); [rewrite Ep; now left|].
  destruct (Hs m s E) as (ops & E2). rewrite E, E2. apply after_context.
Qed.

Lemma entered_app base st1 st2 st3 n1 n2 : well_nested describe n1 -> grows st1 st2 n1 -> grows st2 st3 n2 ->
  entered base st1 st2 n1 -> entered base st2 st3 n2 -> entered base st1 st3 (n1 ++ n2).
Proof.
  intros Hw G1 G2 E1 E2 pre n b now post E. destruct (app_cons_split _ _ _ _ _ E) as [(p & -> & ->)|(p & -> & ->)].
  - destruct (E1 pre n b now p eq_refl) as (cur & s0 & inner & out & live & t1 & t2 & rest & A1 & A2 & A3 & A4 & A5 & A6 & A7).
    exists cur, s0, inner, out, live, t1, t2, (rest ++ n2). split; [assumption|]. split; [assumption|].
    split; [|split; [|split; [|split; assumption]]].
    + rewrite calls_on_app, after_app. apply (g_spans _ _ _ G2). exact A3.
    + rewrite A4. symmetry. eapply found_later; [exact E1|reflexivity|].
      intros m s Em. exists (calls_on m n2). now apply (g_spans _ _ _ G2).
    + rewrite A5. now rewrite <- app_assoc, <- !app_comm_cons, <- app_assoc.
  - destruct (E2 p n b now post eq_refl) as (cur & s0 & inner & out & live & t1 & t2 & rest & A1 & A2 & A3 & A4 & A5).
    exists cur, s0, inner, out, live, t1, t2, rest. split; [assumption|]. split.
    + rewrite A2, (g_len _ _ _ G1), starts_app. lia.
    + split; [assumption|]. split; [|assumption]. rewrite A4. unfold enclosing.
      change (found base (st_spans st3) b (enc p []) = found base (st_spans st3) b (enc (n1 ++ p) [])).
      now rewrite enc_app, (well_nested_enc _ _ Hw).
Qed.
Lemma after_recording ops : forall w, sp_start (w_span w) <> None ->
  exists w', after ops (Recording w) = Recording w' /\ sp_start (w_span w') <> None
             /\ is_ended (w_span w') = is_ended (w_span w) || existsb is_end ops.
Proof.
  induction ops as [|o ops IH]; intros w Hs.
  - exists w. split; [reflexivity|]. split; [assumption|]. now rewrite orb_false_r.
  - cbn [after fold_left call_span]. set (w1 := sw_step (sw_step w (ACall o)) AOnEnd).
    assert (H1 : sp_start (w_span w1) <> None /\ is_ended (w_span w1) = is_ended (w_span w) || is_end o).
    { assert (E : w_span w1 = span_call (w_span w) o).
      { unfold w1. cbn. match goal with |- w_span (match ?x with _ => _ end) = _ => destruct x end; reflexivity. }
      rewrite E. destruct (is_ended (w_span w)) eqn:En.
      - rewrite ended_stays; [now rewrite En| |assumption]. unfold is_ended in En. now destruct (sp_end (w_span w)).
      - destruct (is_end o) eqn:Eo.
        + destruct o; try discriminate. cbn. unfold end_locked. rewrite En. destruct (sp_start (w_span w)) eqn:Es; [|congruence].
          cbn. now rewrite Es.
        + destruct (call_keeps (w_span w) o Eo Hs) as (_ & _ & _ & _ & A & B). cbn zeta in A, B.
          split; [now rewrite A|]. unfold is_ended in *. rewrite B. exact En. }
    destruct H1 as [H1 H2]. destruct (IH w1 H1) as (w' & A & B & C). exists w'. split; [exact A|]. split; [exact B|].
    rewrite C, H2. cbn [existsb]. now rewrite orb_assoc.
Qed.
Lemma born_recording cur b now w : born cur b now (Recording w) -> sp_start (w_span w) <> None /\ is_ended (w_span w) = false.
Proof.
  intros (g & Hb).
  pose proof (start_span_spec gen_trace_id gen_span_id tr cur (b_context b) (b_name b) (b_kind b) (b_attrs b) (b_links b)
                (b_start b) now g Hl) as H. cbn zeta in H.
  match type of H with let '(_, _) := ?x in _ => destruct x as [tid g1] end. destruct H as (s & E & _ & Hd & Hw).
  rewrite E in Hb. cbn in Hb. injection Hb as ->.
  destruct Hw as (w' & E' & _ & _ & He & C); [intros D; apply Hd in D; discriminate|]. injection E' as <-.
  unfold is_ended. rewrite He. split; [|reflexivity]. rewrite (ca_start _ _ _ _ _ _ _ _ _ _ C). discriminate.
Qed.

Lemma stmt_ind' (P : stmt -> Prop) :
  (forall b body, Forall P body -> P (SWith b body)) ->
  (forall c body, Forall P body -> P (SAttached c body)) ->
  (forall n v body, Forall P body -> P (SBaggage n v body)) ->
  (forall n o, P (SCall n o)) -> (forall e, P (SRaise e)) ->
  (forall all body, Forall P body -> P (STry all body)) -> forall s, P s.
Proof.
  intros H1 H2 H3 H4 H5 H6. fix IH 1. intros s.
  pose (all_P := fix all_P (l : list stmt) : Forall P l :=
          match l with [] => Forall_nil _ | x :: r => Forall_cons _ (IH x) (all_P r) end).
  destruct s as [b body|c body|n v body|n o|e|all body];
    [apply H1|apply H2|apply H3|apply H4|apply H5|apply H6]; apply all_P.
Qed.

Definition good_result rt st rt' st' new : Prop :=
  grows st st' new /\ well_nested describe new /\ entered (get_current u rt) st st' new /\ nested u rt rt'.
Definition good (s : stmt) : Prop := forall rt st, let '(rt', st', out) := exec s rt st in
  (exists new, good_result rt st rt' st' new) /\ out = plain s.

Lemma good_refl rt st : good_result rt st rt st [].
Proof.
  split; [apply grows_refl|]. split; [constructor|]. split; [|apply nest_nil].
  intros pre n b now post E. now destruct pre.
Qed.
Lemma good_app rt1 st1 rt2 st2 rt3 st3 n1 n2 : good_result rt1 st1 rt2 st2 n1 -> good_result rt2 st2 rt3 st3 n2 ->
  good_result rt1 st1 rt3 st3 (n1 ++ n2).
Proof.
  intros (G1 & W1 & E1 & N1) (G2 & W2 & E2 & N2). split; [eapply grows_app; eassumption|].
  split; [now apply well_nested_app|]. split; [|eapply nested_trans; eassumption].
  eapply entered_app; try eassumption. now rewrite <- (nested_restores _ _ _ N1).
Qed.
Lemma good_noise rt st rt' st' new : grows st st' new -> Forall is_noise new -> nested u rt rt' ->
  good_result rt st rt' st' new.
Proof.
  intros H1 H2 H3. split; [assumption|]. split; [now apply noise_nested|]. split; [now apply noise_entered|assumption].
Qed.
Lemma run_good l : Forall good l -> forall rt st, let '(rt', st', out) := run l rt st in
  (exists new, good_result rt st rt' st' new) /\ out = plains l.
Proof.
  induction 1 as [|s l Hs _ IH]; intros rt st; cbn [Model_Blocks.run plains].
  - split; [|reflexivity]. exists []. apply good_refl.
  - specialize (Hs rt st). destruct (exec s rt st) as [[rt1 st1] o1]. destruct Hs as [(n1 & H1) ->].
    destruct (plain s) as [|e].
    + specialize (IH rt1 st1). destruct (run l rt1 st1) as [[rt2 st2] o2]. destruct IH as [(n2 & H2) ->].
      split; [|reflexivity]. exists (n1 ++ n2). eapply good_app; eassumption.
    + split; [|reflexivity]. now exists n1.
Qed.

(** The unit attaches [c], does something and detaches. *)
Lemma nested_block rt c rt2 : nested u (fst (attach u c rt)) rt2 -> nested u rt (detach u (snd (attach u c rt)) rt2).
Proof. intros H. eapply nest_block; [exact H|apply nest_nil]. Qed.
Lemma current_attached rt c : get_current u (fst (attach u c rt)) = c.
Proof. cbn. unfold get_current, set_cur. cbn. now rewrite Nat.eqb_refl. Qed.

(** What [use_span] does at the end. *)
Section Leave.
Variables (n : nat) (b : block).
Definition leave (out : outcome) st2 : store :=
  let st3 := match out with
             | Returned => st2
             | Raised e =>
                 if ex_error e && nth_recording n st2 then
                   let a := if b_record b then exit_call clock n (fun now => ORecordException (describe e) [] None false now) st2 else st2 in
                   if b_status b then exit_call clock n (fun _ => OSetStatus (SAStatus ERROR (PStr false (ex_type e ++ lit ": " ++ ex_msg e))) PNone) a else a
                 else st2
             end in
  if b_end b then exit_call clock n (fun now => OEnd None now) st3 else st3.
Lemma leave_ok out st2 : exists t1 t2,
  grows st2 (leave out st2) (map (BExit n) (leaving describe b out (nth_recording n st2) t1 t2)).
Proof.
  assert (Hend : forall st3 l, grows st2 st3 l -> exists t2,
    grows st2 (if b_end b then exit_call clock n (fun now => OEnd None now) st3 else st3)
              (l ++ map (BExit n) (if b_end b then [OEnd None t2] else []))).
  { intros st3 l H. destruct (b_end b).
    - exists (clock (st_tick st3)). eapply grows_app; [exact H|]. apply (grows_exit n (fun now => OEnd None now)).
      intros now. now right.
    - exists 0%Z. cbn. now rewrite app_nil_r. }
  unfold leave, leaving. destruct out as [|e]; cbn [app].
  - exists 0%Z. destruct (Hend st2 [] (grows_refl st2)) as (t2 & H). exists t2. exact H.
  - destruct (ex_error e && nth_recording n st2); cbn [app].
    + exists (clock (st_tick st2)).
      set (a := if b_record b then exit_call clock n _ st2 else st2).
      set (d := OSetStatus _ _).
      assert (Ha : grows st2 a (map (BExit n) (if b_record b then [ORecordException (describe e) [] None false (clock (st_tick st2))] else []))).
      { subst a. destruct (b_record b); [|apply grows_refl]. cbn.
        apply (grows_exit n (fun now => ORecordException (describe e) [] None false now)). intros now. now right. }
      assert (Hb : grows st2 (if b_status b then exit_call clock n (fun _ => d) a else a)
        (map (BExit n) ((if b_record b then [ORecordException (describe e) [] None false (clock (st_tick st2))] else [])
                        ++ if b_status b then [d] else []))).
      { rewrite map_app. destruct (b_status b); [|cbn; now rewrite app_nil_r]. eapply grows_app; [exact Ha|].
        apply (grows_exit n (fun _ => d)). intros now. now left. }
      destruct (Hend _ _ Hb) as (t2 & H). exists t2. rewrite map_app. exact H.
    + exists 0%Z. destruct (Hend st2 [] (grows_refl st2)) as (t2 & H). exists t2. exact H.
Qed.
End Leave.

Lemma exec_with b body rt0 st0 : exec (SWith b body) rt0 st0 =
  let (rt, st) := others rt0 st0 in
  let now := clock (st_tick st) in
  let n := length (st_spans st) in
  match start_block (get_current u rt) b now (fun n => BEnter n b now) (tick st) with
  | (Raises x, st1) => (rt, st1, Raised (Exc true (lit x) [] 0))
  | (Ok sp, st1) =>
      let (rt1, tok) := attach u (set_value SPAN_KEY (as_obj sp) (get_current u rt)) rt in
      let '(rt2, st2, out) := run body rt1 st1 in
      let (rt3, st3) := others rt2 st2 in
      (detach u tok rt3, leave n b out (log_event (BLeave n out) st3), out)
  end.
Proof.
  cbn [Model_Blocks.exec]. destruct (others rt0 st0) as [rt st]. cbn zeta.
  destruct (start_block (get_current u rt) b (clock (st_tick st)) _ (tick st)) as [[sp|x] st1]; [|reflexivity].
  unfold use_span. destruct (attach u (set_value SPAN_KEY (as_obj sp) (get_current u rt)) rt) as [rt1 tok].
    change ((fix run (l : list stmt) (rt : runtime) (st : store) {struct l} : runtime * store * outcome :=
    match l with
    | [] => (rt, st, Returned)
    | s :: r =>
        let '(rt', st', out) := exec s rt st in
        match out with Returned => run r rt' st' | Raised e => (rt', st', Raised e) end
    end) body rt1 st1) with (run body rt1 st1).
  destruct (run body rt1 st1) as [[rt2 st2] out]. destruct (others rt2 st2) as [rt3 st3]. reflexivity.
Qed.

Lemma exec_attached c body rt0 st0 : exec (SAttached c body) rt0 st0 =
  let (rt, st) := others rt0 st0 in
  let (rt1, tok) := attach u c rt in
  let '(rt2, st2, out) := run body rt1 (log_event (BAttach c) st) in
  (detach u tok rt2, log_event BDetach st2, out).
Proof. reflexivity. Qed.
Lemma exec_baggage name v body rt0 st0 : exec (SBaggage name v body) rt0 st0 =
  let (rt, st) := others rt0 st0 in
  let (rt1, tok) := attach u (set_baggage name v (get_current u rt)) rt in
  let '(rt2, st2, out) := run body rt1 st in
  (detach u tok rt2, st2, out).
Proof. reflexivity. Qed.
Lemma exec_try all body rt0 st0 : exec (STry all body) rt0 st0 =
  let (rt, st) := others rt0 st0 in
  let '(rt', st', out) := run body rt st in
  (rt', st', match out with
             | Raised e => if all || ex_error e then Returned else Raised e
             | Returned => Returned
             end).
Proof. reflexivity. Qed.

Lemma attached_entered base base1 e st st1 st3 inner tail st5 :
  grows st st1 [e] -> grows st1 st3 inner -> grows st3 st5 tail -> well_nested describe inner ->
  entered base1 st1 st3 inner -> Forall (fun e => match e with BEnter _ _ _ => False | _ => True end) tail ->
  (match e with
   | BEnter n _ _ => n = length (st_spans st) /\ exists s, nth_error (st_spans st1) n = Some s /\ current_span_context base1 = started_context s
   | BAttach c => base1 = c
   | _ => False
   end) ->
  forall p n b now post, inner ++ tail = p ++ BEnter n b now :: post ->
  exists cur s0 inner out live t1 t2 rest,
    born cur b now s0 /\ n = length (st_spans st) + starts (e :: p)
    /\ nth_error (st_spans st5) n = Some (after (calls_on n post) s0)
    /\ current_span_context (resolve cur (b_context b)) = found base (st_spans st5) b (enclosing (e :: p))
    /\ post = inner ++ BLeave n out :: map (BExit n) (leaving describe b out live t1 t2) ++ rest
    /\ well_nested describe inner
    /\ live = rec0 s0 && negb (existsb is_end (calls_on n inner)).
Proof.
  intros G0 G1 G2 W E Ht Hb p n b now post Ep. destruct (app_cons_split _ _ _ _ _ Ep) as [(q & Eq & ->)|(q & -> & ->)].
  2:{ apply Forall_app in Ht. destruct Ht as [_ Ht]. inversion Ht. contradiction. }
  destruct (E p n b now q Eq) as (cur & s0 & inn & out & live & t1 & t2 & rest & A1 & A2 & A3 & A4 & A5 & A6 & A7).
  exists cur, s0, inn, out, live, t1, t2, (rest ++ tail). split; [assumption|].
  split.
  { rewrite A2, (g_len _ _ _ G0). change (e :: p) with ([e] ++ p). rewrite starts_app. lia. }
  split; [rewrite calls_on_app, after_app; now apply (g_spans _ _ _ G2)|].
  split; [|split; [now rewrite A5, <- app_assoc, <- !app_comm_cons, <- app_assoc|split; assumption]].
  assert (Hp : enclosing (e :: p) = enclosing p ++ enc_step [] e).
  { change (enc p (enc_step [] e) = enc p [] ++ enc_step [] e). now apply (well_nested_prefix _ _ W p (BEnter n b now :: q)). }
  rewrite A4, Hp. rewrite <- (found_later base1 st1 st3 inner (st_spans st5) p n b now q E Eq).
  2:{ intros m s Em. exists (calls_on m tail). now apply (g_spans _ _ _ G2). }
  unfold found. destruct (b_context b); [reflexivity|].
  destruct (enclosing p) as [|x r]; [|reflexivity]. cbn [app].
  destruct e as [m b' now'| | |c| | |]; try contradiction; cbn [enc_step].
  - destruct Hb as (_ & s & Es & ->). apply (g_spans _ _ _ G1) in Es. apply (g_spans _ _ _ G2) in Es.
    rewrite Es, !after_context. reflexivity.
  - now rewrite Hb.
Qed.

Lemma exec_good s : good s.
Proof.
  induction s as [b body Hbody|c body Hbody|name v body Hbody|n o|e|all body Hbody] using stmt_ind'; intros rt0 st0.
  - rewrite exec_with. pose proof (others_ok rt0 st0) as H0. destruct (others rt0 st0) as [rt st].
    destruct H0 as (n0 & G0 & Q0 & R0). cbn zeta.
    set (now := clock (st_tick st)). set (n := length (st_spans st)).
    destruct (grows_started (get_current u rt) b now (fun n => BEnter n b now) (tick st)) with (st0 := st)
      as (s & Hs & Es & Ens & G1).
    { right. cbn. repeat split. lia. }
    { now right. }
    { now right. }
    rewrite Es. change (length (st_spans (tick st))) with n in Ens, G1.
    set (st1 := snd (start_block (get_current u rt) b now (fun n => BEnter n b now) (tick st))) in *.
    set (base1 := set_value SPAN_KEY (as_obj s) (get_current u rt)).
    destruct (attach u base1 rt) as [rt1 tok] eqn:Ea.
    assert (E1 : rt1 = fst (attach u base1 rt)) by now rewrite Ea.
    assert (Et : tok = snd (attach u base1 rt)) by now rewrite Ea.
    pose proof (run_good body Hbody rt1 st1) as H1. destruct (run body rt1 st1) as [[rt2 st2] out].
    destruct H1 as [(i0 & H1) ->]. pose proof (others_ok rt2 st2) as H2. destruct (others rt2 st2) as [rt3 st3].
    destruct H2 as (i1 & G2 & Q2 & R2).
    pose proof (good_app _ _ _ _ _ _ _ _ H1 (good_noise _ _ _ _ _ G2 Q2 R2)) as H3.
    destruct H3 as (G3 & W3 & N3 & R3). set (inner := i0 ++ i1) in *.
    rewrite E1, current_attached in N3.
    assert (Hcur : current_span_context base1 = started_context s) by apply current_after.
    destruct (leave_ok n b (plains body) (log_event (BLeave n (plains body)) st3)) as (t1 & t2 & G4).
    set (live := nth_recording n (log_event (BLeave n (plains body)) st3)) in *.
    pose proof (grows_app _ _ _ _ _ (grows_log (BLeave n (plains body)) st3 Logic.I) G4) as G5. cbn [app] in G5.
    set (st5 := leave n b (plains body) (log_event (BLeave n (plains body)) st3)) in *.
    set (tail := BLeave n (plains body) :: map (BExit n) (leaving describe b (plains body) live t1 t2)) in *.
    assert (Hlive : live = rec0 s && negb (existsb is_end (calls_on n inner))).
    { pose proof (g_spans _ _ _ G3 n s Ens) as En. unfold live, nth_recording. cbn [log_event st_spans]. rewrite En.
      destruct s as [w|sc].
      - destruct (born_recording _ _ _ _ Hs) as [B1 B2]. destruct (after_recording (calls_on n inner) w B1) as (w' & -> & _ & Ew).
        rewrite Ew, B2. reflexivity.
      - assert (Hr : rec0 (after (calls_on n inner) (NonRecording sc)) = false) by apply rec0_after.
        destruct (after _ _); [discriminate|reflexivity]. }
    split; [|reflexivity]. exists (n0 ++ BEnter n b now :: inner ++ tail).
    apply (good_app _ _ rt st); [now apply good_noise|].
    split; [|split; [|split]].
    + apply (grows_app _ _ _ [BEnter n b now] _ G1). eapply grows_app; [exact G3|exact G5].
    +
      pose proof (wn_block describe n b now inner (plains body) live t1 t2 [] W3 (wn_nil _)) as H.
      rewrite app_nil_r in H. exact H.
    + intros [|e p] n' b' now' post Ep.
      * injection Ep as <- <- <- <-. exists (get_current u rt), s, inner, (plains body), live, t1, t2, [].
        split; [assumption|]. split; [cbn; unfold n; lia|].
        split; [rewrite calls_on_app, after_app; apply (g_spans _ _ _ G5), (g_spans _ _ _ G3), Ens|].
        split; [unfold found; destruct (b_context b); reflexivity|].
        split; [now rewrite app_nil_r|]. now split.
      * injection Ep as <- Ep.
        eapply (attached_entered (get_current u rt) base1 (BEnter n b now)); try eassumption.
        -- unfold tail. constructor; [exact Logic.I|]. apply Forall_forall. intros x Hx. apply in_map_iff in Hx.
           destruct Hx as (o & <- & _). exact Logic.I.
        -- split; [reflexivity|]. exists s. now split.
    + rewrite Et. apply nested_block. rewrite <- E1. exact R3.
  - rewrite exec_attached. pose proof (others_ok rt0 st0) as H0. destruct (others rt0 st0) as [rt st].
    destruct H0 as (n0 & G0 & Q0 & R0). destruct (attach u c rt) as [rt1 tok] eqn:Ea.
    assert (E1 : rt1 = fst (attach u c rt)) by now rewrite Ea.
    assert (Et : tok = snd (attach u c rt)) by now rewrite Ea.
    pose proof (run_good body Hbody rt1 (log_event (BAttach c) st)) as H1.
    destruct (run body rt1 (log_event (BAttach c) st)) as [[rt2 st2] out]. destruct H1 as [(inner & G3 & W3 & N3 & R3) ->].
    rewrite E1, current_attached in N3.
    pose proof (grows_log (BAttach c) st Logic.I) as G1. pose proof (grows_log BDetach st2 Logic.I) as G5.
    split; [|reflexivity]. exists (n0 ++ BAttach c :: inner ++ [BDetach]).
    apply (good_app _ _ rt st); [now apply good_noise|].
    split; [|split; [|split]].
    + apply (grows_app _ _ _ [BAttach c] _ G1). eapply grows_app; [exact G3|exact G5].
    + apply wn_attach; [assumption|constructor].
    + intros [|e p] n' b' now' post Ep; [discriminate|]. injection Ep as <- Ep.
      eapply (attached_entered (get_current u rt) c (BAttach c)); try eassumption; [|reflexivity].
      repeat constructor.
    + rewrite Et. apply nested_block. rewrite <- E1. exact R3.
  - rewrite exec_baggage. pose proof (others_ok rt0 st0) as H0. destruct (others rt0 st0) as [rt st].
    destruct H0 as (n0 & G0 & Q0 & R0). set (c := set_baggage name v (get_current u rt)).
    destruct (attach u c rt) as [rt1 tok] eqn:Ea.
    assert (E1 : rt1 = fst (attach u c rt)) by now rewrite Ea.
    assert (Et : tok = snd (attach u c rt)) by now rewrite Ea.
    pose proof (run_good body Hbody rt1 st) as H1.
    destruct (run body rt1 st) as [[rt2 st2] out]. destruct H1 as [(inner & G3 & W3 & N3 & R3) ->].
    rewrite E1, current_attached in N3.
    split; [|reflexivity]. exists (n0 ++ inner). apply (good_app _ _ rt st); [now apply good_noise|].
    split; [assumption|]. split; [assumption|]. split.
    + intros pre n b now post En. destruct (N3 pre n b now post En) as (cur & s0 & inn & o & live & t1 & t2 & rest & A1 & A2 & A3 & A4 & A5).
      exists cur, s0, inn, o, live, t1, t2, rest. split; [assumption|]. split; [assumption|]. split; [assumption|].
      split; [|assumption]. rewrite A4. unfold found. destruct (b_context b); [reflexivity|].
      destruct (enclosing pre); [|reflexivity]. unfold c, current_span_context, get_current_span, set_baggage.
      rewrite get_value_set_ne by discriminate. reflexivity.
    + rewrite Et. apply nested_block. rewrite <- E1. exact R3.
  - cbn [Model_Blocks.exec]. pose proof (others_ok rt0 st0) as H0. destruct (others rt0 st0) as [rt st].
    destruct H0 as (n0 & G0 & Q0 & R0). split; [|reflexivity]. exists (n0 ++ [BCall n o]).
    apply (good_app _ _ rt st); [now apply good_noise|]. apply good_noise; [apply grows_call|repeat constructor|apply nest_nil].
  - cbn [Model_Blocks.exec]. pose proof (others_ok rt0 st0) as H0. destruct (others rt0 st0) as [rt st].
    destruct H0 as (n0 & G0 & Q0 & R0). split; [|reflexivity]. exists n0. now apply good_noise.
  - rewrite exec_try. pose proof (others_ok rt0 st0) as H0. destruct (others rt0 st0) as [rt st].
    destruct H0 as (n0 & G0 & Q0 & R0). pose proof (run_good body Hbody rt st) as H1.
    destruct (run body rt st) as [[rt2 st2] out]. destruct H1 as [(inner & H1) ->]. split.
    + exists (n0 ++ inner). apply (good_app _ _ rt st); [now apply good_noise|assumption].
    + cbn [plain]. fold plains. destruct (plains body) as [|e]; [reflexivity|]. now destruct all.
Qed.

Lemma program_good l rt st : let '(rt', st', out) := run l rt st in
  (exists new, good_result rt st rt' st' new) /\ out = plains l.
Proof. apply run_good. apply Forall_forall. intros s _. apply exec_good. Qed.

(** ** What the spans are in the end *)
Lemma after_acts ops w : after ops (Recording w) = Recording (fold_left sw_step (flat_map (fun o => [ACall o; AOnEnd]) ops) w).
Proof. revert w. induction ops as [|o ops IH]; intros w; [reflexivity|]. cbn. apply IH. Qed.
Lemma acts_calls ops : Proof_Tracing.act_calls (flat_map (fun o => [ACall o; AOnEnd]) ops) = ops.
Proof. induction ops as [|o ops IH]; [reflexivity|]. cbn. f_equal. exact IH. Qed.
Lemma acts_pending ops : forall w, w_pending w = 0 -> w_pending (fold_left sw_step (flat_map (fun o => [ACall o; AOnEnd]) ops) w) = 0.
Proof.
  induction ops as [|o ops IH]; intros w H; [exact H|]. cbn [flat_map app fold_left]. apply IH.
  cbn. rewrite H. match goal with |- context [match (if ?x then _ else _) with _ => _ end] => destruct x end; reflexivity.
Qed.

Lemma born_content cur b now s0 ops : born cur b now s0 ->
  let s := after ops s0 in
  let c := started_context s in
  let p := current_span_context (resolve cur (b_context b)) in
  let r := t_sampler tr cur (b_context b) (sc_trace_id c) (b_name b) (b_kind b) (b_attrs b) (b_links b) in
  (sc_is_valid p = true -> sc_trace_id c = sc_trace_id p)
  /\ (valid_ids gen_trace_id gen_span_id -> sc_is_valid c = true)
  /\ sc_flags c = (match sr_decision r with RECORD_AND_SAMPLE => 1 | _ => 0 end)%Z
  /\ match s with
     | NonRecording _ => sr_decision r = DROP
     | Recording w => sr_decision r <> DROP
         /\ carries (t_limits tr) (b_name b) c (if sc_is_valid p then Some p else None) (b_kind b) (sr_attrs r) (b_links b)
                    (at_time (b_start b) now) (until_end (map ACall ops)) (w_span w)
         /\ sp_end (w_span w) = first_end (map ACall ops)
         /\ ended_spans (w_log w) = match first_end (map ACall ops) with Some _ => [w_span w] | None => [] end
     end.
Proof.
  intros (g & Hb). cbn zeta. rewrite after_context.
  pose proof (start_span_spec gen_trace_id gen_span_id tr cur (b_context b) (b_name b) (b_kind b) (b_attrs b) (b_links b)
                (b_start b) now g Hl) as H. cbn zeta in H.
  set (p := current_span_context (resolve cur (b_context b))) in *.
  destruct (if sc_is_valid p then (sc_trace_id p, g) else gen_trace_id g) as [tid g1] eqn:Etg.
  destruct H as (s & E & Ec & Hd & _). rewrite E in Hb. cbn [fst] in Hb. injection Hb as <-.
  assert (Et : sc_trace_id (started_context s) = tid) by now rewrite Ec.
  rewrite Et.
  split; [intros V; rewrite V in Etg; now injection Etg as <- _|].
  split.
  { intros V. destruct (started_valid gen_trace_id gen_span_id tr cur (b_context b) (b_name b) (b_kind b) (b_attrs b) (b_links b)
                (b_start b) now g Hl V) as (s' & E' & V'). rewrite E in E'. cbn in E'. injection E' as <-. exact V'. }
  split; [now rewrite Ec|].
  destruct s as [w|sc].
  - rewrite after_acts.
    assert (D : sr_decision (t_sampler tr cur (b_context b) tid (b_name b) (b_kind b) (b_attrs b) (b_links b)) <> DROP)
      by (intros D; apply Hd in D; discriminate).
    split; [exact D|].
    pose proof (Proof_Tracing.start_recording _ _ _ _ _ _ _ _ _ _ _ _ _ _ E) as Hr. cbn zeta in Hr. fold p in Hr.
    destruct Hr as (tid' & sid & fl & stt & s' & N & Ew & _).
    assert (Ectx : started_context (Recording w) = SC tid' sid false fl stt).
    { rewrite Ew. destruct (new_span_describes _ _ _ _ _ _ _ _ (b_start b) now Hl N) as (A & _).
      destruct (c24_once _ _ _ _ _ _ _ _ (b_start b) now [] Hl N) as (C & _). cbn zeta in C. cbn [fold_left] in C.
      exact (ca_ctx _ _ _ _ _ _ _ _ _ _ C). }
    assert (tid' = tid) as -> by (rewrite Ectx in Et; exact Et).
    rewrite <- Ectx in N.
    set (acts := flat_map (fun o => [ACall o; AOnEnd]) ops).
    assert (Eu : until_end acts = until_end (map ACall ops)) by (rewrite Proof_Tracing.until_end_calls; unfold acts; now rewrite acts_calls).
    assert (Ef : first_end acts = first_end (map ACall ops)) by (rewrite Proof_Tracing.first_end_calls; unfold acts; now rewrite acts_calls).
    destruct (c24_once _ _ _ _ _ _ _ _ (b_start b) now acts Hl N) as (C1 & C2 & _ & C3). cbn zeta in C1, C2, C3.
    rewrite <- Ew in C1, C2, C3. rewrite Eu in C1. rewrite Ef in C2, C3. split; [exact C1|]. split; [exact C2|].
    destruct (first_end (map ACall ops)); [|exact (proj2 C3)]. destruct C3 as [C3 C4].
    unfold acts in C3. rewrite acts_pending in C3 by (rewrite Ew; reflexivity). fold acts in C3.
    destruct (ended_spans (w_log (fold_left sw_step acts w))) as [|x [|]]; try discriminate.
    f_equal. apply C4. now left.
  - replace (after ops (NonRecording sc)) with (NonRecording sc) by (clear; induction ops as [|o ops IH]; [reflexivity|exact IH]).
    apply Hd. reflexivity.
Qed.

(** ** Exits *)
Lemma well_nested_entered l : well_nested describe l -> forall p n b now q, l = p ++ BEnter n b now :: q ->
  exists inner out live t1 t2 rest, q = inner ++ BLeave n out :: map (BExit n) (leaving describe b out live t1 t2) ++ rest.
Proof.
  induction 1 as [|m o l _ IH|m l _ IH|c i l Hi IH1 _ IH2|m b' now' i out live t1 t2 l Hi IH1 _ IH2];
    intros p n b now q E.
  - destruct p; discriminate.
  - destruct p as [|x p]; [discriminate|]. injection E as <- E. eapply IH; exact E.
  - destruct p as [|x p]; [discriminate|]. injection E as <- E. eapply IH; exact E.
  - destruct p as [|x p]; [discriminate|]. injection E as <- E.
    destruct (app_cons_split _ _ _ _ _ E) as [(r & -> & ->)|(r & -> & E2)].
    + destruct (IH1 p n b now r eq_refl) as (i' & o' & l' & s1 & s2 & rest & ->). exists i', o', l', s1, s2, (rest ++ BDetach :: l).
      now rewrite <- app_assoc, <- !app_comm_cons, <- app_assoc.
    + destruct r as [|y r]; [discriminate|]. injection E2 as <- E2. eapply IH2; exact E2.
  - destruct p as [|x p].
    + injection E as -> -> -> <-. exists i, out, live, t1, t2, l. reflexivity.
    + injection E as <- E. destruct (app_cons_split _ _ _ _ _ E) as [(r & -> & ->)|(r & -> & E2)].
      * destruct (IH1 p n b now r eq_refl) as (i' & o' & l' & s1 & s2 & rest & ->).
        eexists i', o', l', s1, s2, (rest ++ _). now rewrite <- app_assoc, <- !app_comm_cons, <- app_assoc.
      * destruct r as [|y r]; [discriminate|]. injection E2 as <- E2.
        destruct (app_cons_split _ _ _ _ _ E2) as [(r' & E3 & _)|(r' & -> & E3)].
        -- exfalso. assert (Hin : In (BEnter n b now) (map (BExit m) (leaving describe b' out live t1 t2)))
             by (rewrite E3; apply in_or_app; right; now left).
           apply in_map_iff in Hin. destruct Hin as (? & ? & _). discriminate.
        -- eapply IH2; exact E3.
Qed.
Lemma leaving_end b out live t1 t2 x t : In (OEnd x t) (leaving describe b out live t1 t2) -> x = None /\ t = t2.
Proof.
  unfold leaving. intros H. apply in_app_iff in H. destruct H as [H|H].
  - exfalso. destruct out as [|e]; [contradiction|]. destruct (ex_error e && live); [|contradiction].
    apply in_app_iff in H. destruct H as [H|H].
    + destruct (b_record b); [|contradiction]. destruct H as [H|[]]; discriminate.
    + destruct (b_status b); [|contradiction]. destruct H as [H|[]]; discriminate.
  - destruct (b_end b); [|contradiction]. destruct H as [[= -> ->]|[]]. now split.
Qed.
Lemma well_nested_exit l : well_nested describe l -> forall m o, In (BExit m o) l ->
  (exists b now, In (BEnter m b now) l) /\ (forall x t, o = OEnd x t -> x = None).
Proof.
  induction 1 as [|k o' l _ IH|k l _ IH|c i l Hi IH1 _ IH2|k b' now' i out live t1 t2 l Hi IH1 _ IH2]; intros m o Hin.
  - contradiction.
  - destruct Hin as [H|Hin]; [discriminate|]. destruct (IH m o Hin) as [(b & now & H) H2]. split; [|exact H2].
    exists b, now. now right.
  - destruct Hin as [H|Hin]; [discriminate|]. destruct (IH m o Hin) as [(b & now & H) H2]. split; [|exact H2].
    exists b, now. now right.
  - destruct Hin as [H|Hin]; [discriminate|]. apply in_app_iff in Hin. destruct Hin as [Hin|[H|Hin]]; [|discriminate|].
    + destruct (IH1 m o Hin) as [(b & now & H) H2]. split; [|exact H2]. exists b, now. right. apply in_app_iff. now left.
    + destruct (IH2 m o Hin) as [(b & now & H) H2]. split; [|exact H2]. exists b, now. right. apply in_app_iff. right. now right.
  - destruct Hin as [H|Hin]; [discriminate|]. apply in_app_iff in Hin. destruct Hin as [Hin|[H|Hin]]; [|discriminate|].
    + destruct (IH1 m o Hin) as [(b & now & H) H2]. split; [|exact H2]. exists b, now. right. apply in_app_iff. now left.
    + apply in_app_iff in Hin. destruct Hin as [Hin|Hin].
      * apply in_map_iff in Hin. destruct Hin as (o0 & [= <- <-] & Hin). split; [exists b', now'; now left|].
        intros x t ->. now apply leaving_end in Hin.
      * destruct (IH2 m o Hin) as [(b & now & H) H2]. split; [|exact H2]. exists b, now. right. apply in_app_iff. right. right.
        apply in_app_iff. now right.
Qed.
Lemma leaving_has_end b out live t1 t2 : b_end b = true -> In (OEnd None t2) (leaving describe b out live t1 t2).
Proof. intros E. unfold leaving. rewrite E. apply in_app_iff. right. now left. Qed.

Lemma in_calls_on n o l : In o (calls_on n l) <-> In (BCall n o) l \/ In (BExit n o) l.
Proof.
  unfold calls_on. rewrite in_flat_map. split.
  - intros (e & He & Ho). destruct e; try contradiction; destruct (Nat.eqb_spec n0 n) as [->|]; try contradiction;
      destruct Ho as [->|[]]; auto.
  - intros [H|H]; eexists; (split; [exact H|]); cbn; rewrite Nat.eqb_refl; now left.
Qed.
(** The first end() among the calls. *)
Lemma first_end_in ops : existsb is_end ops = true ->
  exists x t, In (OEnd x t) ops /\ forall more, first_end (map ACall (ops ++ more)) = Some (at_time x t).
Proof.
  induction ops as [|o ops IH]; [discriminate|]. intros H. destruct (is_end o) eqn:Eo.
  - destruct o as [| | | | | | |x t]; try discriminate. exists x, t. split; [now left|]. reflexivity.
  - cbn in H. rewrite Eo in H. destruct (IH H) as (x & t & H1 & H2). exists x, t. split; [now right|].
    intros more. cbn. destruct o; try apply H2. discriminate.
Qed.
Lemma first_end_skip ops more : existsb is_end ops = false ->
  first_end (map ACall (ops ++ more)) = first_end (map ACall more)
  /\ until_end (map ACall (ops ++ more)) = ops ++ until_end (map ACall more).
Proof.
  induction ops as [|o ops IH]; [now split|]. cbn [existsb]. intros H. apply orb_false_iff in H. destruct H as [Ho H].
  destruct (IH H) as [I1 I2]. cbn. destruct o; try discriminate; (split; [exact I1|now rewrite I2]).
Qed.

(** ** Times *)
Lemma sorted_before (l1 l2 : list Z) x y : StronglySorted Z.le (l1 ++ l2) -> In x l1 -> In y l2 -> (x <= y)%Z.
Proof.
  induction l1 as [|z l1 IH]; intros Hs Hx Hy; [contradiction|]. cbn in Hs. inversion Hs as [|? ? H1 H2]; subst.
  destruct Hx as [->|Hx]; [|now apply IH]. rewrite Forall_forall in H2. apply H2. apply in_app_iff. now right.
Qed.
Lemma in_clock_times e l t : In e l -> In t (clock_times [e]) -> In t (clock_times l).
Proof.
  intros He Ht. unfold clock_times in *. cbn in Ht. rewrite app_nil_r in Ht. apply in_flat_map. exists e. now split.
Qed.

Section Times.
Variables (base : context) (st0 st' : store).
Let log := st_log st'.
Hypothesis G0 : grows st0 st' log.
Hypothesis W0 : well_nested describe log.
Hypothesis E0 : entered base st0 st' log.
Hypothesis M : mono.

Lemma number_once p1 p2 q1 q2 n b1 t1 b2 t2 : log = p1 ++ BEnter n b1 t1 :: q1 ->
  log = (p1 ++ BEnter n b1 t1 :: p2) ++ BEnter n b2 t2 :: q2 -> False.
Proof.
  intros H1 H2. destruct (E0 _ _ _ _ _ H1) as (c1 & s1 & i1 & o1 & l1 & x1 & y1 & r1 & _ & N1 & _).
  destruct (E0 _ _ _ _ _ H2) as (c2 & s2 & i2 & o2 & l2 & x2 & y2 & r2 & _ & N2 & _).
  rewrite starts_app in N2. change (BEnter n b1 t1 :: p2) with ([BEnter n b1 t1] ++ p2) in N2. rewrite starts_app in N2.
  cbn in N2. lia.
Qed.

Lemma no_exit_inside pre n b now inner post : log = pre ++ BEnter n b now :: inner ++ post -> well_nested describe inner ->
  (forall o, In (BCall n o) log -> is_end o = false) -> existsb is_end (calls_on n inner) = false.
Proof.
  intros E W Hc. destruct (existsb is_end (calls_on n inner)) eqn:Ex; [exfalso|reflexivity].
  apply existsb_exists in Ex. destruct Ex as (o & Hin & Ho). apply in_calls_on in Hin. destruct Hin as [Hin|Hin].
  - rewrite Hc in Ho; [discriminate|]. rewrite E. apply in_app_iff. right. right. apply in_app_iff. now left.
  - destruct (proj1 (well_nested_exit _ W n o Hin)) as (b2 & t2 & Hin2). apply in_split in Hin2. destruct Hin2 as (i1 & i2 & ->).
    eapply (number_once pre i1 _ (i2 ++ post)); [exact E|]. rewrite E. repeat (rewrite <- app_assoc; cbn [app]). reflexivity.
Qed.

Lemma intervals pre m bm tm mid n bn tn post wm wn :
  log = pre ++ BEnter m bm tm :: mid ++ BEnter n bn tn :: post ->
  In (inl m) (enclosing (pre ++ BEnter m bm tm :: mid)) ->
  b_end bm = true -> b_end bn = true -> b_start bm = None -> b_start bn = None ->
  (forall o, In (BCall m o) log \/ In (BCall n o) log -> is_end o = false) ->
  nth_error (st_spans st') m = Some (Recording wm) -> nth_error (st_spans st') n = Some (Recording wn) ->
  exists sm em sn en, sp_start (w_span wm) = Some sm /\ sp_end (w_span wm) = Some em
    /\ sp_start (w_span wn) = Some sn /\ sp_end (w_span wn) = Some en
    /\ (sm <= sn)%Z /\ (sn <= en)%Z /\ (en <= em)%Z.
Proof.
  intros E Hin Em En Sm Sn Hc Wm Wn.
  destruct (E0 pre m bm tm _ E) as (cm & sm & im & om & lm & t1 & t2 & rm & B1 & N1 & A1 & _ & P1 & W1 & L1).
  assert (E' : log = (pre ++ BEnter m bm tm :: mid) ++ BEnter n bn tn :: post) by (rewrite E, <- app_assoc; reflexivity).
  destruct (E0 _ n bn tn _ E') as (cn & sn & i_n & on_ & ln & t3 & t4 & rn & B2 & N2 & A2 & _ & P2 & W2 & L2).
  destruct (app_cons_split im (BLeave m om :: map (BExit m) (leaving describe bm om lm t1 t2) ++ rm) mid post (BEnter n bn tn))
    as [(q & Eq & Epost)|(q & -> & Eq)]; [now symmetry| |].
  2:{ exfalso. destruct q as [|y q]; [discriminate|]. injection Eq as <- Eq. rewrite enclosing_enc in Hin.
      rewrite enc_app in Hin. change (In (inl m) (enc (im ++ BLeave m om :: q) (inl m :: enc pre []))) in Hin.
      rewrite enc_app, (well_nested_enc _ _ W1) in Hin. change (In (inl m) (enc q (enc pre []))) in Hin.
      destruct (enc_members _ _ _ Hin) as [Hin2|(b2 & t & Hin2)].
      - destruct (enc_members _ _ _ Hin2) as [[]|(b2 & t & Hin3)]. apply in_split in Hin3. destruct Hin3 as (p1 & p2 & ->).
        eapply (number_once p1 p2 _ _ m b2 t bm tm); [rewrite E, <- app_assoc; reflexivity|]. rewrite E. reflexivity.
      - apply in_split in Hin2. destruct Hin2 as (q1 & q2 & ->).
        eapply (number_once pre (im ++ BLeave m om :: q1) _ (q2 ++ BEnter n bn tn :: post) m bm tm b2 t); [exact E|].
        rewrite E. repeat (rewrite <- app_assoc; cbn [app]). reflexivity. }
  (* the inner span *)
  assert (Wq : exists inner out live s1 s2 rest, q = inner ++ BLeave n out :: map (BExit n) (leaving describe bn out live s1 s2) ++ rest)
    by (eapply well_nested_entered; [exact W1|exact Eq]).
  destruct Wq as (iq & oq & lq & s1 & s2 & rq & Eq2).
  assert (Hq : existsb is_end (calls_on n q) = true).
  { apply existsb_exists. exists (OEnd None s2). split; [|reflexivity]. apply in_calls_on. right. rewrite Eq2.
    apply in_app_iff. right. right. apply in_app_iff. left. apply in_map_iff. exists (OEnd None s2). split; [reflexivity|].
    now apply leaving_has_end. }
  destruct (first_end_in _ Hq) as (x & en & Hen & Fen).
  assert (Hx : In (BExit n (OEnd x en)) q).
  { apply in_calls_on in Hen. destruct Hen as [Hen|Hen]; [|exact Hen]. exfalso.
    specialize (Hc (OEnd x en)). cbn in Hc. discriminate Hc. right. rewrite E, Epost. apply in_app_iff. right. right.
    apply in_app_iff. right. right. apply in_app_iff. now left. }
  assert (x = None) as ->.
  { apply (proj2 (well_nested_exit _ W0 n (OEnd x en) ltac:(rewrite E, Epost; apply in_app_iff; right; right;
      apply in_app_iff; right; right; apply in_app_iff; now left)) x en eq_refl). }
  (* the outer span *)
  assert (Lm : existsb is_end (calls_on m im) = false).
  { apply (no_exit_inside pre m bm tm im (BLeave m om :: map (BExit m) (leaving describe bm om lm t1 t2) ++ rm)).
    - now rewrite E, P1.
    - exact W1.
    - intros o Ho. apply Hc. now left. }
  set (ex := map (BExit m) (leaving describe bm om lm t1 t2)) in *.
  assert (Fm : first_end (map ACall (calls_on m (mid ++ BEnter n bn tn :: post))) = Some t2).
  { rewrite P1, calls_on_app. rewrite (proj1 (first_end_skip _ _ Lm)).
    change (calls_on m (BLeave m om :: ex ++ rm)) with (calls_on m (ex ++ rm)). rewrite calls_on_app. unfold ex.
    rewrite calls_on_exits.
    destruct (first_end_in (leaving describe bm om lm t1 t2)) as (x & t & H1 & H2).
    { apply existsb_exists. exists (OEnd None t2). split; [now apply leaving_has_end|reflexivity]. }
    rewrite H2. apply leaving_end in H1. destruct H1 as [-> ->]. reflexivity. }
  assert (Fn : first_end (map ACall (calls_on n post)) = Some en).
  { rewrite Epost, calls_on_app. apply Fen. }
  pose proof (born_content cm bm tm sm (calls_on m (mid ++ BEnter n bn tn :: post)) B1) as Cm. cbn zeta in Cm.
  rewrite A1 in Wm. injection Wm as Wm. rewrite Wm in Cm. destruct Cm as (_ & _ & _ & _ & Km & Fm' & _).
  pose proof (born_content cn bn tn sn (calls_on n post) B2) as Cn. cbn zeta in Cn.
  rewrite A2 in Wn. injection Wn as Wn. rewrite Wn in Cn. destruct Cn as (_ & _ & _ & _ & Kn & Fn' & _).
  apply ca_start in Km. apply ca_start in Kn. rewrite Sm in Km. rewrite Sn in Kn. cbn [at_time] in Km, Kn.
  exists tm, t2, tn, en. rewrite Fm', Fm, Fn', Fn. split; [exact Km|]. split; [reflexivity|]. split; [exact Kn|]. split; [reflexivity|].
  destruct (g_times _ _ _ G0 M) as [Hs _].
  assert (El : log = (pre ++ [BEnter m bm tm]) ++ (mid ++ [BEnter n bn tn]) ++ q ++ (BLeave m om :: ex ++ rm)).
  { rewrite E, Epost. repeat (rewrite <- app_assoc; cbn [app]). reflexivity. }
  rewrite El in Hs.
  assert (T1 : In tm (clock_times (pre ++ [BEnter m bm tm])))
    by (apply (in_clock_times (BEnter m bm tm)); [apply in_app_iff; right; now left|now left]).
  assert (T2 : In tn (clock_times (mid ++ [BEnter n bn tn])))
    by (apply (in_clock_times (BEnter n bn tn)); [apply in_app_iff; right; now left|now left]).
  assert (T3 : In en (clock_times q)) by (apply (in_clock_times (BExit n (OEnd None en))); [exact Hx|now left]).
  assert (T4 : In t2 (clock_times (BLeave m om :: ex ++ rm))).
  { apply (in_clock_times (BExit m (OEnd None t2))); [|now left]. right. apply in_app_iff. left. apply in_map_iff.
    exists (OEnd None t2). split; [reflexivity|]. now apply leaving_has_end. }
  clear El. revert T1 T2 T3 T4 Hs.
  generalize (pre ++ [BEnter m bm tm]) (mid ++ [BEnter n bn tn]) (BLeave m om :: ex ++ rm). intros la lb ld T1 T2 T3 T4 Hs.
  rewrite !clock_times_app in Hs. split; [|split].
  - apply (sorted_before _ _ _ _ Hs T1). apply in_app_iff. now left.
  - rewrite app_assoc in Hs. eapply sorted_before; [exact Hs|apply in_app_iff; right; exact T2|apply in_app_iff; now left].
  - rewrite !app_assoc in Hs. eapply sorted_before; [exact Hs|apply in_app_iff; right; exact T3|exact T4].
Qed.
End Times.

Lemma until_leaving b out live t1 t2 more : b_end b = true ->
  until_end (map ACall (leaving describe b out live t1 t2 ++ more))
  = match out with
    | Raised e => if ex_error e && live then
        (if b_record b then [ORecordException (describe e) [] None false t1] else [])
        ++ (if b_status b then [OSetStatus (SAStatus ERROR (PStr false (ex_type e ++ lit ": " ++ ex_msg e))) PNone] else [])
        else []
    | Returned => []
    end
  /\ first_end (map ACall (leaving describe b out live t1 t2 ++ more)) = Some t2.
Proof.
  intros E. unfold leaving. rewrite E. destruct out as [|e]; [now split|]. destruct (ex_error e && live); [|now split].
  destruct (b_record b), (b_status b); now split.
Qed.
End Blocks.

Lemma last_window {A} m (l : list A) x : m <> Some 0%Z -> not_negative m -> exists l', window m (l ++ [x]) = l' ++ [x].
Proof.
  intros Hm Hn. destruct m as [z|]; cbn [window]; [|now exists l]. specialize (Hn z eq_refl). unfold lastn.
  assert (0 < Z.to_nat z) by (assert (z <> 0)%Z by congruence; lia). rewrite app_length. cbn [length].
  exists (skipn (length l + 1 - Z.to_nat z) l). rewrite skipn_app. f_equal.
  replace (length l + 1 - Z.to_nat z - length l) with 0 by lia. reflexivity.
Qed.
Lemma collected_last {O A} (R : O -> A -> Prop) l o x : R o x -> forall xs, collected R (l ++ [o]) xs ->
  exists ys y, xs = ys ++ [y] /\ R o y.
Proof.
  intros Ho. induction l as [|o' l IH]; intros xs H; cbn in H.
  - inversion H as [|? y ? ? H1 H2|? ? ? H1 H2]; subst; [|now apply H1 in Ho]. inversion H2; subst. now exists [], y.
  - inversion H as [|? y ? ? H1 H2|? ? ? H1 H2]; subst.
    + destruct (IH _ H2) as (ys & z & -> & Hz). now exists (y :: ys), z.
    + now apply IH.
Qed.
