(** Proofs about the API's proxies. *)
From Verif Require Export Spec_Proxy.
From Coq Require Export Permutation.

Lemma nth_upd : forall {A} (l : list A) i j f, nth_error (upd_nth i f l) j
  = if Nat.eqb i j then option_map f (nth_error l j) else nth_error l j.
Proof.
  induction l as [|x l IH]; intros [|i] [|j] f; cbn [upd_nth nth_error Nat.eqb option_map]; try reflexivity.
  - destruct (Nat.eqb i j); reflexivity.
  - apply IH.
Qed.
Lemma length_upd : forall {A} (l : list A) i f, length (upd_nth i f l) = length l.
Proof. induction l as [|x l IH]; intros [|i] f; cbn [upd_nth length]; auto. Qed.
Lemma nth_app_last : forall {A} (l : list A) x, nth_error (l ++ [x]) (length l) = Some x.
Proof. intros. rewrite nth_error_app2 by lia. rewrite Nat.sub_diag. reflexivity. Qed.
Lemma nth_snoc : forall {A} (l : list A) x j y, nth_error (l ++ [x]) j = Some y ->
  nth_error l j = Some y \/ j = length l /\ y = x.
Proof.
  intros A l x j y H. destruct (Nat.lt_ge_cases j (length l)) as [Hj|Hj].
  - rewrite nth_error_app1 in H by exact Hj. auto.
  - assert (j = length l) as -> by (assert (j < length (l ++ [x])) by (apply nth_error_Some; congruence);
      rewrite app_length in *; cbn in *; lia).
    rewrite nth_app_last in H. injection H as <-. auto.
Qed.
Lemma nth_app_some : forall {A} (l l2 : list A) j y, nth_error l j = Some y -> nth_error (l ++ l2) j = Some y.
Proof. intros. rewrite nth_error_app1; [assumption|]. apply nth_error_Some. congruence. Qed.

Section Tracers.
Context {A X : Type}.
Implicit Types (l : list (pop A X)) (s : pstate A X).

Lemma first_set_app : forall l1 l2, first_set (l1 ++ l2) =
  match first_set l1 with Some p => Some p | None => first_set l2 end.
Proof. induction l1 as [|[a|p|h x|c] l1 IH]; intros; cbn [first_set app]; auto. Qed.
Lemma gets_app : forall l1 l2, gets (l1 ++ l2) = gets l1 ++ gets l2.
Proof. induction l1 as [|[a|p|h x|c] l1 IH]; intros; cbn [gets app]; rewrite ?IH; reflexivity. Qed.
Lemma steps_app : forall c l1 l2, steps_of c (l1 ++ l2) = (steps_of c l1 + steps_of c l2)%nat.
Proof.
  induction l1 as [|[a|p|h x|c1] l1 IH]; intros; cbn [steps_of app]; rewrite ?IH; try reflexivity.
  destruct (Nat.eqb c c1); reflexivity.
Qed.
Lemma started_app : forall l1 l2, calls_started (l1 ++ l2) = (calls_started l1 + calls_started l2)%nat.
Proof. induction l1 as [|[a|p|h x|c] l1 IH]; intros; cbn [calls_started app]; rewrite ?IH; reflexivity. Qed.

Definition real_ok (prov : option nat) (a : A) (r : nat * A) := prov = Some (fst r) /\ snd r = a.
Definition handle_ok s (a : A) (h : handle A) := match h with
  | HReal r => real_ok (ps_provider s) a r
  | HProxy i => exists px, nth_error (ps_proxies s) i = Some px /\ px_args px = a
      /\ match px_real px with Some r => real_ok (ps_provider s) a r | None => True end
  end.
Record pinv l s := {
  pi_prov : ps_provider s = first_set l;
  pi_len : length (ps_handles s) = length (gets l);
  pi_calls : length (ps_calls s) = calls_started l;
  pi_ok : forall h a, nth_error (gets l) h = Some a -> exists hd, nth_error (ps_handles s) h = Some hd /\ handle_ok s a hd }.

Lemma handle_ok_mono : forall s s' a h,
  (forall p, ps_provider s = Some p -> ps_provider s' = Some p) ->
  (forall i px, nth_error (ps_proxies s) i = Some px -> exists px', nth_error (ps_proxies s') i = Some px'
     /\ px_args px' = px_args px
     /\ (px_real px' = px_real px \/ exists r, px_real px' = Some r /\ real_ok (ps_provider s') (px_args px) r)) ->
  handle_ok s a h -> handle_ok s' a h.
Proof.
  intros s s' a h Hp Hx H. unfold handle_ok, real_ok in *. destruct h as [r|i].
  - destruct H as [H1 H2]. split; auto.
  - destruct H as (px & H1 & H2 & H3). destruct (Hx _ _ H1) as (px' & H1' & H2' & H3').
    exists px'. split; [exact H1'|]. split; [congruence|].
    destruct H3' as [E|(r & E & Hr)]; rewrite E.
    + destruct (px_real px) as [r|]; [|exact I]. destruct H3. split; auto.
    + destruct Hr. split; congruence.
Qed.

Lemma call_step_frame : forall s c s' c', call_step s c = (s', c') ->
  ps_provider s' = ps_provider s /\ ps_handles s' = ps_handles s /\ ps_calls s' = ps_calls s
  /\ ca_handle c' = ca_handle c /\ ca_arg c' = ca_arg c.
Proof.
  intros s c s' c' H. unfold call_step in H.
  repeat (match type of H with context [match ?e with _ => _ end] => destruct e eqn:? end);
    injection H as <- <-; repeat split; cbn; congruence.
Qed.

(** A call in progress on a handle of arguments [a], in a state: what it may have found. *)
Definition pc_ok s (a : A) (pre : option nat) (pc : call_pc A) := match pc with
  | CStart | CNoReal => True
  | CHave p => ps_provider s = Some p
  | CDone None => pre = None
  | CDone (Some r) => real_ok (ps_provider s) a r
  end.
Definition rank (pc : call_pc A) : nat := match pc with CStart => 0 | CNoReal => 1 | CHave _ => 2 | CDone _ => 3 end.

Lemma call_step_ok : forall s c s' c' a hd pre, call_step s c = (s', c') ->
  nth_error (ps_handles s) (ca_handle c) = Some hd -> handle_ok s a hd -> pc_ok s a pre (ca_pc c) ->
  (forall p, pre = Some p -> ps_provider s = Some p) ->
  pc_ok s' a pre (ca_pc c') /\ (rank (ca_pc c') >= Nat.min 3 (S (rank (ca_pc c))))%nat.
Proof.
  intros s c s' c' a hd pre H Hh Hk Hpc Hpre. unfold call_step in H. rewrite Hh in H.
  unfold handle_ok in Hk. destruct hd as [r|i].
  - destruct (ca_pc c) as [| |p|r0] eqn:E; injection H as <- <-; cbn [ca_pc pc_ok rank]; rewrite ?E; cbn [pc_ok rank];
      split; try exact Hk; try exact Hpc; try lia.
  - destruct Hk as (px & H1 & H2 & H3). rewrite H1 in H.
    destruct (ca_pc c) as [| |p|r0] eqn:E.
    + destruct (px_real px) as [r|]; injection H as <- <-; cbn [ca_pc pc_ok rank]; split; auto; lia.
    + destruct (ps_provider s) as [p|] eqn:Ep; injection H as <- <-; cbn [ca_pc pc_ok rank]; split; auto; try lia.
      destruct pre as [p|]; [|reflexivity]. specialize (Hpre p eq_refl). discriminate.
    + injection H as <- <-. cbn [ca_pc pc_ok rank]. split; [|lia]. cbn [pc_ok] in Hpc. split; cbn; assumption.
    + injection H as <- <-. rewrite E. split; [exact Hpc|cbn; lia].
Qed.

Lemma call_step_proxies : forall s c s' c', call_step s c = (s', c') ->
  (forall p, ca_pc c = CHave p -> ps_provider s = Some p) ->
  forall i px, nth_error (ps_proxies s) i = Some px -> exists px', nth_error (ps_proxies s') i = Some px'
     /\ px_args px' = px_args px
     /\ (px_real px' = px_real px \/ exists r, px_real px' = Some r /\ real_ok (ps_provider s') (px_args px) r).
Proof.
  intros s c s' c' H Hp i px Hi. unfold call_step in H.
  destruct (nth_error (ps_handles s) (ca_handle c)) as [[r|i0]|]; [| |injection H as <- <-; eauto].
  - destruct (ca_pc c); injection H as <- <-; eauto.
  - destruct (nth_error (ps_proxies s) i0) as [px0|] eqn:E0; [|injection H as <- <-; eauto].
    destruct (ca_pc c) as [| |p|r0] eqn:E.
    + destruct (px_real px0); injection H as <- <-; eauto.
    + destruct (ps_provider s); injection H as <- <-; eauto.
    + injection H as <- <-. cbn [ps_proxies ps_provider]. rewrite nth_upd. destruct (Nat.eqb i0 i) eqn:Ei.
      * apply Nat.eqb_eq in Ei as ->. rewrite Hi in E0. injection E0 as ->. rewrite Hi. cbn [option_map].
        eexists. split; [reflexivity|]. cbn [px_args px_real]. split; [reflexivity|]. right. eexists. split; [reflexivity|].
        split; cbn; auto.
      * eauto.
    + injection H as <- <-; eauto.
Qed.

(** Calls: every call in the list found what the provider gives. *)
Definition calls_ok s := forall c cl p, nth_error (ps_calls s) c = Some cl -> ca_pc cl = CHave p -> ps_provider s = Some p.

Lemma prun_snoc : forall l o, prun (l ++ [o]) = pstep (prun l) o.
Proof. intros. unfold prun. rewrite fold_left_app. reflexivity. Qed.

Lemma call_step_have : forall s c s' c' p, call_step s c = (s', c') ->
  (forall q, ca_pc c = CHave q -> ps_provider s = Some q) -> ca_pc c' = CHave p -> ps_provider s = Some p.
Proof.
  intros s c s' c' p H Hc Hp. unfold call_step in H.
  repeat (match type of H with context [match ?e with _ => _ end] => destruct e eqn:? end);
    injection H as <- <-; cbn [ca_pc] in *; try discriminate; try (injection Hp as <-); auto; congruence.
Qed.

Lemma prun_inv : forall l, pinv l (prun l) /\ calls_ok (prun l).
Proof.
  induction l as [|o l [[IP IL IC IO] IK]] using rev_ind.
  - split; [constructor; try reflexivity; intros [|h] a H; discriminate|].
    intros c cl p H; destruct c; discriminate.
  - rewrite prun_snoc. set (s := prun l) in *.
    assert (Hmono : forall s' a h, ps_provider s' = ps_provider s -> ps_proxies s' = ps_proxies s -> handle_ok s a h -> handle_ok s' a h).
    { intros s' a h E1 E2. unfold handle_ok. rewrite E1, E2. auto. }
    destruct o as [a|p|h x|c]; cbn [pstep].
    + destruct (ps_provider s) as [p|] eqn:Ep.
      * split; [constructor; cbn [ps_provider ps_handles ps_calls]|].
        -- rewrite first_set_app, <- IP. reflexivity.
        -- rewrite gets_app, !app_length, IL. reflexivity.
        -- rewrite started_app, IC. cbn. lia.
        -- intros h a' H. rewrite gets_app in H. apply nth_snoc in H as [H|[-> ->]].
           ++ destruct (IO _ _ H) as (hd & H1 & H2). exists hd. split; [apply nth_app_some, H1|].
              revert H2. apply Hmono; [cbn; congruence|reflexivity].
           ++ exists (HReal (p, a)). rewrite <- IL. split; [apply nth_app_last|]. split; reflexivity.
        -- intros c cl q H Hq. cbn [ps_calls ps_provider] in *. rewrite <- Ep. eauto.
      * split; [constructor; cbn [ps_provider ps_handles ps_calls]|].
        -- rewrite first_set_app, <- IP. reflexivity.
        -- rewrite gets_app, !app_length, IL. reflexivity.
        -- rewrite started_app, IC. cbn. lia.
        -- intros h a' H. rewrite gets_app in H. apply nth_snoc in H as [H|[-> ->]].
           ++ destruct (IO _ _ H) as (hd & H1 & H2). exists hd. split; [apply nth_app_some, H1|].
              revert H2. apply handle_ok_mono; cbn [ps_provider ps_proxies].
              ** congruence.
              ** intros i px Hi. exists px. split; [apply nth_app_some, Hi|]. auto.
           ++ exists (HProxy (length (ps_proxies s))). rewrite <- IL. split; [apply nth_app_last|].
              exists (Proxy a None). cbn [ps_proxies]. split; [apply nth_app_last|]. cbn. auto.
        -- intros c cl q H Hq. cbn [ps_calls ps_provider] in *. rewrite <- Ep. eauto.
    + destruct (ps_provider s) as [p0|] eqn:Ep.
      * split; [constructor|exact IK].
        -- rewrite first_set_app, <- IP, Ep. reflexivity.
        -- rewrite gets_app, app_nil_r. exact IL.
        -- rewrite started_app, IC. cbn. lia.
        -- intros h a H. rewrite gets_app, app_nil_r in H. auto.
      * split; [constructor; cbn [ps_provider ps_handles ps_calls]|].
        -- rewrite first_set_app, <- IP. reflexivity.
        -- rewrite gets_app, app_nil_r. exact IL.
        -- rewrite started_app, IC. cbn. lia.
        -- intros h a H. rewrite gets_app, app_nil_r in H. destruct (IO _ _ H) as (hd & H1 & H2). exists hd. split; [exact H1|].
           revert H2. apply handle_ok_mono; cbn [ps_provider ps_proxies]; [congruence|eauto].
        -- intros c cl q H Hq. cbn [ps_calls ps_provider] in *. specialize (IK _ _ _ H Hq). congruence.
    + split; [constructor; cbn [ps_provider ps_handles ps_calls]|].
      * rewrite first_set_app, <- IP. cbn. destruct (ps_provider s); reflexivity.
      * rewrite gets_app, app_nil_r. exact IL.
      * rewrite started_app, app_length, IC. reflexivity.
      * intros h' a H. rewrite gets_app, app_nil_r in H. destruct (IO _ _ H) as (hd & H1 & H2). exists hd. split; [exact H1|].
        revert H2. apply Hmono; reflexivity.
      * intros c cl q H Hq. cbn [ps_calls ps_provider] in *. apply nth_snoc in H as [H|[_ ->]]; [eauto|discriminate].
    + destruct (nth_error (ps_calls s) c) as [cl|] eqn:Ec.
      2:{ split; [constructor|exact IK].
          - rewrite first_set_app, <- IP. cbn. destruct (ps_provider s); reflexivity.
          - rewrite gets_app, app_nil_r. exact IL.
          - rewrite started_app, IC. cbn. lia.
          - intros h a H. rewrite gets_app, app_nil_r in H. auto. }
      destruct (call_step s cl) as [s1 cl1] eqn:Es.
      destruct (call_step_frame _ _ _ _ Es) as (F1 & F2 & F3 & _ & _).
      split; [constructor; cbn [ps_provider ps_handles ps_calls]|].
      * rewrite F1, first_set_app, <- IP. cbn. destruct (ps_provider s); reflexivity.
      * rewrite F2, gets_app, app_nil_r. exact IL.
      * rewrite length_upd, F3, started_app, IC. cbn. lia.
      * intros h a H. rewrite gets_app, app_nil_r in H. destruct (IO _ _ H) as (hd & H1 & H2). exists hd. rewrite F2. split; [exact H1|].
        revert H2. apply handle_ok_mono; cbn [ps_provider ps_proxies].
        -- congruence.
        -- apply (call_step_proxies _ _ _ _ Es). intros p Hp. exact (IK _ _ _ Ec Hp).
      * intros c' cl' q H Hq. cbn [ps_calls ps_provider] in *. rewrite nth_upd, F3 in H. rewrite F1.
        destruct (Nat.eqb c c') eqn:E.
        -- apply Nat.eqb_eq in E as ->. rewrite Ec in H. cbn in H. injection H as <-.
           apply (call_step_have _ _ _ _ _ Es); [|exact Hq]. intros q' Hq'. exact (IK _ _ _ Ec Hq').
        -- eauto.
Qed.

Lemma nth_gets_app : forall l1 l2 h a, nth_error (gets l1) h = Some a -> nth_error (gets (l1 ++ l2)) h = Some a.
Proof. intros. rewrite gets_app. apply nth_app_some. assumption. Qed.

Lemma call_run : forall l1 h x l2 a, nth_error (gets l1) h = Some a ->
  exists pc, nth_error (ps_calls (prun (l1 ++ PCall h x :: l2))) (calls_started l1) = Some (Call h x pc)
    /\ pc_ok (prun (l1 ++ PCall h x :: l2)) a (first_set l1) pc
    /\ (rank pc >= Nat.min 3 (steps_of (calls_started l1) l2))%nat.
Proof.
  intros l1 h x l2 a Ha. induction l2 as [|o l2 IH] using rev_ind.
  - exists CStart. rewrite prun_snoc. cbn [pstep ps_calls]. destruct (prun_inv l1) as [[_ _ IC _] _].
    rewrite <- IC at 1. split; [apply nth_app_last|]. cbn. split; [exact I|lia].
  - destruct IH as (pc & H1 & H2 & H3).
    replace (l1 ++ PCall h x :: l2 ++ [o]) with ((l1 ++ PCall h x :: l2) ++ [o]) by (rewrite <- app_assoc; reflexivity).
    rewrite prun_snoc. set (l := l1 ++ PCall h x :: l2) in *. set (s := prun l) in *. set (c := calls_started l1) in *.
    destruct (prun_inv l) as [[IP IL IC IO] IK]. fold s in IP, IL, IC, IO, IK.
    rewrite steps_app.
    assert (Hmono : forall s', (forall p, ps_provider s = Some p -> ps_provider s' = Some p) -> pc_ok s' a (first_set l1) pc).
    { intros s' Hs. revert H2. destruct pc as [| |p|[r|]]; cbn [pc_ok]; auto. intros [E1 E2]. split; auto. }
    destruct o as [a'|p|h' x'|c']; cbn [pstep steps_of].
    + exists pc. destruct (ps_provider s) eqn:Ep; cbn [ps_calls]; (split; [exact H1|]); (split; [|lia]); apply Hmono; cbn; congruence.
    + exists pc. destruct (ps_provider s) eqn:Ep; cbn [ps_calls]; (split; [exact H1|]); (split; [|lia]); apply Hmono; cbn; congruence.
    + exists pc. cbn [ps_calls]. split; [apply nth_app_some, H1|]. split; [|lia]. apply Hmono; cbn; auto.
    + destruct (nth_error (ps_calls s) c') as [cl|] eqn:Ec.
      2:{ exists pc. split; [exact H1|]. split; [exact H2|].
          destruct (Nat.eqb c c') eqn:E; [apply Nat.eqb_eq in E as <-; congruence|lia]. }
      destruct (call_step s cl) as [s1 cl1] eqn:Es.
      destruct (call_step_frame _ _ _ _ Es) as (F1 & F2 & F3 & F4 & F5).
      cbn [ps_calls]. rewrite F3, nth_upd. rewrite Nat.eqb_sym. destruct (Nat.eqb c c') eqn:E.
      * apply Nat.eqb_eq in E as <-. rewrite H1. rewrite H1 in Ec. injection Ec as <-. cbn [option_map].
        destruct (IO h a (nth_gets_app _ _ _ _ Ha)) as (hd & Hh & Hk).
        destruct (call_step_ok s _ _ _ a hd (first_set l1) Es Hh Hk H2) as [K1 K2].
        { intros p Hp. rewrite IP. unfold l. rewrite first_set_app, Hp. reflexivity. }
        destruct cl1 as [h1 x1 pc1]. cbn [ca_handle ca_arg ca_pc] in *. subst h1 x1.
        exists pc1. split; [reflexivity|]. split; [|lia].
        revert K1. unfold pc_ok. destruct pc1 as [| |q|[r|]]; cbn [ps_provider]; auto.
      * exists pc. split; [exact H1|]. split; [|lia]. apply Hmono; cbn. congruence.
Qed.

Lemma tracer_calls : forall l1 h x l2 a r, nth_error (gets l1) h = Some a ->
  result_of (prun (l1 ++ PCall h x :: l2)) (calls_started l1) = Some r ->
  (forall p, first_set l1 = Some p -> r = Some (p, a))
  /\ (r = None \/ exists p, first_set (l1 ++ l2) = Some p /\ r = Some (p, a)).
Proof.
  intros l1 h x l2 a r Ha H. destruct (call_run l1 h x l2 a Ha) as (pc & H1 & H2 & _).
  unfold result_of in H. rewrite H1 in H. destruct pc as [| |q|r']; try discriminate. injection H as ->.
  destruct (prun_inv (l1 ++ PCall h x :: l2)) as [[IP _ _ _] _].
  assert (E : first_set (l1 ++ PCall h x :: l2) = first_set (l1 ++ l2)) by (rewrite !first_set_app; reflexivity).
  destruct r as [[p b]|]; cbn [pc_ok] in H2.
  - destruct H2 as [K1 K2]. cbn in K1, K2. subst b. rewrite IP, E in K1. split; [|right; eauto].
    intros p' Hp. rewrite first_set_app, Hp in K1. congruence.
  - split; [congruence|auto].
Qed.
Lemma tracer_progress : forall l1 h x l2 a, nth_error (gets l1) h = Some a ->
  (steps_of (calls_started l1) l2 >= 3)%nat ->
  exists r, result_of (prun (l1 ++ PCall h x :: l2)) (calls_started l1) = Some r.
Proof.
  intros l1 h x l2 a Ha H. destruct (call_run l1 h x l2 a Ha) as (pc & H1 & _ & H3).
  unfold result_of. rewrite H1. destruct pc as [| |q|r]; cbn [rank] in H3; try lia. eauto.
Qed.
End Tracers.

Section Meters.
Context {M T I X : Type}.
Variable bad : I -> bool.
Implicit Types (s : mstate M T I X) (pm : pmeter M T I) (pc : set_pc M T).

(** Which meters and instruments the thread in set_meter_provider has connected. *)
Definition mlinked pc (j : nat) : bool := match pc with
  | SIdle | SAssigned => false
  | SMeters j' | SMeter j' _ => Nat.ltb j j'
  | SInstr j' _ | SRaised j' _ => Nat.leb j j'
  | SDone => true
  end.
Definition linked pc (j k : nat) : bool := match pc with
  | SIdle | SAssigned => false
  | SMeters j' | SMeter j' _ => Nat.ltb j j'
  | SInstr j' k' | SRaised j' k' => Nat.ltb j j' || (Nat.eqb j j' && Nat.ltb k k')
  | SDone => true
  end.
Lemma unlinked : forall pc j k, mlinked pc j = false -> linked pc j k = false.
Proof.
  intros pc j k H. destruct pc; cbn in *; try exact H; apply Nat.leb_gt in H;
    apply orb_false_intro; [apply Nat.ltb_ge; lia| |apply Nat.ltb_ge; lia|];
    (destruct (Nat.eqb_spec j j0); [lia|reflexivity]).
Qed.

Definition meter_ok pc j pm :=
  pm_real pm = (if mlinked pc j then Some (pm_args pm, None) else None)
  /\ forall k p, nth_error (pm_instr pm) k = Some p ->
       pi_real p = if linked pc j k then Some ((pm_args pm, None), pi_args p) else None.
Definition mh_ok s (a : M * option T) (h : mhandle M T) := match h with
  | MReal (m, t) => m = fst a /\ (t = snd a \/ t = None)
  | MProxy j => exists pm, nth_error (ms_meters s) j = Some pm /\ pm_args pm = fst a
  end.
Definition ih_ok s (a : M * option T * I) (h : ihandle M T I) := match h with
  | IReal (m, t) i => m = fst (fst a) /\ (t = snd (fst a) \/ t = None) /\ i = snd a
  | IProxy j k => exists pm p, nth_error (ms_meters s) j = Some pm /\ pm_args pm = fst (fst a)
      /\ nth_error (pm_instr pm) k = Some p /\ pi_args p = snd a
  end.

Definition real_dest (h : ihandle M T I) : list (M * I) := match h with IReal (m, _) i => [(m, i)] | IProxy _ _ => [] end.
Definition on_link (p : pinstr M T I) (m : M) : list (M * I) :=
  match pi_real p with Some (m', i) => [(fst m', i)] | None => [] end.
Definition off_link (p : pinstr M T I) (m : M) : list (M * I) :=
  match pi_real p with Some _ => [] | None => [(m, pi_args p)] end.
Definition all_link (p : pinstr M T I) (m : M) : list (M * I) := [(m, pi_args p)].
Definition over (f : pinstr M T I -> M -> list (M * I)) (l : list (pmeter M T I)) : list (M * I) :=
  flat_map (fun pm => flat_map (fun p => f p (pm_args pm)) (pm_instr pm)) l.

Record minv s := {
  mi_len : length (ms_masked s) = length (ms_mh s);
  mi_mh : forall h hd, nth_error (ms_mh s) h = Some hd -> exists a, nth_error (ms_masked s) h = Some a /\ mh_ok s a hd;
  mi_ilen : length (ms_iasked s) = length (ms_ih s);
  mi_ih : forall h hd, nth_error (ms_ih s) h = Some hd -> exists a, nth_error (ms_iasked s) h = Some a /\ ih_ok s a hd;
  mi_meters : forall j pm, nth_error (ms_meters s) j = Some pm -> meter_ok (ms_pc s) j pm;
  mi_set : ms_set s = match ms_pc s with SIdle | SAssigned => false | _ => true end;
  mi_pc : match ms_pc s with
          | SMeter j m => exists pm, nth_error (ms_meters s) j = Some pm /\ m = (pm_args pm, None)
          | SInstr j _ | SRaised j _ => (j < length (ms_meters s))%nat
          | _ => True
          end;
  mi_created : Permutation (created (ms_log s)) (flat_map real_dest (ms_ih s) ++ over on_link (ms_meters s));
  mi_asked : Permutation (map (fun a => (fst (fst a), snd a)) (ms_iasked s))
               (flat_map real_dest (ms_ih s) ++ over all_link (ms_meters s)) }.

(** The meters only grow: what a handle refers to stays. *)
Definition grows (l l' : list (pmeter M T I)) := forall j pm, nth_error l j = Some pm ->
  exists pm', nth_error l' j = Some pm' /\ pm_args pm' = pm_args pm
    /\ forall k p, nth_error (pm_instr pm) k = Some p -> exists p', nth_error (pm_instr pm') k = Some p' /\ pi_args p' = pi_args p.
Lemma grows_refl : forall l, grows l l.
Proof. intros l j pm H. eauto 10. Qed.
Lemma grows_app : forall l l2, grows l (l ++ l2).
Proof. intros l l2 j pm H. exists pm. split; [apply nth_app_some, H|eauto]. Qed.
Lemma grows_upd : forall l j f, (forall pm, nth_error l j = Some pm -> pm_args (f pm) = pm_args pm
    /\ forall k p, nth_error (pm_instr pm) k = Some p -> exists p', nth_error (pm_instr (f pm)) k = Some p' /\ pi_args p' = pi_args p) ->
  grows l (upd_nth j f l).
Proof.
  intros l j f Hf j' pm H. rewrite nth_upd. destruct (Nat.eqb_spec j j') as [<-|Hne].
  - rewrite H. cbn. destruct (Hf _ H). eauto.
  - exists pm. eauto.
Qed.
Lemma mh_grows : forall s s' a h, grows (ms_meters s) (ms_meters s') -> mh_ok s a h -> mh_ok s' a h.
Proof.
  intros s s' a h G. unfold mh_ok. destruct h as [[m t]|j]; [auto|]. intros (pm & H1 & H2).
  destruct (G _ _ H1) as (pm' & G1 & G2 & _). exists pm'. split; [exact G1|congruence].
Qed.
Lemma ih_grows : forall s s' a h, grows (ms_meters s) (ms_meters s') -> ih_ok s a h -> ih_ok s' a h.
Proof.
  intros s s' a h G. unfold ih_ok. destruct h as [[m t]|j k]; [auto|]. intros (pm & p & H1 & H2 & H3 & H4).
  destruct (G _ _ H1) as (pm' & G1 & G2 & G3). destruct (G3 _ _ H3) as (p' & K1 & K2).
  exists pm', p'. split; [exact G1|]. split; [congruence|]. split; [exact K1|congruence].
Qed.

Lemma created_app : forall l1 l2 : list (mevent M T I X), created (l1 ++ l2) = created l1 ++ created l2.
Proof. induction l1 as [|[[m t] i|m i x] l1 IH]; intros; cbn [created app]; rewrite ?IH; reflexivity. Qed.
Lemma over_app : forall f l1 l2, over f (l1 ++ l2) = over f l1 ++ over f l2.
Proof. intros. unfold over. apply flat_map_app. Qed.
Lemma over_upd : forall f l j g pm d, nth_error l j = Some pm ->
  Permutation (flat_map (fun p => f p (pm_args (g pm))) (pm_instr (g pm))) (d ++ flat_map (fun p => f p (pm_args pm)) (pm_instr pm)) ->
  Permutation (over f (upd_nth j g l)) (d ++ over f l).
Proof.
  intros f l. unfold over. induction l as [|x l IH]; intros [|j] g pm d H P; try discriminate; cbn [upd_nth flat_map nth_error] in *.
  - injection H as ->. rewrite P. rewrite app_assoc. reflexivity.
  - rewrite (IH _ _ _ _ H P). rewrite !app_assoc. apply Permutation_app_tail. apply Permutation_app_comm.
Qed.
Lemma flat_upd : forall {B C} (f : B -> list C) l k g p d, nth_error l k = Some p ->
  Permutation (f (g p)) (d ++ f p) -> Permutation (flat_map f (upd_nth k g l)) (d ++ flat_map f l).
Proof.
  intros B C f l. induction l as [|x l IH]; intros [|k] g p d H P; try discriminate; cbn [upd_nth flat_map nth_error] in *.
  - injection H as ->. rewrite P, app_assoc. reflexivity.
  - rewrite (IH _ _ _ _ H P), !app_assoc. apply Permutation_app_tail, Permutation_app_comm.
Qed.

(** Steps that leave the meters and the setting thread as they are. *)
Lemma inv_mh : forall s h m t, minv s -> mh_ok s (m, t) h ->
  minv (MState (ms_global s) (ms_set s) (ms_meters s) (ms_pc s) (ms_mh s ++ [h]) (ms_ih s) (ms_log s) (ms_masked s ++ [(m, t)]) (ms_iasked s)).
Proof.
  intros s h m t [] Hh. constructor; cbn [ms_global ms_set ms_meters ms_pc ms_mh ms_ih ms_log ms_masked ms_iasked]; auto.
  - rewrite !app_length. cbn. lia.
  - intros h' hd H. apply nth_snoc in H as [H|[-> ->]].
    + destruct (mi_mh0 _ _ H) as (a & H1 & H2). exists a. split; [apply nth_app_some, H1|exact H2].
    + exists (m, t). split; [rewrite <- mi_len0; apply nth_app_last|exact Hh].
Qed.
Lemma inv_ih_real : forall s m t t' i, minv s -> t' = t \/ t' = None ->
  minv (with_instr s (ms_meters s) (IReal (m, t') i) (ms_log s ++ [ECreate (m, t') i]) (m, t, i)).
Proof.
  intros s m t t' i [] Ht. constructor; cbn [with_instr ms_global ms_set ms_meters ms_pc ms_mh ms_ih ms_log ms_masked ms_iasked]; auto.
  - rewrite !app_length. cbn. lia.
  - intros h' hd H. apply nth_snoc in H as [H|[-> ->]].
    + destruct (mi_ih0 _ _ H) as (a & H1 & H2). exists a. split; [apply nth_app_some, H1|exact H2].
    + exists (m, t, i). split; [rewrite <- mi_ilen0; apply nth_app_last|cbn; auto].
  - rewrite created_app, flat_map_app. cbn. rewrite mi_created0. rewrite <- !app_assoc. apply Permutation_app_head.
    apply Permutation_app_comm.
  - rewrite map_app, flat_map_app. cbn. rewrite mi_asked0. rewrite <- !app_assoc. apply Permutation_app_head.
    apply Permutation_app_comm.
Qed.

Lemma inv_get_proxy : forall s m t, minv s -> minv (proxy_get_meter s m t).
Proof.
  intros s m t H. unfold proxy_get_meter. destruct (provider_locked (ms_pc s)) eqn:El; [exact H|].
  destruct (ms_set s) eqn:Es.
  - unfold with_handle. rewrite Es. rewrite <- Es at 1. apply inv_mh; [exact H|]. cbn. auto.
  - assert (Hpc : ms_pc s = SIdle \/ ms_pc s = SAssigned).
    { pose proof (mi_set _ H) as E. rewrite Es in E. destruct (ms_pc s); try discriminate; auto. }
    destruct H. constructor; unfold with_handle; cbn [ms_global ms_set ms_meters ms_pc ms_mh ms_ih ms_log ms_masked ms_iasked]; auto.
    + rewrite !app_length. cbn. lia.
    + intros h' hd H. apply nth_snoc in H as [H|[-> ->]].
      * destruct (mi_mh0 _ _ H) as (a & H1 & H2). exists a. split; [apply nth_app_some, H1|].
        revert H2. apply mh_grows. apply grows_app.
      * exists (m, t). split; [rewrite <- mi_len0; apply nth_app_last|]. exists (PMeter m None []). split; [apply nth_app_last|reflexivity].
    + intros h' hd H. destruct (mi_ih0 _ _ H) as (a & H1 & H2). exists a. split; [exact H1|].
      revert H2. apply ih_grows. apply grows_app.
    + intros j pm H. apply nth_snoc in H as [H|[-> ->]]; [auto|]. split.
      * destruct Hpc as [-> | ->]; reflexivity.
      * intros [|k] p Hk; discriminate.
    + destruct Hpc as [E|E]; rewrite E; exact Logic.I.
    + rewrite over_app. cbn. rewrite app_nil_r. exact mi_created0.
    + rewrite over_app. cbn. rewrite app_nil_r. exact mi_asked0.
Qed.

Lemma inv_create : forall s h i, minv s -> minv (create_instr bad s h i).
Proof.
  intros s h i H. unfold create_instr.
  destruct (nth_error (ms_mh s) h) as [hd|] eqn:Eh; [|exact H].
  destruct (mi_mh _ H _ _ Eh) as ([ma t] & Ea & Hok). rewrite Ea.
  destruct hd as [[m t']|j].
  - destruct (bad i); [destruct (nth_error (ms_masked s) h); exact H|]. cbn in Hok. destruct Hok as [-> Ht].
    apply inv_ih_real; assumption.
  - destruct Hok as (pm & Ej & Ep). cbn in Ep. rewrite Ej.
    destruct (meter_locked (ms_pc s) j); [exact H|].
    destruct (mi_meters _ H _ _ Ej) as [Hr Hi].
    destruct (pm_real pm) as [m|] eqn:Er.
    + destruct (mlinked (ms_pc s) j); [|discriminate]. injection Hr as ->. rewrite Ep.
      destruct (bad i); [exact H|]. apply inv_ih_real; auto.
    + destruct (mlinked (ms_pc s) j) eqn:El; [discriminate|].
      assert (G : grows (ms_meters s) (upd_nth j (fun pm => PMeter (pm_args pm) (pm_real pm) (pm_instr pm ++ [PInstr i None])) (ms_meters s))).
      { apply grows_upd. intros pm' Hpm. cbn. split; [reflexivity|]. intros k p Hk. exists p. split; [apply nth_app_some, Hk|reflexivity]. }
      destruct H. constructor; cbn [with_instr ms_global ms_set ms_meters ms_pc ms_mh ms_ih ms_log ms_masked ms_iasked]; auto.
      * intros h' hd H. destruct (mi_mh0 _ _ H) as (a & H1 & H2). exists a. split; [exact H1|]. revert H2. apply mh_grows, G.
      * rewrite !app_length. cbn. lia.
      * intros h' hd H. apply nth_snoc in H as [H|[-> ->]].
        -- destruct (mi_ih0 _ _ H) as (a & H1 & H2). exists a. split; [apply nth_app_some, H1|]. revert H2. apply ih_grows, G.
        -- exists (ma, t, i). split; [rewrite <- mi_ilen0; apply nth_app_last|]. cbn [ih_ok ms_meters with_instr].
           rewrite nth_upd, Nat.eqb_refl, Ej. cbn [option_map]. eexists. eexists. split; [reflexivity|].
           cbn [pm_args pm_instr fst snd]. split; [exact Ep|]. split; [apply nth_app_last|reflexivity].
      * intros j' pm' H. rewrite nth_upd in H. destruct (Nat.eqb_spec j j') as [<-|Hne]; [|auto].
        rewrite Ej in H. cbn in H. injection H as <-. split; cbn [pm_real pm_args pm_instr]; [rewrite El; exact Er|].
        intros k p Hk. apply nth_snoc in Hk as [Hk|[-> ->]]; [auto|]. rewrite (unlinked _ _ _ El). reflexivity.
      * destruct (ms_pc s) as [| |j0|j0 m0|j0 k0| |j0 k0]; auto; rewrite ?length_upd; auto.
        destruct mi_pc0 as (pm0 & K1 & K2). destruct (G _ _ K1) as (pm1 & G1 & G2 & _). exists pm1. split; [exact G1|congruence].
      * rewrite flat_map_app. cbn [real_dest flat_map app]. rewrite app_nil_r.
        rewrite mi_created0. apply Permutation_app_head. symmetry.
        apply (over_upd on_link _ j _ pm [] Ej). cbn [pm_args pm_instr]. rewrite flat_map_app. cbn. rewrite app_nil_r. reflexivity.
      * rewrite flat_map_app, map_app. cbn [real_dest flat_map app map fst snd]. rewrite app_nil_r.
        rewrite (over_upd all_link _ j _ pm [(ma, i)] Ej).
        -- rewrite mi_asked0. rewrite <- app_assoc. apply Permutation_app_head. apply Permutation_app_comm.
        -- cbn [pm_args pm_instr]. rewrite flat_map_app. cbn. rewrite Ep. apply (Permutation_app_comm _ [_]).
Qed.

Lemma inv_measure : forall s h x, minv s -> minv (measure s h x).
Proof.
  intros s h x H. unfold measure.
  assert (K : forall e, created [e] = [] -> minv (MState (ms_global s) (ms_set s) (ms_meters s) (ms_pc s) (ms_mh s) (ms_ih s)
     (ms_log s ++ [e]) (ms_masked s) (ms_iasked s))).
  { intros e He. destruct H. constructor; cbn [ms_global ms_set ms_meters ms_pc ms_mh ms_ih ms_log ms_masked ms_iasked]; auto.
    rewrite created_app, He, app_nil_r. assumption. }
  destruct (nth_error (ms_ih s) h) as [[m i|j k]|]; [apply K; reflexivity| |exact H].
  destruct (nth_error (ms_meters s) j) as [pm|]; [|exact H].
  destruct (nth_error (pm_instr pm) k) as [[a [[m i]|]]|]; try exact H. apply K. reflexivity.
Qed.

Lemma meter_ok_pc : forall pc pc' j pm, mlinked pc' j = mlinked pc j ->
  (forall k, (k < length (pm_instr pm))%nat -> linked pc' j k = linked pc j k) -> meter_ok pc j pm -> meter_ok pc' j pm.
Proof.
  intros pc pc' j pm H1 H2 [K1 K2]. split; [rewrite H1; exact K1|].
  intros k p Hk. rewrite H2 by (apply nth_error_Some; congruence). auto.
Qed.

Lemma inv_set : forall s, minv s -> minv (set_step bad s).
Proof.
  intros s H. unfold set_step. destruct (ms_pc s) as [| |j|j m|j k| |j k] eqn:Epc; [| | | | |exact H|exact H].
  - destruct H. constructor; cbn [ms_global ms_set ms_meters ms_pc ms_mh ms_ih ms_log ms_masked ms_iasked]; auto;
      rewrite Epc in *; auto.
  - destruct H. constructor; cbn [ms_global ms_set ms_meters ms_pc ms_mh ms_ih ms_log ms_masked ms_iasked]; auto;
      rewrite Epc in *; auto.
  - destruct (nth_error (ms_meters s) j) as [pm|] eqn:Ej.
    + destruct H. constructor; cbn [ms_global ms_set ms_meters ms_pc ms_mh ms_ih ms_log ms_masked ms_iasked]; auto;
        rewrite Epc in *; auto. eauto.
    + apply nth_error_None in Ej.
      destruct H. constructor; cbn [ms_global ms_set ms_meters ms_pc ms_mh ms_ih ms_log ms_masked ms_iasked]; auto;
        rewrite Epc in *; auto.
      intros j' pm Hj. specialize (mi_meters0 _ _ Hj). revert mi_meters0.
      assert (j' < length (ms_meters s))%nat by (apply nth_error_Some; congruence).
      assert (Nat.ltb j' j = true) by (apply Nat.ltb_lt; lia).
      apply meter_ok_pc; cbn; auto.
  - assert (G : grows (ms_meters s) (upd_nth j (fun pm => PMeter (pm_args pm) (Some m) (pm_instr pm)) (ms_meters s))).
    { apply grows_upd. intros pm Hpm. cbn. split; [reflexivity|]. eauto. }
    destruct H. rewrite Epc in *. destruct mi_pc0 as (pm & Ej & ->).
    constructor; cbn [ms_global ms_set ms_meters ms_pc ms_mh ms_ih ms_log ms_masked ms_iasked]; auto.
    + intros h hd H. destruct (mi_mh0 _ _ H) as (a & H1 & H2). exists a. split; [exact H1|]. revert H2. apply mh_grows, G.
    + intros h hd H. destruct (mi_ih0 _ _ H) as (a & H1 & H2). exists a. split; [exact H1|]. revert H2. apply ih_grows, G.
    + intros j' pm' H. rewrite nth_upd in H. destruct (Nat.eqb_spec j j') as [<-|Hne].
      * rewrite Ej in H. injection H as <-. destruct (mi_meters0 _ _ Ej) as [_ Hi]. split; cbn [pm_real pm_args pm_instr].
        -- cbn. rewrite Nat.leb_refl. reflexivity.
        -- intros k p Hk. rewrite (Hi _ _ Hk). cbn [linked]. rewrite Nat.ltb_irrefl, Nat.eqb_refl. reflexivity.
      * specialize (mi_meters0 _ _ H). revert mi_meters0. apply meter_ok_pc.
        -- cbn [mlinked]. apply eq_true_iff_eq. rewrite Nat.leb_le, Nat.ltb_lt. lia.
        -- intros k _. cbn [linked]. destruct (Nat.eqb_spec j' j); [congruence|]. cbn [andb]. apply orb_false_r.
    + rewrite length_upd. apply nth_error_Some. congruence.
    + rewrite (over_upd on_link _ j _ pm [] Ej); [exact mi_created0|reflexivity].
    + rewrite (over_upd all_link _ j _ pm [] Ej); [exact mi_asked0|reflexivity].
  - destruct (nth_error (ms_meters s) j) as [[a re ins]|] eqn:Ej; [|exact H].
    destruct re as [m|]; [|exact H].
    assert (Hm : m = (a, None)).
    { destruct (mi_meters _ H _ _ Ej) as [Hr _]. rewrite Epc in Hr. cbn in Hr. rewrite Nat.leb_refl in Hr. congruence. }
    subst m.
    destruct (nth_error ins k) as [[i r]|] eqn:Ek.
    + destruct (bad i).
      * destruct H. constructor; cbn [ms_global ms_set ms_meters ms_pc ms_mh ms_ih ms_log ms_masked ms_iasked]; auto; rewrite Epc in *; auto.
      * set (f := fun pm : pmeter M T I => PMeter (pm_args pm) (pm_real pm)
                  (upd_nth k (fun p => PInstr (pi_args p) (Some (a, None, pi_args p))) (pm_instr pm))).
        assert (G : grows (ms_meters s) (upd_nth j f (ms_meters s))).
        { apply grows_upd. intros pm Hpm. cbn. split; [reflexivity|]. intros k' p Hk. rewrite nth_upd, Hk.
          destruct (Nat.eqb k k'); cbn; eauto. }
        destruct H. rewrite Epc in *. destruct (mi_meters0 _ _ Ej) as [_ Hi]. cbn [pm_instr pm_args] in Hi.
        constructor; cbn [ms_global ms_set ms_meters ms_pc ms_mh ms_ih ms_log ms_masked ms_iasked]; auto.
        -- intros h hd H. destruct (mi_mh0 _ _ H) as (b & H1 & H2). exists b. split; [exact H1|]. revert H2. apply mh_grows, G.
        -- intros h hd H. destruct (mi_ih0 _ _ H) as (b & H1 & H2). exists b. split; [exact H1|]. revert H2. apply ih_grows, G.
        -- intros j' pm' H. rewrite nth_upd in H. destruct (Nat.eqb_spec j j') as [<-|Hne].
           ++ rewrite Ej in H. cbn in H. injection H as <-. split; cbn [pm_real pm_args pm_instr].
              ** cbn. rewrite Nat.leb_refl. reflexivity.
              ** intros k' p Hk. rewrite nth_upd in Hk. cbn [linked]. rewrite Nat.ltb_irrefl, Nat.eqb_refl. cbn [orb andb].
                 destruct (Nat.eqb_spec k k') as [<-|Hk'].
                 { rewrite Ek in Hk. cbn in Hk. injection Hk as <-. cbn [pi_real pi_args].
                   replace (Nat.ltb k (S k)) with true by (symmetry; apply Nat.ltb_lt; lia). reflexivity. }
                 { rewrite (Hi _ _ Hk). cbn [linked]. rewrite Nat.ltb_irrefl, Nat.eqb_refl. cbn [orb andb].
                   replace (Nat.ltb k' (S k)) with (Nat.ltb k' k); [reflexivity|].
                   apply eq_true_iff_eq. rewrite !Nat.ltb_lt. lia. }
           ++ specialize (mi_meters0 _ _ H). revert mi_meters0. apply meter_ok_pc; [reflexivity|].
              intros k' _. cbn. destruct (Nat.eqb_spec j' j); [congruence|reflexivity].
        -- rewrite length_upd. exact mi_pc0.
        -- rewrite created_app. cbn [created]. rewrite mi_created0. rewrite (over_upd on_link _ j _ _ [(a, i)] Ej).
           ++ rewrite <- app_assoc. apply Permutation_app_head, Permutation_app_comm.
           ++ cbn [pm_args pm_instr f]. apply flat_upd with (p := PInstr i r); [exact Ek|]. cbn.
              specialize (Hi _ _ Ek). cbn [linked pi_real] in Hi. rewrite !Nat.ltb_irrefl, Nat.eqb_refl in Hi. cbn in Hi. subst r. reflexivity.
        -- rewrite (over_upd all_link _ j _ _ [] Ej); [exact mi_asked0|]. cbn [pm_args pm_instr f app].
           rewrite (flat_upd (fun p => all_link p a) ins k _ (PInstr i r) [] Ek); reflexivity.
    + apply nth_error_None in Ek.
      destruct H. constructor; cbn [ms_global ms_set ms_meters ms_pc ms_mh ms_ih ms_log ms_masked ms_iasked]; auto; rewrite Epc in *; auto.
      intros j' pm' Hj. specialize (mi_meters0 _ _ Hj). revert mi_meters0. apply meter_ok_pc.
      * cbn [mlinked]. apply eq_true_iff_eq. rewrite Nat.leb_le, Nat.ltb_lt. lia.
      * intros k' Hk'. cbn [linked]. apply eq_true_iff_eq. rewrite orb_true_iff, andb_true_iff, !Nat.ltb_lt, Nat.eqb_eq.
        split; [|lia]. intros H. destruct (Nat.eq_dec j' j) as [->|Hne]; [|lia].
        right. split; [reflexivity|]. rewrite Ej in Hj. injection Hj as <-. cbn in Hk'. lia.
Qed.

Lemma inv_step : forall s o, minv s -> minv (mstep bad s o).
Proof.
  intros s [m t|m t|h i|h x|] H; cbn [mstep].
  - destruct (ms_global s) eqn:Eg; [|apply inv_get_proxy, H]. pose proof (inv_mh s (MReal (m, t)) m t H) as K. unfold with_handle.
    rewrite Eg in K. rewrite Eg. apply K. cbn. auto.
  - apply inv_get_proxy, H.
  - apply inv_create, H.
  - apply inv_measure, H.
  - apply inv_set, H.
Qed.
Lemma mrun_snoc : forall (l : list (mop M T I X)) o, mrun bad (l ++ [o]) = mstep bad (mrun bad l) o.
Proof. intros. unfold mrun. rewrite fold_left_app. reflexivity. Qed.
Lemma inv_run : forall l : list (mop M T I X), minv (mrun bad l).
Proof.
  induction l as [|o l IH] using rev_ind.
  - constructor; cbn; auto; intros [|]; discriminate.
  - rewrite mrun_snoc. apply inv_step, IH.
Qed.

Lemma handle_of : forall s h a, minv s -> nth_error (ms_iasked s) h = Some a ->
  exists hd, nth_error (ms_ih s) h = Some hd /\ ih_ok s a hd.
Proof.
  intros s h a H Ha. destruct (nth_error (ms_ih s) h) as [hd|] eqn:E.
  - exists hd. split; [reflexivity|]. destruct (mi_ih _ H _ _ E) as (a' & H1 & H2). congruence.
  - apply nth_error_None in E. rewrite <- (mi_ilen _ H) in E. apply nth_error_None in E. congruence.
Qed.

Lemma meters_destination : forall (l : list (mop M T I X)) h m t i, nth_error (ms_iasked (mrun bad l)) h = Some (m, t, i) ->
  dropped bad (mrun bad l) h /\ ms_pc (mrun bad l) <> SDone
  \/ exists t', (t' = t \/ t' = None) /\ reaches bad (mrun bad l) h (m, t') i.
Proof.
  intros l h m t i Ha. pose proof (inv_run l) as H. set (s := mrun bad l) in *.
  destruct (handle_of _ _ _ H Ha) as (hd & Eh & Hok).
  unfold dropped, reaches, mstep, measure. rewrite Eh. destruct hd as [[m' t'] i'|j k]; cbn [ih_ok fst snd] in Hok.
  - destruct Hok as (-> & Ht & ->). right. exists t'. split; [exact Ht|]. reflexivity.
  - destruct Hok as (pm & p & H1 & H2 & H3 & H4). rewrite H1, H3.
    destruct (mi_meters _ H _ _ H1) as [_ Hi]. specialize (Hi _ _ H3). destruct p as [a r]. cbn [pi_real pi_args] in *. subst a.
    destruct (linked (ms_pc s) j k) eqn:El; subst r.
    + right. exists None. split; [auto|]. rewrite H2. reflexivity.
    + left. split; [reflexivity|]. intros E. rewrite E in El. discriminate.
Qed.

Lemma on_off : forall s, minv s -> Permutation (over all_link (ms_meters s)) (over on_link (ms_meters s) ++ over off_link (ms_meters s)).
Proof.
  intros s H. assert (K : forall j pm, nth_error (ms_meters s) j = Some pm -> forall p, In p (pm_instr pm) ->
    pi_real p = Some ((pm_args pm, None), pi_args p) \/ pi_real p = None).
  { intros j pm Hj p Hp. destruct (mi_meters _ H _ _ Hj) as [_ Hi]. apply In_nth_error in Hp as [k Hk]. rewrite (Hi _ _ Hk).
    destruct (linked (ms_pc s) j k); auto. }
  clear H. unfold over. revert K. generalize (ms_meters s) as ms. induction ms as [|pm ms IH]; intros K; [reflexivity|].
  cbn [flat_map]. rewrite IH by (intros j; exact (K (S j))).
  assert (P : Permutation (flat_map (fun p => all_link p (pm_args pm)) (pm_instr pm))
     (flat_map (fun p => on_link p (pm_args pm)) (pm_instr pm) ++ flat_map (fun p => off_link p (pm_args pm)) (pm_instr pm))).
  { specialize (K O pm eq_refl). revert K. generalize (pm_instr pm). induction l as [|p l IHl]; intros K; [reflexivity|].
    cbn [flat_map]. rewrite IHl by (intros; apply K; right; assumption).
    assert (Ep : (on_link p (pm_args pm) = [(pm_args pm, pi_args p)] /\ off_link p (pm_args pm) = [])
      \/ (on_link p (pm_args pm) = [] /\ off_link p (pm_args pm) = [(pm_args pm, pi_args p)])).
    { unfold on_link, off_link. destruct (K p (or_introl eq_refl)) as [E|E]; rewrite E; auto. }
    destruct Ep as [[-> ->]|[-> ->]]; cbn [all_link app]; [reflexivity|]. apply Permutation_middle. }
  rewrite P. rewrite <- !app_assoc. apply Permutation_app_head. rewrite !app_assoc. apply Permutation_app_tail.
  apply Permutation_app_comm.
Qed.

Lemma meters_created : forall l : list (mop M T I X), exists missing,
  Permutation (created (ms_log (mrun bad l)) ++ missing) (map (fun a => (fst (fst a), snd a)) (ms_iasked (mrun bad l)))
  /\ (ms_pc (mrun bad l) = SDone -> missing = []).
Proof.
  intros l. pose proof (inv_run l) as H. set (s := mrun bad l) in *.
  exists (over off_link (ms_meters s)). split.
  - rewrite (mi_created _ H), (mi_asked _ H), (on_off _ H), app_assoc. reflexivity.
  - intros E. unfold over.
    assert (K : forall pm, In pm (ms_meters s) -> flat_map (fun p => off_link p (pm_args pm)) (pm_instr pm) = []).
    { intros pm Hp. apply In_nth_error in Hp as [j Hj]. destruct (mi_meters _ H _ _ Hj) as [_ Hi].
      assert (K2 : forall p, In p (pm_instr pm) -> off_link p (pm_args pm) = []).
      { intros p Hp. apply In_nth_error in Hp as [k Hk]. unfold off_link. rewrite (Hi _ _ Hk), E. reflexivity. }
      revert K2. generalize (pm_instr pm). induction l0 as [|p l0 IH]; intros K2; [reflexivity|]. cbn [flat_map].
      rewrite (K2 p) by (left; reflexivity). apply IH. intros; apply K2; right; assumption. }
    revert K. generalize (ms_meters s). induction l0 as [|pm l0 IH]; intros K; [reflexivity|]. cbn [flat_map].
    rewrite (K pm) by (left; reflexivity). apply IH. intros; apply K; right; assumption.
Qed.

(** *** The setting thread finishes *)
Definition names_ok s := forall j pm p, nth_error (ms_meters s) j = Some pm -> In p (pm_instr pm) -> bad (pi_args p) = false.

Lemma names_step : forall s o, (forall h i, o = MCreate h i -> bad i = false) -> names_ok s -> names_ok (mstep bad s o).
Proof.
  intros s o Ho H. destruct o as [m t|m t|h i|h x|]; cbn [mstep].
  - destruct (ms_global s); [exact H|]. unfold proxy_get_meter.
    destruct (provider_locked (ms_pc s)); [exact H|]. destruct (ms_set s); [exact H|].
    intros j pm p Hj Hp. cbn in Hj. apply nth_snoc in Hj as [Hj|[_ ->]]; [exact (H _ _ _ Hj Hp)|destruct Hp].
  - unfold proxy_get_meter.
    destruct (provider_locked (ms_pc s)); [exact H|]. destruct (ms_set s); [exact H|].
    intros j pm p Hj Hp. cbn in Hj. apply nth_snoc in Hj as [Hj|[_ ->]]; [exact (H _ _ _ Hj Hp)|destruct Hp].
  - unfold create_instr. destruct (nth_error (ms_mh s) h) as [[m|j]|]; [| |exact H];
      destruct (nth_error (ms_masked s) h) as [[ma t]|]; try exact H.
    + destruct (bad i); exact H.
    + destruct (nth_error (ms_meters s) j) as [pm0|] eqn:E0; [|exact H]. destruct (meter_locked (ms_pc s) j); [exact H|].
      destruct (pm_real pm0); [destruct (bad i); exact H|].
      intros j' pm p Hj Hp. cbn [ms_meters with_instr] in Hj. rewrite nth_upd in Hj. destruct (Nat.eqb_spec j j') as [<-|Hne].
      * rewrite E0 in Hj. cbn in Hj. injection Hj as <-. cbn in Hp. apply in_app_or in Hp as [Hp|[<-|[]]]; [exact (H _ _ _ E0 Hp)|].
        cbn. eauto.
      * exact (H _ _ _ Hj Hp).
  - unfold measure. destruct (nth_error (ms_ih s) h) as [[m i|j k]|]; try exact H.
    destruct (nth_error (ms_meters s) j) as [pm|]; [|exact H].
    destruct (nth_error (pm_instr pm) k) as [[a [[m i]|]]|]; exact H.
  - unfold set_step. destruct (ms_pc s) as [| |j|j m|j k| |j k]; try exact H.
    + destruct (nth_error (ms_meters s) j); exact H.
    + intros j' pm p Hj Hp. cbn [ms_meters] in Hj. rewrite nth_upd in Hj. destruct (Nat.eqb j j').
      * destruct (nth_error (ms_meters s) j') as [pm0|] eqn:E0; [|discriminate]. cbn in Hj. injection Hj as <-. exact (H _ _ _ E0 Hp).
      * exact (H _ _ _ Hj Hp).
    + destruct (nth_error (ms_meters s) j) as [[a [m|] ins]|] eqn:Ej; try exact H.
      destruct (nth_error ins k) as [[i r]|] eqn:Ek; [|exact H]. destruct (bad i); [exact H|].
      intros j' pm p Hj Hp. cbn [ms_meters] in Hj. rewrite nth_upd in Hj. destruct (Nat.eqb j j').
      * destruct (nth_error (ms_meters s) j') as [pm0|] eqn:E0; [|discriminate]. cbn in Hj. injection Hj as <-.
        cbn in Hp. apply In_nth_error in Hp as [k' Hp]. rewrite nth_upd in Hp.
        destruct (nth_error (pm_instr pm0) k') as [p0|] eqn:E1; [|destruct (Nat.eqb k k'); discriminate].
        assert (K : pi_args p = pi_args p0) by (destruct (Nat.eqb k k'); cbn in Hp; injection Hp as <-; reflexivity).
        rewrite K. apply (H _ _ _ E0). eapply nth_error_In, E1.
      * exact (H _ _ _ Hj Hp).
Qed.
Lemma names_run : forall l : list (mop M T I X), (forall h i, In (MCreate h i) l -> bad i = false) -> names_ok (mrun bad l).
Proof.
  induction l as [|o l IH] using rev_ind; intros Hl.
  - intros [|j] pm p H; discriminate.
  - rewrite mrun_snoc. apply names_step.
    + intros h i ->. apply (Hl h i). apply in_or_app. right. left. reflexivity.
    + apply IH. intros h i Hi. apply (Hl h i). apply in_or_app. auto.
Qed.

(** Work left for the setting thread. *)
Definition weight pm : nat := (3 + length (pm_instr pm))%nat.
Definition left_of s : nat := match ms_pc s with
  | SIdle => S (S (S (list_sum (map weight (ms_meters s)))))
  | SAssigned => S (S (list_sum (map weight (ms_meters s))))
  | SMeters j => S (list_sum (map weight (skipn j (ms_meters s))))
  | SMeter j _ => list_sum (map weight (skipn j (ms_meters s)))
  | SInstr j k => (list_sum (map weight (skipn (S j) (ms_meters s))) + 2
      + (match nth_error (ms_meters s) j with Some pm => length (pm_instr pm) | None => 0 end - k))%nat
  | SDone | SRaised _ _ => O
  end.
Lemma skipn_nth : forall {B} (l : list B) j x, nth_error l j = Some x -> skipn j l = x :: skipn (S j) l.
Proof. induction l as [|y l IH]; intros [|j] x H; try discriminate; cbn in *; [congruence|auto]. Qed.
Lemma weights_upd : forall (l : list (pmeter M T I)) j n f, (forall pm, length (pm_instr (f pm)) = length (pm_instr pm)) ->
  map weight (skipn n (upd_nth j f l)) = map weight (skipn n l).
Proof.
  intros l j n f Hf. rewrite <- !skipn_map. f_equal. revert j.
  induction l as [|x l IH]; intros [|j]; cbn [upd_nth map]; auto; [unfold weight; rewrite Hf; reflexivity|f_equal; auto].
Qed.

Lemma set_advances : forall s, minv s -> names_ok s -> ms_pc s <> SDone -> (forall j k, ms_pc s <> SRaised j k) ->
  (left_of (set_step bad s) < left_of s)%nat /\ (forall j k, ms_pc (set_step bad s) <> SRaised j k).
Proof.
  intros s H Hn H1 H2. unfold set_step. destruct (ms_pc s) as [| |j|j m|j k| |j k] eqn:Epc; [| | | | |congruence|exfalso; eapply H2; reflexivity].
  - unfold left_of. rewrite Epc. cbn [ms_pc ms_meters]. split; [lia|discriminate].
  - unfold left_of. rewrite Epc. cbn [ms_pc ms_meters skipn]. split; [lia|discriminate].
  - destruct (nth_error (ms_meters s) j) eqn:Ej; unfold left_of; rewrite Epc; cbn [ms_pc ms_meters]; split; try lia; discriminate.
  - unfold left_of. rewrite Epc. cbn [ms_pc ms_meters]. split; [|discriminate].
    pose proof (mi_pc _ H) as Hpc. rewrite Epc in Hpc. destruct Hpc as (pm & Ej & _).
    rewrite weights_upd by reflexivity. rewrite nth_upd, Nat.eqb_refl, (skipn_nth _ _ _ Ej), Ej. cbn [option_map pm_instr].
    cbn [map list_sum fold_right].
    assert (weight pm = 3 + length (pm_instr pm))%nat by reflexivity. unfold list_sum. lia.
  - pose proof (mi_pc _ H) as Hpc. rewrite Epc in Hpc.
    destruct (nth_error (ms_meters s) j) as [[a r ins]|] eqn:Ej; [|apply nth_error_None in Ej; lia].
    destruct (mi_meters _ H _ _ Ej) as [Hr _]. rewrite Epc in Hr. cbn in Hr. rewrite Nat.leb_refl in Hr. subst r.
    destruct (nth_error ins k) as [[i r]|] eqn:Ek.
    + assert (Hb : bad i = false) by exact (Hn _ _ _ Ej (nth_error_In _ _ Ek)).
      rewrite Hb. unfold left_of. rewrite Epc. cbn [ms_pc ms_meters].
      split; [|discriminate]. rewrite weights_upd by (intros; cbn [pm_instr]; apply length_upd).
      rewrite nth_upd, Nat.eqb_refl, Ej. cbn [option_map pm_instr]. rewrite length_upd.
      assert (k < length ins)%nat by (apply nth_error_Some; congruence). lia.
    + unfold left_of. rewrite Epc. cbn [ms_pc ms_meters]. split; [lia|discriminate].
Qed.

Lemma other_raised : forall s o j k, o <> MSet -> ms_pc (mstep bad s o) = SRaised j k -> ms_pc s = SRaised j k.
Proof.
  intros s o j k Ho H. destruct o as [m t|m t|h i|h x|]; cbn [mstep] in H; [| | | |congruence].
  - destruct (ms_global s); [exact H|]. unfold proxy_get_meter in H.
    destruct (provider_locked (ms_pc s)); [exact H|]. destruct (ms_set s); exact H.
  - unfold proxy_get_meter in H. destruct (provider_locked (ms_pc s)); [exact H|]. destruct (ms_set s); exact H.
  - unfold create_instr in H. destruct (nth_error (ms_mh s) h) as [[m|j0]|]; [| |exact H];
      destruct (nth_error (ms_masked s) h) as [[ma t]|]; try exact H.
    + destruct (bad i); exact H.
    + destruct (nth_error (ms_meters s) j0) as [pm0|]; [|exact H]. destruct (meter_locked (ms_pc s) j0); [exact H|].
      destruct (pm_real pm0); [destruct (bad i)|]; exact H.
  - unfold measure in H. destruct (nth_error (ms_ih s) h) as [[m i|j0 k0]|]; try exact H.
    destruct (nth_error (ms_meters s) j0) as [pm|]; [|exact H].
    destruct (nth_error (pm_instr pm) k0) as [[a [[m i]|]]|]; exact H.
Qed.
Lemma never_raised : forall l : list (mop M T I X), (forall h i, In (MCreate h i) l -> bad i = false) ->
  forall j k, ms_pc (mrun bad l) <> SRaised j k.
Proof.
  induction l as [|o l IH] using rev_ind; intros Hl j k; [discriminate|].
  rewrite mrun_snoc. intros E.
  assert (Hl' : forall h i, In (MCreate h i) l -> bad i = false) by (intros h i Hi; apply (Hl h i), in_or_app; auto).
  assert (D : o = MSet \/ o <> MSet) by (destruct o; (left; reflexivity) || (right; discriminate)).
  destruct D as [->|D].
  - cbn [mstep] in E. pose proof (IH Hl') as IH'.
    assert (F : ms_pc (mrun bad l) = SDone \/ ms_pc (mrun bad l) <> SDone)
      by (destruct (ms_pc (mrun bad l)); (left; reflexivity) || (right; discriminate)).
    destruct F as [F|F].
    + unfold set_step in E. rewrite F in E. congruence.
    + destruct (set_advances _ (inv_run l) (names_run _ Hl') F IH') as [_ K]. exact (K j k E).
  - apply (IH Hl' j k). exact (other_raised _ _ _ _ D E).
Qed.
Lemma set_finishes : forall l : list (mop M T I X), (forall h i, In (MCreate h i) l -> bad i = false) ->
  exists n, ms_pc (mrun bad (l ++ repeat MSet n)) = SDone.
Proof.
  intros l. remember (left_of (mrun bad l)) as w eqn:Ew. revert l Ew.
  induction w as [w IH] using lt_wf_ind. intros l -> Hl.
  assert (F : ms_pc (mrun bad l) = SDone \/ ms_pc (mrun bad l) <> SDone)
      by (destruct (ms_pc (mrun bad l)); (left; reflexivity) || (right; discriminate)).
  destruct F as [F|F]; [exists O; cbn; rewrite app_nil_r; exact F|].
  destruct (set_advances _ (inv_run l) (names_run _ Hl) F (never_raised l Hl)) as [K _].
  destruct (IH (left_of (mrun bad (l ++ [MSet])))) with (l := l ++ [@MSet M T I X]) as [n Hn].
  - rewrite mrun_snoc. exact K.
  - reflexivity.
  - intros h i Hi. apply in_app_or in Hi as [Hi|[Hi|[]]]; [eauto|discriminate].
  - exists (S n). rewrite <- app_assoc in Hn. exact Hn.
Qed.
End Meters.
