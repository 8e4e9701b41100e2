(** Proofs about the metrics SDK with threads, third part: the history of each stream and what a collection returns. *)
From Verif Require Export Proof_MetricRuns.
From Coq Require Import Lia.
Local Open Scope Z_scope.

Section History.
Context {V T K A D : Type}.
Variable keq : K -> K -> bool.
Hypothesis keq_refl : forall k, keq k k = true.
Hypothesis keq_sym : forall k k', keq k k' = keq k' k.
Hypothesis keq_trans : forall k k' k'', keq k k' = true -> keq k' k'' = true -> keq k k'' = true.
Variable key_of : V -> T -> option K.
Variable new_agg : V -> T -> Z -> A.
Variable aggregate1 : A -> Z -> A.
Variable collect1 : V -> A -> Z -> A * option D.
Variable views_of : nat -> N -> list V.
Variable readers : nat.
Notation world := (@world V T K A).
Notation wf := (wf keq key_of views_of).
Notation hit := (hit (D := D) keq key_of views_of).
Notation recorded := (recorded keq key_of views_of).
Notation stream := (stream keq).
Notation fits := (fits keq key_of).
Notation work := (work keq key_of).
Notation targets := (targets views_of readers).
Notation inv := (inv keq key_of new_agg aggregate1 collect1 views_of readers).

(** ** Streams *)
(** The points that call [b] was given by the aggregation [a]. *)
Definition points_to (b : nat) (log : list (@lev T D)) (a : nat) : list D :=
  flat_map (fun act => match act with ACollect _ (Some d) => [d] | _ => [] end) (by_call b (entries a log)).
(** What call [b] was given by all aggregations of an instrument, by view. *)
Definition report (W : @mem V K A) (log : list (@lev T D)) (b : nat) (x : N * list nat) : N * list (list D) :=
  (fst x, map (fun m => flat_map (points_to b log) (map snd (tM W m))) (snd x)).
Lemma stream_inv (W : world) r i j k a : wf W -> stream (mm W) r i j k = Some a ->
  exists ms m k' attrs now w, In (i, ms) (tS (mm W) r) /\ nth_error ms j = Some m /\ In (k', a) (tM (mm W) m) /\ keq k k' = true
    /\ own W a = Some (m, k', attrs, now) /\ place W m = Some (r, i, j) /\ nth_error (views_of r i) j = Some w /\ vw (mm W) m = Some w /\ key_of w attrs = Some k'.
Proof.
  intros F H. unfold Spec_MetricThreads.stream in H. destruct (find_i i (tS (mm W) r)) as [ms|] eqn:FI; [|discriminate]. destruct (nth_error ms j) as [m|] eqn:NM; [|discriminate].
  apply find_i_in in FI. apply find_k_in in H. destruct H as (k' & I & KE). destruct (f_M _ _ _ _ F _ _ _ I) as (attrs & now & O).
  destruct (f_S _ _ _ _ F _ _ _ FI) as [_ PL]. specialize (PL _ _ NM). destruct (f_P _ _ _ _ F _ _ _ _ PL) as (w & NV & VW).
  destruct (f_O _ _ _ _ F _ _ _ _ _ O) as (w' & VW' & KO). assert (w' = w) by congruence. subst w'. exists ms, m, k', attrs, now, w. auto 12.
Qed.
Lemma stream_intro (W : world) r i j k m k' a attrs now : wf W -> published W a -> own W a = Some (m, k', attrs, now) -> place W m = Some (r, i, j) -> keq k k' = true -> stream (mm W) r i j k = Some a.
Proof.
  intros F (r0 & i0 & ms & m0 & k0 & I1 & I2 & I3) O PL KE. destruct (f_M _ _ _ _ F _ _ _ I3) as (at' & n' & O'). rewrite O in O'. injection O' as <- <- <- <-.
  apply In_nth_error in I2. destruct I2 as [j0 NM]. destruct (f_S _ _ _ _ F _ _ _ I1) as [_ P0]. rewrite (P0 _ _ NM) in PL. injection PL as -> -> ->.
  unfold Spec_MetricThreads.stream. rewrite (in_find_i _ _ _ (f_Sd _ _ _ _ F r) I1), NM, (find_k_cong keq keq_sym keq_trans _ _ _ KE). apply in_find_k; [exact keq_refl|exact keq_sym|apply (f_Md _ _ _ _ F)|exact I3].
Qed.
Lemma stream_mono h (W W' : world) r i j k a : ext h W W' -> stream (mm W) r i j k = Some a -> stream (mm W') r i j k = Some a.
Proof.
  intros E. unfold Spec_MetricThreads.stream. destruct (find_i i (tS (mm W) r)) as [ms|] eqn:FI; [|discriminate]. destruct (e_S _ _ _ E r) as [l ->]. rewrite (find_i_app _ _ _ _ FI).
  destruct (nth_error ms j) as [m|]; [|discriminate]. destruct (e_M _ _ _ E m) as [l' ->]. apply find_k_app.
Qed.
Definition matches r i j w k (g : @target T) : bool := (Nat.eqb (g_r g) r && N.eqb (g_i g) i && Nat.eqb (g_j g) j && fits w k (g_attrs g))%bool.
Lemma hit_iff (W : world) g a act r i j w k : wf W -> hit W g (a, act) -> nth_error (views_of r i) j = Some w -> (matches r i j w k g = true <-> stream (mm W) r i j k = Some a).
Proof.
  intros F (V1 & PB & m & w0 & k1 & k' & at' & n' & O & PL & NV & KO & KE) NW. cbn in *. unfold matches, Spec_MetricThreads.fits. split; intro H.
  - apply andb_prop in H. destruct H as [H H4]. apply andb_prop in H. destruct H as [H H3]. apply andb_prop in H. destruct H as [H1 H2].
    apply Nat.eqb_eq in H1, H3. apply N.eqb_eq in H2. subst. rewrite NV in NW. injection NW as <-. rewrite KO in H4.
    eapply stream_intro; [exact F|exact PB|exact O|exact PL|]. eapply keq_trans; eassumption.
  - destruct (stream_inv _ _ _ _ _ _ F H) as (ms & m1 & k2 & at1 & n1 & w1 & I1 & NM & I2 & KE2 & O2 & PL2 & NV2 & VW2 & KO2). rewrite O in O2. injection O2 as <- <- <- <-.
    rewrite PL in PL2. injection PL2 as X1 X2 X3. subst r i j. rewrite NV in NW. injection NW as <-. rewrite !Nat.eqb_refl, N.eqb_refl, KO. cbn. eapply keq_trans; [exact KE2|]. rewrite keq_sym. exact KE.
Qed.
(** What a stream got out of what was done *)
Definition of_stream (W : world) (acts : list (nat * @action D)) r i j k : list (@action D) :=
  match stream (mm W) r i j k with Some a => map snd (filter (fun x => Nat.eqb (fst x) a) acts) | None => [] end.
Lemma hits_stream (W : world) r i j w k gs acts : wf W -> nth_error (views_of r i) j = Some w -> Forall2 (hit W) gs acts ->
  of_stream W acts r i j k = map AMeasure (map g_v (filter (matches r i j w k) gs)).
Proof.
  intros F NW H. unfold of_stream. induction H as [|g [a act] gs acts HT H IH]; [destruct (stream _ _ _ _ _); reflexivity|].
  pose proof (hit_iff W g a act r i j w k F HT NW) as HI. destruct HT as (V1 & _). cbn in V1. subst act. cbn [filter fst].
  destruct (stream (mm W) r i j k) as [a0|] eqn:ST.
  - destruct (Nat.eqb_spec a a0) as [->|NA].
    + rewrite (proj2 HI eq_refl). cbn. now rewrite <- IH.
    + destruct (matches r i j w k g); [|exact IH]. exfalso. assert (Some a0 = Some a) by now apply HI. congruence.
  - destruct (matches r i j w k g); [|exact IH]. exfalso. assert (None = Some a) by now apply HI. congruence.
Qed.
(** ** The targets of a call are its work *)
Lemma seq_pick j w k r i attrs v r' i' n : forall s, (s <= j < s + n)%nat ->
  map g_v (filter (matches r i j w k) (map (fun j => Tg r' i' j attrs v) (seq s n))) = if (Nat.eqb r' r && N.eqb i' i && fits w k attrs)%bool then [v] else [].
Proof.
  unfold matches. cbn [g_r g_i g_j g_attrs].
  assert (NONE : forall n s, (j < s)%nat -> filter (fun g : @target T => (Nat.eqb (g_r g) r && N.eqb (g_i g) i && Nat.eqb (g_j g) j && fits w k (g_attrs g))%bool) (map (fun j => Tg r' i' j attrs v) (seq s n)) = []).
  { clear. induction n as [|n IH]; intros s L; [reflexivity|]. cbn. destruct (Nat.eqb_spec s j); [lia|]. rewrite andb_false_r. cbn. apply IH. lia. }
  induction n as [|n IH]; intros s L; [lia|]. cbn. destruct (Nat.eqb_spec s j) as [->|NJ].
  - rewrite andb_true_r. destruct (Nat.eqb r' r && N.eqb i' i && fits w k attrs)%bool; cbn; rewrite NONE by lia; reflexivity.
  - rewrite andb_false_r. cbn. apply IH. lia.
Qed.
Lemma storage_work r i j w k i' attrs v r' : nth_error (views_of r i) j = Some w ->
  map g_v (filter (matches r i j w k) (storage_targets views_of i' attrs v r')) = if (Nat.eqb r' r && N.eqb i' i && fits w k attrs)%bool then [v] else [].
Proof.
  intro NW. unfold storage_targets. assert (LJ : (j < length (views_of r i))%nat) by (apply nth_error_Some; congruence).
  destruct (Nat.eqb_spec r' r) as [->|NR]; [destruct (N.eqb_spec i' i) as [->|NI]|]; cbn [andb].
  - rewrite seq_pick by lia. now rewrite Nat.eqb_refl, N.eqb_refl.
  - generalize 0%nat. induction (length (views_of r i')) as [|n IH]; intro s; [reflexivity|]. cbn. unfold matches at 1. cbn. destruct (N.eqb_spec i' i); [contradiction|]. rewrite andb_false_r. cbn. apply IH.
  - generalize 0%nat. induction (length (views_of r' i')) as [|n IH]; intro s; [reflexivity|]. cbn. unfold matches at 1. cbn. destruct (Nat.eqb_spec r' r); [contradiction|]. cbn. apply IH.
Qed.
Lemma measure_work r i j w k i' attrs v : (r < readers)%nat -> nth_error (views_of r i) j = Some w ->
  map g_v (filter (matches r i j w k) (measure_targets views_of readers i' attrs v)) = if (N.eqb i' i && fits w k attrs)%bool then [v] else [].
Proof.
  intros RL NW. unfold measure_targets.
  assert (G : forall n s, map g_v (filter (matches r i j w k) (flat_map (storage_targets views_of i' attrs v) (seq s n))) = if (Nat.leb s r && Nat.ltb r (s + n) && (N.eqb i' i && fits w k attrs))%bool then [v] else []).
  { induction n as [|n IH]; intro s.
    - cbn [seq flat_map filter map]. destruct (Nat.leb_spec s r), (Nat.ltb_spec r (s + 0)); try lia; reflexivity.
    - cbn [seq flat_map]. rewrite filter_app, map_app, (storage_work _ _ _ _ _ _ _ _ _ NW), IH.
      destruct (Nat.eqb_spec s r) as [->|NS]; cbn [andb].
      + destruct (Nat.leb_spec (S r) r); [lia|]. destruct (Nat.leb_spec r r); [|lia]. destruct (Nat.ltb_spec r (r + S n)); [|lia]. cbn [andb]. now rewrite app_nil_r.
      + destruct (Nat.leb_spec (S s) r), (Nat.leb_spec s r); try lia; cbn [andb app]; [|reflexivity]. replace (S s + n)%nat with (s + S n)%nat by lia. reflexivity. }
  rewrite G. destruct (Nat.leb_spec 0 r); [|lia]. destruct (Nat.ltb_spec r (0 + readers)); [|lia]. reflexivity.
Qed.
Lemma targets_work r i j w k c : (r < readers)%nat -> nth_error (views_of r i) j = Some w -> map g_v (filter (matches r i j w k) (targets c)) = work r i w k c.
Proof.
  intros RL NW. destruct c as [i' attrs v now| |r' ds tmo now]; cbn [Proof_MetricThreads.targets Spec_MetricThreads.work].
  - now apply measure_work.
  - reflexivity.
  - induction ds as [|d ds IH]; [reflexivity|]. cbn [flat_map]. rewrite filter_app, map_app, IH. f_equal. destruct d as [i' attrs v|i' attrs v n'|]; cbn [during_targets]; [now apply storage_work|now apply measure_work|reflexivity].
Qed.

(** ** What a collection takes *)
Lemma NoDup_flat {X B} (R : X -> B -> Prop) (xs : list X) (ls : list (list B)) :
  Forall2 (fun x l => NoDup l /\ forall a, In a l -> R x a) xs ls -> NoDup xs -> (forall x y a, In x xs -> In y xs -> R x a -> R y a -> x = y) ->
  NoDup (concat ls) /\ forall a, In a (concat ls) -> exists x, In x xs /\ R x a.
Proof.
  intros F ND FU. revert ND FU. induction F as [|x l xs ls [NL RL] F IH]; intros ND FU; [split; [constructor|intros a []]|]. inversion ND as [|? ? NI ND']; subst.
  destruct (IH ND') as [I1 I2]; [intros; eapply FU; eauto; now right|]. cbn. split.
  - assert (DJ : forall a, In a l -> ~ In a (concat ls)).
    { intros a IL IC. destruct (I2 _ IC) as (y & IY & RY). apply NI. replace x with y; [exact IY|]. eapply FU; [now right|now left|exact RY|now apply RL]. }
    clear - NL I1 DJ. induction NL as [|a l NI NL IHl]; [exact I1|]. cbn. constructor; [|apply IHl; intros; apply DJ; now right].
    intro I. apply in_app_or in I. destruct I as [I|I]; [contradiction|]. apply (DJ a); [now left|exact I].
  - intros a I. apply in_app_or in I. destruct I as [I|I]; [exists x; split; [now left|now apply RL]|]. destruct (I2 _ I) as (y & IY & RY). exists y. split; [now right|exact RY].
Qed.
Definition pairs (tab : list (N * list nat)) (lss : list (list (list (nat * option D)))) : list (nat * list (nat * option D)) :=
  concat (map (fun x => combine (snd (fst x)) (snd x)) (combine tab lss)).
Definition flat (lss : list (list (list (nat * option D)))) : list (nat * option D) := concat (concat lss).
Lemma combine_fst {X Y} (R : X -> Y -> Prop) l l' : Forall2 R l l' -> map fst (combine l l') = l.
Proof. induction 1; cbn; [reflexivity|]. now f_equal. Qed.
Lemma combine_snd {X Y} (R : X -> Y -> Prop) l l' : Forall2 R l l' -> map snd (combine l l') = l'.
Proof. induction 1; cbn; [reflexivity|]. now f_equal. Qed.
Lemma pairs_fst (Wm W : world) tab lss : Forall2 (taken Wm W) tab lss -> map fst (pairs tab lss) = concat (map snd tab).
Proof. unfold pairs. induction 1 as [|x ls tab lss TK F IH]; [reflexivity|]. cbn. rewrite map_app, IH. f_equal. exact (combine_fst _ _ _ TK). Qed.
Lemma pairs_snd (Wm W : world) tab lss : Forall2 (taken Wm W) tab lss -> map snd (pairs tab lss) = concat lss.
Proof. unfold pairs. induction 1 as [|x ls tab lss TK F IH]; [reflexivity|]. cbn. rewrite map_app, IH. f_equal. exact (combine_snd _ _ _ TK). Qed.
Lemma in_pairs (Wm W : world) tab lss m l : Forall2 (taken Wm W) tab lss -> In (m, l) (pairs tab lss) -> seen Wm W m l.
Proof.
  unfold pairs. induction 1 as [|x ls tab lss TK F IH]; [intros []|]. cbn. intro I. apply in_app_or in I. destruct I as [I|I]; [|now apply IH]. clear - TK I. unfold taken in TK.
  induction TK; [destruct I|]. destruct I as [[= -> ->]|I]; [assumption|now apply IHTK].
Qed.
Lemma tab_matches (W : world) r tab : wf W -> prefix tab (tS (mm W) r) -> NoDup (concat (map snd tab)).
Proof.
  intros F [rest TS].
  assert (ND : NoDup tab). { pose proof (f_Sd _ _ _ _ F r) as H. rewrite TS, map_app in H. clear - H. induction tab as [|x tab IH]; [constructor|]. cbn in H. inversion H as [|? ? NI ND]; subst. constructor; [|now apply IH]. intro I. apply NI. apply in_or_app. left. now apply in_map. }
  refine (proj1 (NoDup_flat (fun x m => exists j, place W m = Some (r, fst x, j)) tab (map snd tab) _ ND _)).
  - assert (H : forall x, In x tab -> In x (tS (mm W) r)) by (intros x I; rewrite TS; apply in_or_app; now left).
    clear TS ND. induction tab as [|[i ms] tab IH]; cbn; constructor; [|apply IH; intros; apply H; now right].
    destruct (f_S _ _ _ _ F r i ms (H _ (or_introl eq_refl))) as [_ PL]. cbn. split; [|intros m I; apply In_nth_error in I; destruct I as [j N]; exists j; now apply PL].
    apply NoDup_nth_error. intros a b L E. destruct (nth_error ms a) as [m|] eqn:NA; [|apply nth_error_None in NA; lia]. symmetry in E. pose proof (PL _ _ NA) as P1. pose proof (PL _ _ E) as P2. congruence.
  - intros x y m IX IY [j1 P1] [j2 P2]. rewrite P1 in P2. injection P2 as EF _.
    assert (SUB : forall z, In z tab -> In z (tS (mm W) r)) by (intros z I; rewrite TS; apply in_or_app; now left).
    pose proof (f_Sd _ _ _ _ F r) as H. pose proof (in_find_i (fst x) _ (snd x) H) as A1. pose proof (in_find_i (fst y) _ (snd y) H) as A2.
    rewrite <- !surjective_pairing in A1, A2. specialize (A1 (SUB _ IX)). specialize (A2 (SUB _ IY)). rewrite EF in A1. rewrite A1 in A2. injection A2 as ES. rewrite (surjective_pairing x), (surjective_pairing y). congruence.
Qed.
Lemma table_nodup (W : world) m : wf W -> NoDup (map snd (tM (mm W) m)).
Proof.
  intro F. pose proof (f_Md _ _ _ _ F m) as AP. pose proof (f_M _ _ _ _ F m) as OW. revert OW. unfold apart in AP. induction AP as [|[k a] t FA AP IH]; intro OW; [constructor|]. cbn. constructor; [|apply IH; intros; apply OW; now right].
  intro I. apply in_map_iff in I. destruct I as ([k' a'] & EQ & I). cbn in EQ. subst a'. rewrite Forall_forall in FA. specialize (FA _ I). cbn in FA.
  destruct (OW k a (or_introl eq_refl)) as (? & ? & O1). destruct (OW k' a (or_intror I)) as (? & ? & O2). rewrite O1 in O2. injection O2 as <- _ _. rewrite keq_refl in FA. discriminate.
Qed.
Lemma table_own (W : world) m m' k k' a : wf W -> In (k, a) (tM (mm W) m) -> In (k', a) (tM (mm W) m') -> m = m'.
Proof. intros F I1 I2. destruct (f_M _ _ _ _ F _ _ _ I1) as (? & ? & O1). destruct (f_M _ _ _ _ F _ _ _ I2) as (? & ? & O2). congruence. Qed.
Lemma seen_in (Wm W : world) m (l : list (nat * option D)) a : seen Wm W m l -> In a (map fst l) -> exists k, In (k, a) (tM (mm W) m).
Proof. intros (tab & _ & P & ML) I. rewrite ML in I. apply in_map_iff in I. destruct I as ([k a'] & EQ & I). cbn in EQ. subst a'. exists k. eapply prefix_in; eassumption. Qed.
Lemma NoDup_prefix {B} (a b : list B) : prefix a b -> NoDup b -> NoDup a.
Proof. intros [l ->]. induction a as [|x a IH]; cbn; intro H; [constructor|]. inversion H as [|? ? NI ND]; subst. constructor; [intro I; apply NI; apply in_or_app; now left|now apply IH]. Qed.
Lemma prefix_map {B C} (f : B -> C) a b : prefix a b -> prefix (map f a) (map f b).
Proof. intros [l ->]. rewrite map_app. eexists. reflexivity. Qed.
Lemma flat_nodup (Wm W : world) r tab (lss : list (list (list (nat * option D)))) : wf W -> prefix tab (tS (mm W) r) -> Forall2 (taken Wm W) tab lss -> NoDup (map fst (flat lss)).
Proof.
  intros F P FT. unfold flat. rewrite <- (pairs_snd _ _ _ _ FT), concat_map, map_map.
  assert (NP : NoDup (map fst (pairs tab lss))) by (rewrite (pairs_fst _ _ _ _ FT); eapply tab_matches; eassumption).
  refine (proj1 (NoDup_flat (fun m a => exists k, In (k, a) (tM (mm W) m)) (map fst (pairs tab lss)) _ _ NP _)).
  - assert (H : forall m l, In (m, l) (pairs tab lss) -> seen Wm W m l) by (intros m l; now apply in_pairs). clear NP. induction (pairs tab lss) as [|[m l] ps IH]; cbn; constructor; [|apply IH; intros; apply H; now right].
    pose proof (H m l (or_introl eq_refl)) as SE. split; [|intros a I; eapply seen_in; eassumption]. destruct SE as (tb & _ & P2 & ML). rewrite ML. eapply NoDup_prefix; [apply prefix_map; exact P2|]. now apply table_nodup.
  - intros x y a _ _ [k1 I1] [k2 I2]. eapply table_own; eassumption.
Qed.
Lemma in_flat (lss : list (list (list (nat * option D)))) a : In a (map fst (flat lss)) <-> exists l, In l (concat lss) /\ In a (map fst l).
Proof.
  unfold flat. rewrite concat_map. split; intro H.
  - apply in_concat in H. destruct H as (l & I & J). apply in_map_iff in I. destruct I as (l0 & <- & I). eauto.
  - destruct H as (l & I & J). apply in_concat. exists (map fst l). split; [now apply in_map|exact J].
Qed.
Lemma flat_reader (Wm W : world) r tab (lss : list (list (list (nat * option D)))) a : wf W -> prefix tab (tS (mm W) r) -> Forall2 (taken Wm W) tab lss -> In a (map fst (flat lss)) ->
  exists m k attrs now i j, own W a = Some (m, k, attrs, now) /\ place W m = Some (r, i, j).
Proof.
  intros F P FT I. apply in_flat in I. destruct I as (l & IL & IA). rewrite <- (pairs_snd _ _ _ _ FT) in IL. apply in_map_iff in IL. destruct IL as ([m l'] & EQ & IP). cbn in EQ. subst l'.
  destruct (seen_in _ _ _ _ _ (in_pairs _ _ _ _ _ _ FT IP) IA) as [k IK]. destruct (f_M _ _ _ _ F _ _ _ IK) as (attrs & now & O).
  assert (IM : In m (concat (map snd tab))) by (rewrite <- (pairs_fst _ _ _ _ FT); apply (in_map fst) in IP; exact IP). apply in_concat in IM. destruct IM as (ms & IM & IMS). apply in_map_iff in IM. destruct IM as ([i ms'] & EQ & IT). cbn in EQ. subst ms'.
  apply In_nth_error in IMS. destruct IMS as [j NM]. destruct (f_S _ _ _ _ F r i ms (prefix_in _ _ _ P IT)) as [_ PL]. exists m, k, attrs, now, i, j. split; [exact O|now apply PL].
Qed.
Lemma pub_flat (Wm W : world) r tab (lss : list (list (list (nat * option D)))) a m k attrs now i j : wf W -> ext [] Wm W -> prefix (tS (mm Wm) r) tab -> Forall2 (taken Wm W) tab lss ->
  published Wm a -> own W a = Some (m, k, attrs, now) -> place W m = Some (r, i, j) -> In a (map fst (flat lss)).
Proof.
  intros F E P FT (r0 & i0 & ms0 & m0 & k0 & I1 & I2 & I3) O PL.
  pose proof (prefix_in _ _ _ (e_M _ _ _ E m0) I3) as I3'. destruct (f_M _ _ _ _ F _ _ _ I3') as (? & ? & O'). rewrite O in O'. injection O' as <- <- <- <-.
  pose proof (prefix_in _ _ _ (e_S _ _ _ E r0) I1) as I1'. apply In_nth_error in I2. destruct I2 as [j0 NM]. destruct (f_S _ _ _ _ F _ _ _ I1') as [_ PP]. rewrite (PP _ _ NM) in PL. injection PL as -> -> ->.
  pose proof (prefix_in _ _ _ P I1) as IT. apply in_flat. clear - FT IT NM I3 views_of. unfold taken in FT. induction FT as [|x ls tab lss TK FT IH]; [destruct IT|]. destruct IT as [->|IT].
  - cbn in TK. clear IH FT. revert j NM. induction TK as [|m1 l ms ls SE TK IH]; intros [|j] NM; try discriminate.
    + injection NM as ->. exists l. split; [cbn; now left|]. destruct SE as (tb & P1 & _ & ML). rewrite ML. apply (in_map snd) in I3. cbn in I3. eapply prefix_in; [apply prefix_map; exact P1|exact I3].
    + destruct (IH _ NM) as (l' & IL & IA). exists l'. split; [|exact IA]. cbn in IL |- *. right. exact IL.
  - destruct (IH IT) as (l & IL & IA). exists l. split; [cbn; apply in_or_app; now right|exact IA].
Qed.
Lemma taken_acts_flat now (lss : list (list (list (nat * option D)))) : taken_acts now lss = colls now (flat lss).
Proof.
  unfold taken_acts, flat, colls. induction lss as [|ls lss IH]; [reflexivity|]. cbn. rewrite concat_app, map_app, IH. f_equal. clear. induction ls as [|l ls IH]; [reflexivity|]. cbn. now rewrite map_app, IH.
Qed.
Lemma pick_one now (fl : list (nat * option D)) a : NoDup (map fst fl) ->
  (~ In a (map fst fl) /\ filter (fun x => Nat.eqb (fst x) a) (colls now fl) = []) \/ exists p, In (a, p) fl /\ filter (fun x => Nat.eqb (fst x) a) (colls now fl) = [(a, ACollect now p)].
Proof.
  induction fl as [|[b p] fl IH]; intro ND; [left; split; [intros []|reflexivity]|]. cbn in ND. inversion ND as [|? ? NI ND']; subst. cbn. destruct (Nat.eqb_spec b a) as [->|NB].
  - right. exists p. split; [now left|]. destruct (IH ND') as [[_ E]|(p' & I & _)]; [unfold colls in E; rewrite E; reflexivity|]. exfalso. apply NI. apply (in_map fst) in I. exact I.
  - destruct (IH ND') as [[N E]|(p' & I & E)]; [left; split; [intros [?|?]; [contradiction|exact (N H)]|exact E]|right; exists p'; split; [now right|exact E]].
Qed.
Lemma of_stream_app (W : world) l1 l2 r i j k : of_stream W (l1 ++ l2) r i j k = of_stream W l1 r i j k ++ of_stream W l2 r i j k.
Proof. unfold of_stream. destruct (stream (mm W) r i j k); [now rewrite filter_app, map_app|reflexivity]. Qed.
Lemma of_stream_mono h (W W' : world) r i j w k gs acts : wf W -> wf W' -> ext h W W' -> nth_error (views_of r i) j = Some w -> Forall2 (hit W) gs acts -> of_stream W acts r i j k = of_stream W' acts r i j k.
Proof. intros F F' E NW H. rewrite (hits_stream _ _ _ _ _ _ _ _ F NW H). symmetry. apply hits_stream; [exact F'|exact NW|]. eapply hits_ext; eassumption. Qed.

(** ** Calls that have ended *)
Lemma history_did y W b r i j k : inv y W -> by_call b (history keq (y_mem y) (y_log y) r i j k) = of_stream W (did b (y_log y)) r i j k.
Proof. intro IV. unfold history, of_stream. rewrite (i_mm _ _ _ _ _ _ _ _ _ IV). destruct (stream (y_mem y) r i j k) as [a|]; [apply by_call_did|reflexivity]. Qed.
Lemma ended_completes y W b e c res r i j w k : inv y W -> (r < readers)%nat -> nth_error (views_of r i) j = Some w -> ended (y_log y) b e c res ->
  completes r b (history keq (y_mem y) (y_log y) r i j k) (work r i w k c) c res.
Proof.
  intros IV RL NW EN. destruct (i_end _ _ _ _ _ _ _ _ _ IV _ _ _ _ EN) as (W0 & W1 & DN & E0 & E1 & BF).
  unfold completes. rewrite (history_did _ _ _ _ _ _ _ IV). pose proof (i_wf _ _ _ _ _ _ _ _ _ IV) as F.
  destruct DN as (acts1 & acts2 & res1 & Wm & DE & RC & FM & E0m & EM1 & CS). pose proof (ext_trans _ _ _ _ EM1 E1) as EM.
  assert (PART : res1 = RDone -> of_stream W acts1 r i j k = map AMeasure (work r i w k c)).
  { intro H. destruct RC as [[_ HT]|(HH & _)]; [|congruence]. rewrite (hits_stream W r i j w k (targets c) acts1 F NW); [now rewrite targets_work|]. eapply hits_ext; eassumption. }
  assert (FAIL : res1 = RTypeError -> exists l, map AMeasure (work r i w k c) = of_stream W acts1 r i j k ++ l).
  { intro H. destruct RC as [[HH _]|(_ & g1 & g & g2 & TG & HT & _)]; [congruence|]. rewrite (hits_stream W r i j w k g1 acts1 F NW) by (eapply hits_ext; eassumption).
    rewrite <- (targets_work r i j w k c RL NW), TG, filter_app, !map_app. eexists. reflexivity. }
  assert (R1 : res1 = RDone \/ res1 = RTypeError) by (destruct RC as [[-> _]|[-> _]]; auto).
  assert (SIMPLE : acts2 = [] -> res = res1 -> match res with RDone | RTimeout => of_stream W (did b (y_log y)) r i j k = map AMeasure (work r i w k c) | RTypeError => exists l, map AMeasure (work r i w k c) = of_stream W (did b (y_log y)) r i j k ++ l | RMetrics _ => False | _ => False end).
  { intros -> ->. rewrite DE, app_nil_r. destruct R1 as [-> | ->]; auto. }
  destruct c as [i' attrs v now| |r' ds tmo now].
  - destruct CS as [C1 C2]. specialize (SIMPLE C1 C2). subst res. destruct R1 as [-> | ->]; exact SIMPLE.
  - destruct CS as [C1 C2]. specialize (SIMPLE C1 C2). subst res. destruct R1 as [-> | ->]; exact SIMPLE.
  - destruct CS as [(N & C1 & C2)|[(R0 & C1 & C2 & C3)|(R0 & C1 & tab & lss & C2 & C3 & P1 & P2 & FT)]].
    + specialize (SIMPLE C1 C2). subst res. destruct R1 as [-> | ->]; exact SIMPLE.
    + subst res acts2. rewrite DE, app_nil_r. now apply PART.
    + subst res. exists r', ds, tmo, now. split; [reflexivity|]. rewrite DE, of_stream_app, (PART R0), C2, taken_acts_flat.
      assert (P2' : prefix tab (tS (mm W) r')) by (eapply prefix_trans; [exact P2|apply (e_S _ _ _ E1)]).
      assert (FT' : Forall2 (taken Wm W) tab lss) by (clear - FT E1; induction FT; constructor; [eapply seens_ext; [apply (ext_refl [])|exact E1|eassumption]|assumption]).
      pose proof (flat_nodup _ _ _ _ _ F P2' FT') as NF.
      unfold of_stream at 1 2 3. unfold history. destruct (stream (mm W) r i j k) as [a|] eqn:ST.
      * destruct (stream_inv _ _ _ _ _ _ F ST) as (ms & m & k' & attrs & nw & w1 & I1 & NM & I2 & KE & O & PL & NV & VW & KO).
        destruct (pick_one now (flat lss) a NF) as [[NI ->]|(p & IP & ->)].
        -- rewrite app_nil_r. destruct (Nat.eqb_spec r' r) as [->|NR]; [|reflexivity]. right.
           assert (WK : work r i w k (Collect r ds tmo now) = []).
           { destruct (work r i w k (Collect r ds tmo now)) as [|v0 vs] eqn:EW; [reflexivity|]. exfalso. apply NI.
             assert (ST1 : of_stream Wm acts1 r i j k <> []).
             { destruct RC as [[_ HT]|(HH & _)]; [|congruence]. rewrite (hits_stream Wm r i j w k _ acts1 FM NW HT), (targets_work r i j w k _ RL NW), EW. discriminate. }
             unfold of_stream in ST1. destruct (stream (mm Wm) r i j k) as [a1|] eqn:SM; [|now destruct ST1].
             assert (a1 = a) by (pose proof (stream_mono _ _ _ _ _ _ _ _ EM SM); congruence). subst a1.
             destruct (stream_inv _ _ _ _ _ _ FM SM) as (ms' & m' & k2 & at2 & n2 & w2 & J1 & NM' & J2 & _).
             eapply pub_flat; [exact F|exact EM|exact P1|exact FT'| |exact O|exact PL]. exists r, i, ms', m', k2. split; [exact J1|]. split; [eapply nth_error_In; exact NM'|exact J2]. }
           rewrite WK. split; [reflexivity|]. split; [reflexivity|]. rewrite <- (i_mm _ _ _ _ _ _ _ _ _ IV), ST. intros x IX. destruct (Nat.lt_ge_cases (e_pos x) b) as [L|L]; [|exact L]. exfalso. apply NI.
           assert (PB : published W0 a) by (apply BF; intro H; pose proof (entries_firstn _ _ _ _ IX L) as IF; rewrite H in IF; destruct IF).
           eapply pub_flat; [exact F|exact EM|exact P1|exact FT'|eapply published_ext; [exact E0m|exact PB]|exact O|exact PL].
        -- assert (IA : In a (map fst (flat lss))) by (apply (in_map fst) in IP; exact IP).
           destruct (flat_reader _ _ _ _ _ _ F P2' FT' IA) as (m2 & k2 & at2 & n2 & i2 & j2 & O2 & PL2). rewrite O in O2. injection O2 as <- <- <- <-. rewrite PL in PL2. injection PL2 as <- <- <-.
           rewrite Nat.eqb_refl. left. exists p. reflexivity.
      * rewrite app_nil_r. destruct (Nat.eqb r' r); [|reflexivity]. right.
        assert (WK : work r i w k (Collect r' ds tmo now) = []). { specialize (PART R0). unfold of_stream in PART. rewrite ST in PART. destruct (work r i w k _); [reflexivity|discriminate]. }
        rewrite WK. split; [reflexivity|]. split; [reflexivity|]. rewrite <- (i_mm _ _ _ _ _ _ _ _ _ IV), ST. intros x [].
Qed.

(** ** What a collection returns *)
Lemma points_none (l : list (nat * @action D)) (a : nat) : (forall x, In x l -> exists v, snd x = AMeasure v) ->
  flat_map (fun act : @action D => match act with ACollect _ (Some d) => [d] | _ => [] end) (map snd (filter (fun x => Nat.eqb (fst x) a) l)) = [].
Proof.
  induction l as [|x l IH]; intro H; [reflexivity|]. cbn. destruct (H x (or_introl eq_refl)) as [v E]. destruct (Nat.eqb (fst x) a); cbn; rewrite ?E; cbn; apply IH; intros; apply H; now right.
Qed.
Lemma hits_measure (W : world) gs acts x : Forall2 (hit W) gs acts -> In x acts -> exists v, snd x = AMeasure v.
Proof. induction 1 as [|g y gs acts (V1 & _) H IH]; intros []; [subst; eauto|auto]. Qed.
Lemma firstn_prefix {B} (a b : list B) : prefix a b -> a = firstn (length a) b.
Proof. intros [l ->]. rewrite firstn_app, Nat.sub_diag, firstn_all. cbn. now rewrite app_nil_r. Qed.
Lemma sum_points now (fl : list (nat * option D)) tb rest l : NoDup (map fst fl) -> (forall x, In x l -> In x fl) -> map fst l = tb -> (forall a, In a rest -> ~ In a (map fst fl)) ->
  flat_map (fun a => flat_map (fun act : @action D => match act with ACollect _ (Some d) => [d] | _ => [] end) (map snd (filter (fun x => Nat.eqb (fst x) a) (colls now fl)))) (tb ++ rest) = points l.
Proof.
  intros ND SUB <- NR. rewrite flat_map_app.
  replace (flat_map _ rest) with (@nil D).
  2: { induction rest as [|a rest IH]; [reflexivity|]. cbn. rewrite <- IH by (intros; apply NR; now right). destruct (pick_one now fl a ND) as [[_ ->]|(p & I & _)]; [reflexivity|]. exfalso. apply (NR a (or_introl eq_refl)). apply (in_map fst) in I. exact I. }
  rewrite app_nil_r. induction l as [|[a p] l IH]; [reflexivity|]. cbn. rewrite IH by (intros; apply SUB; now right). f_equal.
  destruct (pick_one now fl a ND) as [[N _]|(p' & I & ->)]; [exfalso; apply N; apply (in_map fst fl (a, p)); apply SUB; now left|].
  assert (p' = p). { pose proof (SUB _ (or_introl eq_refl)) as J. clear - ND I J. induction fl as [|x fl IH]; [destruct I|]. cbn in ND. inversion ND as [|? ? NI ND']; subst. destruct I as [->|I], J as [E|J]; [congruence| | |auto].
    - exfalso. apply NI. apply (in_map fst) in J. exact J.
    - exfalso. apply NI. subst x. apply (in_map fst) in I. exact I. }
  subst p'. cbn. destruct p; reflexivity.
Qed.
Lemma ended_report y W b e r ds tmo now out : inv y W -> ended (y_log y) b e (Collect r ds tmo now) (RMetrics out) ->
  exists n, out = map (report (y_mem y) (y_log y) b) (firstn n (tS (y_mem y) r))
  /\ forall a, points_to b (y_log y) a <> [] -> exists i ms m k, In (i, ms) (firstn n (tS (y_mem y) r)) /\ In m ms /\ In (k, a) (tM (y_mem y) m).
Proof.
  intros IV EN. destruct (i_end _ _ _ _ _ _ _ _ _ IV _ _ _ _ EN) as (W0 & W1 & DN & E0 & E1 & BF). pose proof (i_wf _ _ _ _ _ _ _ _ _ IV) as F.
  destruct DN as (acts1 & acts2 & res1 & Wm & DE & RC & FM & E0m & EM1 & CS).
  destruct CS as [(N & C1 & C2)|[(R0 & C1 & C2 & C3)|(R0 & C1 & tab & lss & C2 & C3 & P1 & P2 & FT)]]; [|discriminate|].
  { subst res1. destruct RC as [[H _]|[H _]]; discriminate. }
  injection C3 as ->. destruct RC as [[_ HT]|(HH & _)]; [|congruence].
  assert (P2' : prefix tab (tS (mm W) r)) by (eapply prefix_trans; [exact P2|apply (e_S _ _ _ E1)]).
  assert (FT' : Forall2 (taken Wm W) tab lss) by (clear - FT E1; induction FT; constructor; [eapply seens_ext; [apply (ext_refl [])|exact E1|eassumption]|assumption]).
  pose proof (flat_nodup _ _ _ _ _ F P2' FT') as NF. exists (length tab). rewrite <- (i_mm _ _ _ _ _ _ _ _ _ IV), <- (firstn_prefix _ _ P2').
  assert (PT : forall a, points_to b (y_log y) a = flat_map (fun act : @action D => match act with ACollect _ (Some d) => [d] | _ => [] end) (map snd (filter (fun x => Nat.eqb (fst x) a) (colls now (flat lss))))).
  { intro a. unfold points_to. rewrite by_call_did, DE, C2, taken_acts_flat, filter_app, map_app, flat_map_app, points_none; [reflexivity|]. intros x IX. eapply hits_measure; eassumption. }
  assert (NP : NoDup (map fst (pairs tab lss))) by (rewrite (pairs_fst _ _ _ _ FT'); eapply tab_matches; eassumption).
  assert (ONE : forall m l, In (m, l) (pairs tab lss) -> flat_map (points_to b (y_log y)) (map snd (tM (mm W) m)) = points l).
  { intros m l IP. destruct (in_pairs _ _ _ _ _ _ FT' IP) as (tb & Q1 & [rest Q2] & ML). rewrite Q2, map_app, (flat_map_ext _ _ PT).
    assert (IL : In l (concat lss)) by (rewrite <- (pairs_snd _ _ _ _ FT'); apply (in_map snd) in IP; exact IP).
    apply sum_points; [exact NF|intros x IX; unfold flat; apply in_concat; exists l; split; assumption|exact ML|].
    intros a IA IF. apply in_flat in IF. destruct IF as (l2 & IL2 & IA2). rewrite <- (pairs_snd _ _ _ _ FT') in IL2. apply in_map_iff in IL2. destruct IL2 as ([m2 l2'] & EQ & IP2). cbn in EQ. subst l2'.
    destruct (seen_in _ _ _ _ _ (in_pairs _ _ _ _ _ _ FT' IP2) IA2) as [k2 IK2]. apply in_map_iff in IA. destruct IA as ([k a'] & EQ & IA). cbn in EQ. subst a'.
    assert (IK : In (k, a) (tM (mm W) m)) by (rewrite Q2; apply in_or_app; now right). pose proof (table_own _ _ _ _ _ _ F IK IK2). subst m2.
    assert (l2 = l). { clear - NP IP IP2. induction (pairs tab lss) as [|x ps IH]; [destruct IP|]. cbn in NP. inversion NP as [|? ? NI ND]; subst. destruct IP as [->|IP], IP2 as [E|IP2]; [congruence| | |auto].
      - exfalso. apply NI. apply (in_map fst) in IP2. exact IP2.
      - exfalso. apply NI. subst x. apply (in_map fst) in IP. exact IP. }
    subst l2. rewrite ML in IA2. pose proof (table_nodup _ m F) as NT. rewrite Q2, map_app in NT. apply (in_map snd) in IA. cbn in IA. clear - NT IA IA2.
    induction (map snd tb) as [|x t IH]; [destruct IA2|]. cbn in NT. inversion NT as [|? ? NI ND]; subst. destruct IA2 as [->|IA2]; [apply NI, in_or_app; now right|auto]. }
  split; cycle 1.
  { intros a NE. rewrite PT in NE. assert (IF : In a (map fst (flat lss))). { destruct (pick_one now (flat lss) a NF) as [[_ E]|(p & I & _)]; [rewrite E in NE; now contradiction NE|]. apply (in_map fst) in I. exact I. }
    apply in_flat in IF. destruct IF as (l & IL & IA). rewrite <- (pairs_snd _ _ _ _ FT') in IL. apply in_map_iff in IL. destruct IL as ([m l'] & EQ & IP). cbn in EQ. subst l'.
    destruct (seen_in _ _ _ _ _ (in_pairs _ _ _ _ _ _ FT' IP) IA) as [k IK].
    assert (IM : In m (concat (map snd tab))) by (rewrite <- (pairs_fst _ _ _ _ FT'); apply (in_map fst) in IP; exact IP). apply in_concat in IM. destruct IM as (ms & IM & IMS). apply in_map_iff in IM. destruct IM as ([i ms'] & EQ & IT). cbn in EQ. subst ms'.
    exists i, ms, m, k. auto. }
  clear - FT' ONE. unfold taken_out. revert ONE. induction FT' as [|x ls tab lss TK FT IH]; intro ONE; [reflexivity|]. cbn [map combine]. f_equal.
  - unfold report. f_equal. unfold taken in TK.
    assert (H : forall m l, In (m, l) (combine (snd x) ls) -> flat_map (points_to b (y_log y)) (map snd (tM (mm W) m)) = points l) by (intros m l I; apply ONE; unfold pairs; cbn; apply in_or_app; now left).
    clear - TK H. revert H. induction TK as [|m l ms ls SE TK IH]; intro H; [reflexivity|]. cbn. rewrite (H m l (or_introl eq_refl)). f_equal. apply IH. intros; apply H; now right.
  - apply IH. intros m l I. apply ONE. unfold pairs in *. cbn. apply in_or_app. now right.
Qed.
Lemma firstn_in {B} n (l : list B) x : In x (firstn n l) -> In x l.
Proof. intro I. rewrite <- (firstn_skipn n l). apply in_or_app. now left. Qed.
Lemma NoDup_firstn {B} n (l : list B) : NoDup l -> NoDup (firstn n l).
Proof. apply NoDup_prefix. exists (skipn n l). symmetry. apply firstn_skipn. Qed.
Lemma ended_reports y W b e r ds tmo now out : inv y W -> ended (y_log y) b e (Collect r ds tmo now) (RMetrics out) ->
  NoDup (map fst out)
  /\ (forall i pss, In (i, pss) out -> length pss = length (views_of r i) /\ forall j ps, nth_error pss j = Some ps -> reports keq (y_mem y) (y_log y) r b i j ps)
  /\ forall i j k, points_of (by_call b (history keq (y_mem y) (y_log y) r i j k)) <> [] -> In i (map fst out).
Proof.
  intros IV EN. destruct (ended_report y W b e r ds tmo now out IV EN) as (n & -> & AL). pose proof (i_wf _ _ _ _ _ _ _ _ _ IV) as F. rewrite <- (i_mm _ _ _ _ _ _ _ _ _ IV) in *.
  set (tab := tS (mm W) r) in *. assert (MF : map fst (map (report (mm W) (y_log y) b) (firstn n tab)) = map fst (firstn n tab)) by (rewrite map_map; reflexivity).
  assert (HS : forall i ms j m k a, In (i, ms) tab -> nth_error ms j = Some m -> In (k, a) (tM (mm W) m) -> stream (mm W) r i j k = Some a).
  { intros i ms j m k a I1 I2 I3. unfold Spec_MetricThreads.stream. rewrite (in_find_i _ _ _ (f_Sd _ _ _ _ F r) I1), I2. apply in_find_k; [exact keq_refl|exact keq_sym|apply (f_Md _ _ _ _ F)|exact I3]. }
  split; [|split].
  - rewrite MF, <- firstn_map. apply NoDup_firstn, (f_Sd _ _ _ _ F r).
  - intros i pss I. apply in_map_iff in I. destruct I as ([i' ms] & EQ & I). unfold report in EQ. cbn [fst snd] in EQ. injection EQ as -> <-. apply firstn_in in I. destruct (f_S _ _ _ _ F r i ms I) as [LN PL].
    split; [now rewrite map_length|]. intros j ps NP. rewrite nth_error_map in NP. destruct (nth_error ms j) as [m|] eqn:NM; [|discriminate]. injection NP as <-. exists (map fst (tM (mm W) m)). split; [|split].
    + pose proof (f_Md _ _ _ _ F m) as AP. unfold apart in AP. induction AP as [|x t FA AP IH]; [constructor|]. cbn. constructor; [|exact IH]. clear - FA. induction FA; cbn; constructor; auto.
    + intros k NE. unfold history in NE. destruct (stream (mm W) r i j k) as [a|] eqn:ST; [|now contradiction NE]. unfold Spec_MetricThreads.stream in ST. rewrite (in_find_i _ _ _ (f_Sd _ _ _ _ F r) I), NM in ST.
      apply find_k_in in ST. destruct ST as (k' & IK & KE). exists k'. split; [apply (in_map fst) in IK; exact IK|exact KE].
    + assert (HK : forall k a, In (k, a) (tM (mm W) m) -> stream (mm W) r i j k = Some a) by (intros k a IK; eapply HS; eassumption). clear - HK. induction (tM (mm W) m) as [|[k a] t IH]; [reflexivity|]. cbn [map flat_map fst snd].
      unfold history at 1. rewrite (HK k a (or_introl eq_refl)). f_equal. apply IH. intros; apply HK; now right.
  - intros i j k NE. unfold history in NE. destruct (stream (mm W) r i j k) as [a|] eqn:ST; [|now contradiction NE]. destruct (AL a NE) as (i0 & ms & m & k0 & I1 & I2 & I3).
    destruct (stream_inv _ _ _ _ _ _ F ST) as (ms1 & m1 & k1 & at1 & n1 & w1 & J1 & J2 & J3 & _ & O & PL & _). pose proof (table_own _ _ _ _ _ _ F I3 J3). subst m1.
    destruct (f_S _ _ _ _ F r i0 ms (firstn_in _ _ _ I1)) as [_ P0]. apply In_nth_error in I2. destruct I2 as [j0 NM]. rewrite (P0 _ _ NM) in PL. injection PL as -> _. rewrite MF. apply (in_map fst) in I1. exact I1.
Qed.
(** ** How calls end *)
Notation yrun := (yrun keq key_of new_agg aggregate1 collect1 views_of readers).
Notation tstep := (tstep keq).
Lemma target_uses (c : @call T) g : may_call readers c -> In g (targets c) -> exists now, (g_r g < readers)%nat /\ uses c (g_r g) (g_i g) (g_attrs g) now.
Proof.
  assert (ST : forall i (attrs : T) v r g, In g (storage_targets views_of i attrs v r) -> g_r g = r /\ g_i g = i /\ g_attrs g = attrs).
  { intros i attrs v r g0 I. unfold storage_targets in I. apply in_map_iff in I. destruct I as (j & <- & _). auto. }
  assert (MT : forall i (attrs : T) v g, In g (measure_targets views_of readers i attrs v) -> (g_r g < readers)%nat /\ g_i g = i /\ g_attrs g = attrs).
  { intros i attrs v g0 I. unfold measure_targets in I. apply in_flat_map in I. destruct I as (r & IR & I). apply ST in I. apply in_seq in IR. destruct I as (-> & -> & ->). split; [lia|auto]. }
  intros OK I. destruct c as [i attrs v now| |r ds tmo now]; cbn in I |- *.
  - apply MT in I. destruct I as (L & -> & ->). eauto 6.
  - destruct I.
  - destruct OK as [RL _]. apply in_flat_map in I. destruct I as (d & ID & I). destruct d as [i attrs v|i attrs v n'|]; cbn in I.
    + apply ST in I. destruct I as (-> & -> & ->). exists now. split; [exact RL|]. exists v. left. auto.
    + apply MT in I. destruct I as (L & -> & ->). exists n'. split; [exact L|]. exists v. now right.
    + destruct I.
Qed.
Lemma ended_result y W b e c res : inv y W -> may_call readers c -> ended (y_log y) b e c res ->
  match res with
  | RDone => forall r ds tmo now, c <> Collect r ds tmo now
  | RTypeError => unhashable_in key_of views_of readers c
  | RTimeout => exists r ds now, c = Collect r ds true now
  | RMetrics _ => exists r ds now, c = Collect r ds false now
  | RKeyError | RRuntimeError => False
  end.
Proof.
  intros IV OK EN. destruct (i_end _ _ _ _ _ _ _ _ _ IV _ _ _ _ EN) as (W0 & W1 & DN & _). destruct DN as (acts1 & acts2 & res1 & Wm & DE & RC & FM & E0m & EM1 & CS).
  assert (TE : res1 = RTypeError -> unhashable_in key_of views_of readers c).
  { intros ->. destruct RC as [[H _]|(_ & g1 & g & g2 & TG & _ & w & NV & KO)]; [discriminate|]. destruct (target_uses c g OK) as (now & RL & US); [rewrite TG; apply in_or_app; right; now left|].
    exists (g_r g), (g_i g), (g_attrs g), now, (g_j g), w. auto. }
  assert (R1 : res1 = RDone \/ res1 = RTypeError) by (destruct RC as [[-> _]|[-> _]]; auto).
  destruct c as [i attrs v now| |r ds tmo now].
  - destruct CS as [_ ->]. destruct R1 as [-> | ->]; [discriminate|auto].
  - destruct CS as [_ ->]. destruct R1 as [-> | ->]; [discriminate|auto].
  - destruct CS as [(N & C1 & ->)|[(R0 & -> & C2 & ->)|(R0 & -> & tab & lss & C2 & -> & _)]]; eauto. destruct R1 as [-> | ->]; [contradiction|auto].
Qed.
(** ** Calls that have not ended *)
Lemma cur_ge (log : list (@lev T D)) t n c : nth_error log n = Some (LBegin t c) -> (n <= cur log t)%nat.
Proof.
  revert n. induction log as [|x log IH] using rev_ind; intros n H; [destruct n; discriminate|]. rewrite cur_snoc. apply nth_snoc in H. destruct H as [H|[-> ->]].
  - specialize (IH _ H). assert (LN : (n < length log)%nat) by (apply nth_error_Some; congruence). destruct x; auto. unfold upd. destruct (Nat.eqb t t0); lia.
  - unfold upd. rewrite Nat.eqb_refl. lia.
Qed.
Definition opens (y : @sys V T K A D) : Prop := forall b t c, nth_error (y_log y) b = Some (LBegin t c) ->
  (exists e res, ended (y_log y) b e c res) \/ (cur (y_log y) t = b /\ exists p, y_thr y t = Some (c, p)).
Lemma tstep_log (y y' : @sys V T K A D) t : tstep y t = Some y' -> exists c p, y_thr y t = Some (c, p) /\ (forall u, u <> t -> y_thr y' u = y_thr y u) /\
  (((exists a act, y_log y' = y_log y ++ [LDid t a act]) \/ y_log y' = y_log y) /\ (exists q, y_thr y' t = Some (c, q)) \/ exists res, y_log y' = y_log y ++ [LEnd t c res] /\ y_thr y' t = None).
Proof.
  intro ST. pose proof (tstep_view _ _ _ _ ST) as [OT _]. unfold Model_MetricThreads.tstep in ST. destruct (y_thr y t) as [[c p]|] eqn:TH; [|discriminate]. exists c, p. split; [reflexivity|]. split; [exact OT|]. clear OT.
  assert (S1 : forall x, upd (y_thr y) t x t = x) by (intro x; unfold upd; now rewrite Nat.eqb_refl).
  destruct p; try (injection ST as <-; cbn [y_log y_thr]; rewrite S1; left; split; [right; reflexivity|eauto]).
  - injection ST as <-. right. cbn [y_log y_thr]. rewrite S1. eauto.
  - destruct (y_lock y l); [discriminate|]. injection ST as <-. cbn [y_log y_thr]. rewrite S1. left. split; [now right|eauto].
  - destruct (vw (y_mem y) m); [|discriminate]. injection ST as <-. cbn [y_log y_thr]. rewrite S1. left. split; [now right|eauto].
  - destruct (st (y_mem y) a); [|discriminate]. injection ST as <-. cbn [y_log y_thr]. rewrite S1. left. split; [now right|eauto].
  - injection ST as <-. cbn [y_log y_thr]. rewrite S1. left. split; [left; eauto|eauto].
Qed.
Lemma opens_step (y y' : @sys V T K A D) t : opens y -> tstep y t = Some y' -> opens y'.
Proof.
  intros OP ST b u c H. destruct (tstep_log _ _ _ ST) as (c0 & p0 & TH & OT & [[[(a & act & LG)|LG] (q & TQ)]|(res & LG & TN)]).
  - rewrite LG in H |- *. rewrite cur_snoc. apply nth_snoc in H. destruct H as [H|[_ [=]]]. destruct (OP _ _ _ H) as [(e & rs & EN)|[CU (p & TP)]]; [left; exists e, rs; now apply ended_mono|right].
    split; [exact CU|]. destruct (Nat.eq_dec u t) as [->|NU]; [rewrite TH in TP; injection TP as <- <-; eauto|rewrite OT by exact NU; eauto].
  - rewrite LG in H |- *. destruct (OP _ _ _ H) as [(e & rs & EN)|[CU (p & TP)]]; [left; eauto|right].
    split; [exact CU|]. destruct (Nat.eq_dec u t) as [->|NU]; [rewrite TH in TP; injection TP as <- <-; eauto|rewrite OT by exact NU; eauto].
  - rewrite LG in H |- *. rewrite cur_snoc. apply nth_snoc in H. destruct H as [H|[_ [=]]]. destruct (OP _ _ _ H) as [(e & rs & EN)|[CU (p & TP)]]; [left; exists e, rs; now apply ended_mono|].
    destruct (Nat.eq_dec u t) as [->|NU]; [|right; split; [exact CU|]; rewrite OT by exact NU; eauto]. rewrite TH in TP. injection TP as <- <-. left. exists (length (y_log y)), res.
    assert (LB : (b < length (y_log y))%nat) by (apply nth_error_Some; congruence). split; [exact LB|]. exists t. split; [now apply nth_old|]. split; [now rewrite nth_error_app2, Nat.sub_diag by lia|].
    intros n c' L H'. rewrite nth_error_app1 in H' by lia. apply cur_ge in H'. lia.
Qed.
Lemma opens_begin (y : @sys V T K A D) t c x : opens y -> y_thr y t = None -> opens (Sys (y_mem y) (y_lock y) (upd (y_thr y) t (Some (c, x))) (y_log y ++ [LBegin t c])).
Proof.
  intros OP TN b u c' H. cbn [y_log y_thr] in *. rewrite cur_snoc. apply nth_snoc in H. destruct H as [H|[-> [= -> ->]]].
  - destruct (OP _ _ _ H) as [(e & rs & EN)|[CU (p & TP)]]; [left; exists e, rs; now apply ended_mono|right]. unfold upd. destruct (Nat.eqb_spec u t) as [->|NU]; [congruence|eauto].
  - right. unfold upd. rewrite Nat.eqb_refl. eauto.
Qed.
Lemma opens_run es : forall y, opens y -> opens (yrun es y).
Proof.
  induction es as [|e es IH]; intros y OP; [exact OP|]. cbn. destruct (ystep keq key_of new_agg aggregate1 collect1 views_of readers y e) as [y'|] eqn:E; [|now apply IH]. apply IH. destruct e as [t c|t]; cbn in E.
  - destruct (y_thr y t) eqn:TH; [discriminate|]. injection E as <-. now apply opens_begin.
  - eapply opens_step; eassumption.
Qed.
Lemma log_calls es : forall y, (forall b t c, nth_error (y_log y) b = Some (LBegin t c) -> may_call readers c) -> calls_ok readers es -> forall b t c, nth_error (y_log (yrun es y)) b = Some (LBegin t c) -> may_call readers c.
Proof.
  induction es as [|e es IH]; intros y OK CO; [exact OK|]. cbn. apply IH; [|intros t c I; apply (CO t); now right]. destruct (ystep keq key_of new_agg aggregate1 collect1 views_of readers y e) as [y'|] eqn:E; [|exact OK]. destruct e as [t c|t]; cbn in E.
  - destruct (y_thr y t) eqn:TH; [discriminate|]. injection E as <-. cbn [y_log]. intros b u c' H. apply nth_snoc in H. destruct H as [H|[_ [= -> ->]]]; [eapply OK; exact H|]. apply (CO u). now left.
  - intros b u c H. destruct (tstep_log _ _ _ E) as (c0 & p0 & TH & OT & [[[(a & act & LG)|LG] _]|(res & LG & _)]); rewrite LG in H; [apply nth_snoc in H; destruct H as [H|[_ [=]]]| |apply nth_snoc in H; destruct H as [H|[_ [=]]]]; eapply OK; exact H.
Qed.
Lemma stream_step y W t y' r i j k a : inv y W -> tstep y t = Some y' -> stream (y_mem y) r i j k = Some a -> stream (y_mem y') r i j k = Some a.
Proof.
  intros IV ST. unfold Model_MetricThreads.tstep in ST. destruct (y_thr y t) as [[c p]|] eqn:TH; [|discriminate].
  pose proof (i_thr _ _ _ _ _ _ _ _ _ IV t) as RT. rewrite TH in RT. destruct RT as (held & W0 & ND & HL & G & _). pose proof (i_mm _ _ _ _ _ _ _ _ _ IV) as MM.
  destruct p; try (injection ST as <-; exact (fun H => H)); cbn [Proof_MetricThreads.good] in G; specialize (G W (i_wf _ _ _ _ _ _ _ _ _ IV) (ext_refl _ _)).
  - destruct (y_lock y l); [discriminate|]. injection ST as <-. exact (fun H => H).
  - injection ST as <-. destruct G as (_ & FN & _). rewrite MM in FN. cbn [y_mem]. rewrite put_i_new by exact FN. intro H. rewrite <- MM in H |- *.
    exact (stream_mono [] W (w_setS W r0 i0 ms) r i j k a (ext_setS _ _ _ _ _ (@in_nil _ _)) H).
  - destruct (vw (y_mem y) m); [|discriminate]. injection ST as <-. exact (fun H => H).
  - injection ST as <-. destruct G as (_ & FN & _). rewrite MM in FN. cbn [y_mem]. rewrite (put_k_new keq) by exact FN. intro H. rewrite <- MM in H |- *.
    exact (stream_mono [] W (w_setM W m k0 a0) r i j k a (ext_setM _ _ _ _ _ (@in_nil _ _)) H).
  - destruct (st (y_mem y) a0); [|discriminate]. injection ST as <-. exact (fun H => H).
Qed.
Lemma run_grows es : (forall t c, ~ In (YBegin t c) es) -> forall y W, inv y W -> (exists W', inv (yrun es y) W') /\ (exists l, y_log (yrun es y) = y_log y ++ l)
  /\ forall r i j k a, stream (y_mem y) r i j k = Some a -> stream (y_mem (yrun es y)) r i j k = Some a.
Proof.
  induction es as [|e es IH]; intros NB y W IV; [split; [eauto|]; split; [exists []; now rewrite app_nil_r|auto]|]. cbn. destruct e as [t c|t]; [exfalso; exact (NB t c (or_introl eq_refl))|]. cbn [ystep].
  destruct (tstep y t) as [y'|] eqn:ST; [|apply (IH (fun t' c I => NB t' c (or_intror I)) y W IV)].
  destruct (inv_step keq keq_sym key_of new_agg aggregate1 collect1 views_of readers _ _ _ _ IV ST) as [W' IV']. destruct (IH (fun t' c I => NB t' c (or_intror I)) y' W' IV') as (I1 & (l & I2) & I3). split; [exact I1|]. split.
  - unfold Model_MetricThreads.yrun in I2. rewrite I2. destruct (tstep_log _ _ _ ST) as (c0 & p0 & TH & OT & [[[(a & act & LG)|LG] _]|(res & LG & _)]); rewrite LG; rewrite <- ?app_assoc; eauto.
  - intros r i j k a H. apply I3. exact (stream_step y W t y' r i j k a IV ST H).
Qed.
Lemma call_so_far es b c r i j w k : calls_ok readers es -> (r < readers)%nat -> nth_error (views_of r i) j = Some w ->
  let y := yrun es sys0 in call_at (y_log y) b c -> underway r b (history keq (y_mem y) (y_log y) r i j k) (work r i w k c) c.
Proof.
  intros OK RL NW y (t & CA). destruct (inv_run keq keq_refl keq_sym key_of new_agg aggregate1 collect1 views_of readers es OK sys0 (ex_intro _ world0 (inv0 _ _ _ _ _ _ _))) as [W IV].
  destruct (settles_run keq key_of new_agg aggregate1 collect1 views_of readers y (all_settle keq keq_refl keq_sym key_of new_agg aggregate1 collect1 views_of readers es OK)) as (es' & NB & IDLE).
  destruct (run_grows es' NB y W IV) as ((W' & IV') & (l & LG) & SM). set (y' := yrun es' y) in *.
  assert (OP : opens y') by (apply opens_run, opens_run; intros b0 t0 c0 H; destruct b0; discriminate).
  assert (CA' : nth_error (y_log y') b = Some (LBegin t c)) by (rewrite LG; now apply nth_old).
  destruct (OP _ _ _ CA') as [(e & res & EN)|[_ (p & TP)]]; [|rewrite IDLE in TP; discriminate].
  pose proof (ended_completes y' W' b e c res r i j w k IV' RL NW EN) as CP.
  assert (PRE : exists l, by_call b (history keq (y_mem y') (y_log y') r i j k) = by_call b (history keq (y_mem y) (y_log y) r i j k) ++ l).
  { unfold history. destruct (stream (y_mem y) r i j k) as [a|] eqn:ST; [|eexists; reflexivity]. rewrite (SM _ _ _ _ _ ST), LG. destruct (entries_app a (y_log y) l) as [l2 ->]. unfold by_call. rewrite filter_app, map_app. eauto. }
  destruct PRE as [l2 PRE]. unfold completes in CP. rewrite PRE in CP. unfold underway. destruct res.
  - exists l2, []. split; [now rewrite app_nil_r|now left].
  - destruct CP as [l3 CP]. exists (l2 ++ l3), []. split; [rewrite app_nil_r, app_assoc; now symmetry|now left].
  - exists l2, []. split; [now rewrite app_nil_r|now left].
  - destruct CP.
  - destruct CP.
  - destruct CP as (r' & ds & tmo & now & -> & CP). destruct (Nat.eqb_spec r' r) as [->|NR].
    + destruct CP as [[p CP]|(CP & -> & _)]; [exists l2, [ACollect now p]; split; [exact CP|right; eauto 8]|exists l2, []; split; [exact CP|now left]].
    + exists l2, []. split; [now rewrite app_nil_r|now left].
Qed.
End History.
