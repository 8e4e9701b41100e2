(** Proofs about the metrics SDK with threads, second part: what holds of every schedule. *)
From Verif Require Export Proof_MetricThreads.
From Coq Require Import Lia.
From Coq Require Export Sorted.
Local Open Scope Z_scope.

Section Record.
Context {T D : Type}.
Notation lev := (@lev T D).
Notation entry := (@entry D).
(** Everything that was done, with the aggregation it was done to. *)
Fixpoint full (log : list lev) (n : nat) (cur : nat -> nat) : list (nat * entry) :=
  match log with
  | [] => []
  | LBegin t _ :: l => full l (S n) (upd cur t n)
  | LDid t a act :: l => (a, Entry n (cur t) act) :: full l (S n) cur
  | LEnd _ _ _ :: l => full l (S n) cur
  end.
Definition all (log : list lev) : list (nat * entry) := full log 0 (fun _ => O).
Definition cur (log : list lev) : nat -> nat := began log 0 (fun _ => O).
Definition did (b : nat) (log : list lev) : list (nat * @action D) :=
  map (fun x => (fst x, e_act (snd x))) (filter (fun x => Nat.eqb (e_call (snd x)) b) (all log)).
Lemma scan_full a (log : list lev) : forall n c, scan a log n c = map snd (filter (fun x => Nat.eqb (fst x) a) (full log n c)).
Proof. induction log as [|[t c0|t a' act|t c0 res] log IH]; intros n c; cbn; auto. destruct (Nat.eqb a' a); cbn; now rewrite IH. Qed.
Lemma entries_all a (log : list lev) : entries a log = map snd (filter (fun x => Nat.eqb (fst x) a) (all log)).
Proof. apply scan_full. Qed.
Lemma by_call_did b a (log : list lev) : by_call b (entries a log) = map snd (filter (fun x => Nat.eqb (fst x) a) (did b log)).
Proof.
  unfold by_call, did. rewrite entries_all. induction (all log) as [|[a' [n b' act]] l IH]; [reflexivity|]. cbn.
  destruct (Nat.eqb_spec a' a) as [->|NA]; cbn; destruct (Nat.eqb_spec b' b) as [->|NB]; cbn; rewrite ?Nat.eqb_refl, ?IH; try reflexivity.
  destruct (Nat.eqb_spec a' a); [contradiction|reflexivity].
Qed.
Lemma began_app (l1 l2 : list lev) : forall n c, began (l1 ++ l2) n c = began l2 (n + length l1) (began l1 n c).
Proof. induction l1 as [|[t c0|t a act|t c0 res] l1 IH]; intros n c; cbn; [now rewrite Nat.add_0_r|..]; rewrite IH; f_equal; lia. Qed.
Lemma full_app (l1 l2 : list lev) : forall n c, full (l1 ++ l2) n c = full l1 n c ++ full l2 (n + length l1) (began l1 n c).
Proof. induction l1 as [|[t c0|t a act|t c0 res] l1 IH]; intros n c; cbn; [now rewrite Nat.add_0_r|..]; rewrite IH; replace (n + S (length l1))%nat with (S n + length l1)%nat by lia; reflexivity. Qed.
Lemma cur_snoc  (log : list lev) x : cur (log ++ [x]) = match x with LBegin t _ => upd (cur log) t (length log) | _ => cur log end.
Proof. unfold cur. rewrite began_app. cbn. destruct x; reflexivity. Qed.
Lemma all_snoc  (log : list lev) x : all (log ++ [x]) = all log ++ match x with LDid t a act => [(a, Entry (length log) (cur log t) act)] | _ => [] end.
Proof. unfold all. rewrite full_app. cbn. destruct x; reflexivity. Qed.
Lemma all_app (l1 l2 : list lev) : exists l, all (l1 ++ l2) = all l1 ++ l.
Proof. unfold all. rewrite full_app. eauto. Qed.
Lemma entries_app a (l1 l2 : list lev) : exists l, entries a (l1 ++ l2) = entries a l1 ++ l.
Proof. rewrite !entries_all. destruct (all_app l1 l2) as [l ->]. rewrite filter_app, map_app. eauto. Qed.
Lemma did_snoc b (log : list lev) x : did b (log ++ [x]) = did b log ++ match x with LDid t a act => if Nat.eqb (cur log t) b then [(a, act)] else [] | _ => [] end.
Proof. unfold did. rewrite all_snoc, filter_app, map_app. f_equal. destruct x; try reflexivity. cbn. destruct (Nat.eqb (cur log t) b); reflexivity. Qed.
Lemma entries_snoc a (log : list lev) x : entries a (log ++ [x]) = entries a log ++ match x with LDid t a' act => if Nat.eqb a' a then [Entry (length log) (cur log t) act] else [] | _ => [] end.
Proof. rewrite !entries_all, all_snoc, filter_app, map_app. f_equal. destruct x; try reflexivity. cbn. destruct (Nat.eqb a0 a); reflexivity. Qed.
Lemma full_pos (log : list lev) : forall n c x, In x (full log n c) -> (n <= e_pos (snd x) < n + length log)%nat.
Proof.
  induction log as [|[t c0|t a act|t c0 res] log IH]; intros n c x; cbn; [intros []|..].
  - intro I. apply IH in I. lia.
  - intros [<-|I]; [cbn; lia|]. apply IH in I. lia.
  - intro I. apply IH in I. lia.
Qed.
Lemma entries_pos a (log : list lev) e : In e (entries a log) -> (e_pos e < length log)%nat.
Proof. rewrite entries_all. intro I. apply in_map_iff in I. destruct I as (x & <- & I). apply filter_In in I. destruct I as [I _]. apply full_pos in I. cbn in I. lia. Qed.
Lemma entries_firstn a (log : list lev) b e : In e (entries a log) -> (e_pos e < b)%nat -> In e (entries a (firstn b log)).
Proof.
  intros I L. rewrite <- (firstn_skipn b log) in I. rewrite entries_all in I. apply in_map_iff in I. destruct I as (x & <- & I). apply filter_In in I. destruct I as [I Q].
  unfold all in I. rewrite full_app in I. apply in_app_or in I. destruct I as [I|I].
  - rewrite entries_all. apply in_map. apply filter_In. split; assumption.
  - apply full_pos in I. rewrite firstn_length in I. exfalso. destruct (Nat.lt_ge_cases b (length log)); [lia|]. rewrite skipn_all2 in I by lia. cbn in I. destruct I as [I1 I2]. lia.
Qed.
Lemma entries_sorted a (log : list lev) : StronglySorted lt (map e_pos (entries a log)).
Proof.
  unfold entries. generalize (fun _ : nat => O). generalize O.
  assert (LB : forall (log : list lev) n c e, In e (scan a log n c) -> (n <= e_pos e)%nat).
  { intros l n c e I. rewrite scan_full in I. apply in_map_iff in I. destruct I as (x & <- & I). apply filter_In in I. destruct I as [I _]. apply full_pos in I. lia. }
  induction log as [|[t c0|t a' act|t c0 res] log IH]; intros n c; cbn; [constructor|apply IH| |apply IH].
  destruct (Nat.eqb a' a); [|apply IH]. cbn. constructor; [apply IH|]. apply Forall_forall. intros p I. apply in_map_iff in I. destruct I as (e & <- & I). apply LB in I. lia.
Qed.
Lemma ended_snoc  (log : list lev) x b e c res : ended (log ++ [x]) b e c res ->
  ended log b e c res \/ (e = length log /\ exists t, x = LEnd t c res /\ nth_error log b = Some (LBegin t c) /\ forall n c', (b < n)%nat -> nth_error log n <> Some (LBegin t c')).
Proof.
  intros (L & t & B & E & N).
  assert (LE : (e < length (log ++ [x]))%nat) by (apply nth_error_Some; congruence). rewrite app_length in LE. cbn in LE.
  assert (BB : nth_error log b = Some (LBegin t c)) by (rewrite nth_error_app1 in B by lia; exact B).
  destruct (Nat.lt_ge_cases e (length log)) as [L2|L2].
  - left. split; [exact L|]. exists t. split; [exact BB|]. split; [rewrite nth_error_app1 in E by exact L2; exact E|].
    intros n c' LN. specialize (N n c' LN). rewrite nth_error_app1 in N by lia. exact N.
  - right. assert (e = length log) as -> by lia. split; [reflexivity|]. exists t. rewrite nth_error_app2, Nat.sub_diag in E by lia. cbn in E. injection E as ->.
    split; [reflexivity|]. split; [exact BB|]. intros n c' LN H. assert (LN2 : (n < length log)%nat) by (apply nth_error_Some; congruence).
    apply (N n c'); [lia|]. rewrite nth_error_app1 by exact LN2. exact H.
Qed.
Lemma ended_mono  (log : list lev) l b e c res : ended log b e c res -> ended (log ++ l) b e c res.
Proof.
  intros (L & t & B & E & N). assert (LE : (e < length log)%nat) by (apply nth_error_Some; congruence).
  split; [exact L|]. exists t. rewrite !nth_error_app1 by lia. split; [exact B|]. split; [exact E|]. intros n c' LN. rewrite nth_error_app1 by lia. now apply N.
Qed.
Lemma nth_snoc {B} (l : list B) x n y : nth_error (l ++ [x]) n = Some y -> nth_error l n = Some y \/ (n = length l /\ x = y).
Proof.
  intro H. destruct (Nat.lt_ge_cases n (length l)) as [L|L]; [left; now rewrite nth_error_app1 in H by exact L|right].
  assert (n < length (l ++ [x]))%nat by (apply nth_error_Some; congruence). rewrite app_length in H0. cbn in H0. assert (n = length l) as -> by lia.
  rewrite nth_error_app2, Nat.sub_diag in H by lia. cbn in H. split; [reflexivity|congruence].
Qed.
Lemma nth_old {B} (l l' : list B) n y : nth_error l n = Some y -> nth_error (l ++ l') n = Some y.
Proof. intro H. rewrite nth_error_app1; [exact H|]. apply nth_error_Some. congruence. Qed.
Lemma cur_last  (log : list lev) t : (cur log t < length log)%nat \/ (forall n c, nth_error log n <> Some (LBegin t c)).
Proof.
  induction log as [|x log IH] using rev_ind; [right; intros [|]; discriminate|]. rewrite cur_snoc, app_length. cbn.
  destruct x as [t' c'|t' a act|t' c' res].
  - unfold upd. destruct (Nat.eqb_spec t t') as [->|N]; [left; lia|]. destruct IH as [L|NO]; [left; lia|right]. intros n c H. apply nth_snoc in H. destruct H as [H|[_ [= -> ->]]]; [exact (NO _ _ H)|contradiction].
  - destruct IH as [L|NO]; [left; lia|right]. intros n c H. apply nth_snoc in H. destruct H as [H|[_ [=]]]. exact (NO _ _ H).
  - destruct IH as [L|NO]; [left; lia|right]. intros n c H. apply nth_snoc in H. destruct H as [H|[_ [=]]]. exact (NO _ _ H).
Qed.
(** The call that a thread began last. *)
Lemma cur_is  (log : list lev) t n c : nth_error log n = Some (LBegin t c) -> (forall n' c', (n < n')%nat -> nth_error log n' <> Some (LBegin t c')) -> cur log t = n.
Proof.
  revert n. induction log as [|x log IH] using rev_ind; intros n H N; [destruct n; discriminate|]. rewrite cur_snoc. apply nth_snoc in H. destruct H as [H|[-> ->]].
  - assert (LN : (n < length log)%nat) by (apply nth_error_Some; congruence).
    assert (IHn : cur log t = n). { apply IH; [exact H|]. intros n' c' L H'. apply (N n' c' L). now apply nth_old. }
    destruct x as [t' c'|t' a act|t' c' res]; try exact IHn. unfold upd. destruct (Nat.eqb_spec t t') as [<-|NE]; [|exact IHn].
    exfalso. apply (N (length log) c'); [exact LN|]. rewrite nth_error_app2, Nat.sub_diag by lia. reflexivity.
  - unfold upd. now rewrite Nat.eqb_refl.
Qed.
End Record.

Section Runs.
Context {V T K A D : Type}.
Variable keq : K -> K -> bool.
Hypothesis keq_refl : forall k, keq k k = true.
Hypothesis keq_sym : forall k k', keq k k' = keq k' k.
Hypothesis keq_trans : forall k k' k'', keq k k' = true -> keq k' k'' = true -> keq k k'' = true.
Variable key_of : V -> T -> option K.
Variable new_agg : V -> T -> Z -> A.
Variable aggregate1 : A -> Z -> A.
Variable collect1 : V -> A -> Z -> A * option D.
Variable views_of : nat -> N -> list V.
Variable readers : nat.
Notation world := (@world V T K A).
Notation wf := (wf keq key_of views_of).
Notation good := (good keq key_of new_agg aggregate1 collect1 views_of).
Notation done := (done keq key_of views_of readers).
Notation sequential := (sequential aggregate1 collect1).
Notation tstep := (tstep keq).
Notation code := (code keq key_of new_agg aggregate1 collect1 views_of readers).
Notation ystep := (ystep keq key_of new_agg aggregate1 collect1 views_of readers).
Notation yrun := (yrun keq key_of new_agg aggregate1 collect1 views_of readers).

Definition post (c : @call T) (W0 : world) (held : list lock) (acts : list (nat * @action D)) (W : world) (res : @result D) : Prop := held = [] /\ done c W0 acts W res.
(** Everything that was done before the call [b] began was done to aggregations that can be found in [W0]. *)
Definition before (log : list (@lev T D)) (b : nat) (W0 : world) : Prop := forall a, entries a (firstn b log) <> [] -> published W0 a.
Definition running (y : @sys V T K A D) (W : world) (t : nat) (c : @call T) (p : @prog V K A D (@result D)) : Prop :=
  exists held W0, NoDup held /\ (forall l, y_lock y l = Some t <-> In l held)
  /\ good (uses c) (post c W0) p held (did (cur (y_log y) t) (y_log y)) W /\ ext [] W0 W /\ before (y_log y) (cur (y_log y) t) W0
  /\ nth_error (y_log y) (cur (y_log y) t) = Some (LBegin t c)
  /\ (forall n c' res, (cur (y_log y) t < n)%nat -> nth_error (y_log y) n <> Some (LEnd t c' res)).
Definition sound (W : world) (log : list (@lev T D)) : Prop :=
  forall a m k attrs now, own W a = Some (m, k, attrs, now) ->
  (exists w x, vw (mm W) m = Some w /\ st (mm W) a = Some x /\ sequential w (new_agg w attrs now) (map e_act (entries a log)) x)
  /\ exists r i j b c, place W m = Some (r, i, j) /\ call_at log b c /\ uses c r i attrs now.
Record inv (y : @sys V T K A D) (W : world) : Prop := {
  i_mm : mm W = y_mem y;
  i_wf : wf W;
  i_thr : forall t, match y_thr y t with None => forall l, y_lock y l <> Some t | Some (c, p) => running y W t c p end;
  i_sound : sound W (y_log y);
  i_pub : forall a, entries a (y_log y) <> [] -> published W a;
  i_in : forall x, In x (all (y_log y)) -> within (y_log y) (snd x);
  i_end : forall b e c res, ended (y_log y) b e c res -> exists W0 W1, done c W0 (did b (y_log y)) W1 res /\ ext [] W0 W1 /\ ext [] W1 W /\ before (y_log y) b W0 }.

Lemma thread_of_call log n t c t' c' : nth_error log n = Some (@LBegin T D t c) -> nth_error log n = Some (LBegin t' c') -> t = t' /\ c = c'.
Proof. intros H1 H2. rewrite H1 in H2. injection H2 as <- <-. now split. Qed.
Lemma before_snoc (log : list (@lev T D)) x b W0 : (b <= length log)%nat -> before log b W0 -> before (log ++ [x]) b W0.
Proof. intros L H a. rewrite firstn_app. replace (b - length log)%nat with 0%nat by lia. cbn. rewrite app_nil_r. apply H. Qed.
Lemma ended_lt (log : list (@lev T D)) b e c res : ended log b e c res -> (b < length log)%nat /\ (e < length log)%nat.
Proof. intros (L & t & B & E & _). assert (e < length log)%nat by (apply nth_error_Some; congruence). lia. Qed.
Lemma within_snoc (log : list (@lev T D)) x e : (e_pos e < length log)%nat -> within log e -> within (log ++ [x]) e.
Proof.
  intros L (LT & (c & t & CA) & EN). split; [exact LT|]. split; [exists c, t; now apply nth_old|]. intros x' c' res E. apply ended_snoc in E. destruct E as [E|[-> _]]; [eapply EN; exact E|exact L].
Qed.
Lemma all_pos (log : list (@lev T D)) x : In x (all log) -> (e_pos (snd x) < length log)%nat.
Proof. intro I. apply full_pos in I. cbn in I. lia. Qed.
Lemma sound_snoc W log x : sound W log -> (forall t a act, x <> LDid t a act) -> sound W (log ++ [x]).
Proof.
  intros H N a m k attrs now O. destruct (H _ _ _ _ _ O) as [(w & s & V1 & S1 & SQ) (r & i & j & b & c & PL & (t & CA) & U)]. split.
  - exists w, s. split; [exact V1|]. split; [exact S1|]. rewrite entries_snoc. destruct x; try (now rewrite app_nil_r). exfalso. eapply N. reflexivity.
  - exists r, i, j, b, c. split; [exact PL|]. split; [exists t; now apply nth_old|exact U].
Qed.
(** Another thread's step that shows in nothing but the memory *)
Lemma running_other y y' W W' u c p : running y W u c p ->
  (forall l, y_lock y' l = Some u <-> y_lock y l = Some u) ->
  (forall held, (forall l, y_lock y l = Some u <-> In l held) -> ext held W W') ->
  y_log y' = y_log y -> running y' W' u c p.
Proof.
  intros (held & W0 & ND & HL & G & E0 & BF & B & NE) L X LG. exists held, W0. rewrite LG. split; [exact ND|]. split; [intro l; rewrite L; apply HL|].
  specialize (X held HL). split; [eapply good_ext; eassumption|]. split; [eapply ext_trans; [exact E0|]; eapply ext_less; [|exact X]; intros z []|]. auto.
Qed.
Lemma inv_quiet y W t c p mem1 lock1 q held0 held1 W0 W1 : inv y W -> y_thr y t = Some (c, p) ->
  (forall l, y_lock y l = Some t <-> In l held0) -> ext [] W0 W -> before (y_log y) (cur (y_log y) t) W0 ->
  nth_error (y_log y) (cur (y_log y) t) = Some (LBegin t c) -> (forall n c' res, (cur (y_log y) t < n)%nat -> nth_error (y_log y) n <> Some (LEnd t c' res)) ->
  mm W1 = mem1 -> wf W1 -> sound W1 (y_log y) ->
  (forall held, (forall l, In l held -> ~ In l held0) -> ext held W W1) ->
  NoDup held1 -> (forall l, lock1 l = Some t <-> In l held1) -> (forall l u, u <> t -> (lock1 l = Some u <-> y_lock y l = Some u)) ->
  good (uses c) (post c W0) q held1 (did (cur (y_log y) t) (y_log y)) W1 ->
  inv (Sys mem1 lock1 (upd (y_thr y) t (Some (c, q))) (y_log y)) W1.
Proof.
  intros IV TH HL E0 BF B NE MM WF SD X ND L1 L2 G. pose proof (X [] (fun l (I : In l []) => match I with end)) as X0. constructor; cbn [y_mem y_lock y_thr y_log]; auto.
  - intro u. unfold upd. destruct (Nat.eqb_spec u t) as [->|NU].
    + exists held1, W0. cbn [y_lock y_log]. split; [exact ND|]. split; [exact L1|]. split; [exact G|]. split; [exact (ext_trans _ _ _ _ E0 X0)|]. auto.
    + pose proof (i_thr _ _ IV u) as TU. destruct (y_thr y u) as [[c' p']|] eqn:EU.
      * eapply running_other; [exact TU|intro l; apply L2; exact NU| |reflexivity]. intros held HU. apply X. intros l I I0. apply HU in I. apply HL in I0. congruence.
      * intros l H. apply (L2 l u NU) in H. exact (TU l H).
  - intros a H. eapply published_ext; [exact X0|]. now apply (i_pub _ _ IV).
  - exact (i_in _ _ IV).
  - intros b e c' res H. destruct (i_end _ _ IV _ _ _ _ H) as (Wa & Wb & DN & Ea & Eb & BF'). exists Wa, Wb. split; [exact DN|]. split; [exact Ea|]. split; [exact (ext_trans _ _ _ _ Eb X0)|exact BF'].
Qed.
(** The same with something done to an aggregation *)
Lemma running_log y y' W W' u c p t a act : running y W u c p -> u <> t ->
  (forall l, y_lock y' l = Some u <-> y_lock y l = Some u) ->
  (forall held, (forall l, y_lock y l = Some u <-> In l held) -> ext held W W') ->
  y_log y' = y_log y ++ [LDid t a act] -> (exists ct, nth_error (y_log y) (cur (y_log y) t) = Some (LBegin t ct)) -> running y' W' u c p.
Proof.
  intros (held & W0 & ND & HL & G & E0 & BF & B & NE) NU L X LG (ct & CT). exists held, W0. rewrite LG, cur_snoc, did_snoc.
  assert (NB : cur (y_log y) t <> cur (y_log y) u). { intro H. rewrite H in CT. destruct (thread_of_call _ _ _ _ _ _ CT B) as [-> _]. contradiction. }
  destruct (Nat.eqb_spec (cur (y_log y) t) (cur (y_log y) u)) as [|_]; [contradiction|]. rewrite app_nil_r.
  assert (LB : (cur (y_log y) u < length (y_log y))%nat) by (apply nth_error_Some; congruence).
  split; [exact ND|]. split; [intro l; rewrite L; apply HL|]. specialize (X held HL). split; [eapply good_ext; eassumption|].
  split; [eapply ext_trans; [exact E0|]; eapply ext_less; [|exact X]; intros z []|]. split; [apply before_snoc; [lia|exact BF]|]. split; [now apply nth_old|].
  intros n c' res LN H. apply nth_snoc in H. destruct H as [H|[_ [=]]]. exact (NE _ _ _ LN H).
Qed.
Lemma seq_snoc w x l y act : sequential w x l y -> forall z,
  match act with AMeasure v => z = aggregate1 y v | ACollect now p => (z, p) = collect1 w y now end -> sequential w x (l ++ [act]) z.
Proof.
  intros H. induction H as [x|x v l y H IH|x now l y H IH]; intros z Z; cbn.
  - destruct act as [v|now p]; [subst z; constructor; constructor|]. rewrite (surjective_pairing (collect1 w x now)) in Z. injection Z as -> ->. constructor. constructor.
  - constructor. now apply IH.
  - constructor. now apply IH.
Qed.
Lemma tables_own (W : world) a : wf W -> published W a -> exists m k attrs now, own W a = Some (m, k, attrs, now).
Proof. intros F (r & i & ms & m & k & _ & _ & I). destruct (f_M _ _ _ _ F _ _ _ I) as (at' & n' & O). eauto 6. Qed.
Lemma in_single (l : lock) h : In l (l :: h). Proof. now left. Qed.
Lemma lupd_other f l t u l' : u <> t -> (forall x, f l = Some x -> x = t) -> forall o, (o = Some t \/ o = None) -> (lupd f l o l' = Some u <-> f l' = Some u).
Proof.
  intros NU H o O. unfold lupd. destruct (lock_eqb l' l) eqn:E; [|reflexivity]. apply lock_eqb_spec in E. subst l'. split; intro Q.
  - destruct O as [-> | ->]; congruence.
  - apply H in Q. contradiction.
Qed.
Lemma inv_step y W t y' : inv y W -> tstep y t = Some y' -> exists W', inv y' W'.
Proof.
  intros IV ST. unfold Model_MetricThreads.tstep in ST. destruct (y_thr y t) as [[c p]|] eqn:TH; [|discriminate].
  pose proof (i_thr _ _ IV t) as RT. rewrite TH in RT. destruct RT as (held & W0 & ND & HL & G & E0 & BF & B & NE).
  pose proof (i_wf _ _ IV) as F. pose proof (i_mm _ _ IV) as MM. pose proof (i_sound _ _ IV) as SD.
  assert (Q0 : forall W1 mem1 q, mm W1 = mem1 -> wf W1 -> sound W1 (y_log y) -> (forall h, (forall l, In l h -> ~ In l held) -> ext h W W1) ->
    good (uses c) (post c W0) q held (did (cur (y_log y) t) (y_log y)) W1 -> inv (Sys mem1 (y_lock y) (upd (y_thr y) t (Some (c, q))) (y_log y)) W1).
  { intros W1 mem1 q M1 F1 S1 X1 G1. eapply inv_quiet with (held0 := held) (held1 := held) (W0 := W0); eauto. reflexivity. }
  destruct p as [res|l q|l q|r f|r i ms q|v f|m f|m f|m k a q|x f|a f|a x act q]; cbn [Proof_MetricThreads.good] in G; specialize (G W F (ext_refl _ _)).
  - (* the call ends *)
    injection ST as <-. destruct G as [-> DN]. exists W. constructor; cbn [y_mem y_lock y_thr y_log]; auto.
    + intro u. unfold upd. destruct (Nat.eqb_spec u t) as [->|NU]; [intros l H; apply HL in H; destruct H|].
      pose proof (i_thr _ _ IV u) as TU. destruct (y_thr y u) as [[c' p']|] eqn:EU; [|exact TU].
      destruct TU as (held & W0' & ND' & HL' & G' & E0' & BF' & B' & NE'). exists held, W0'. cbn [y_lock y_log]. rewrite cur_snoc, did_snoc, app_nil_r.
      assert (LB : (cur (y_log y) u < length (y_log y))%nat) by (apply nth_error_Some; congruence).
      split; [exact ND'|]. split; [exact HL'|]. split; [exact G'|]. split; [exact E0'|]. split; [apply before_snoc; [lia|exact BF']|]. split; [now apply nth_old|].
      intros n c2 res2 LN H. apply nth_snoc in H. destruct H as [H|[_ [= -> _ _]]]; [exact (NE' _ _ _ LN H)|contradiction].
    + apply sound_snoc; [exact SD|]. discriminate.
    + intro a. rewrite entries_snoc, app_nil_r. apply (i_pub _ _ IV).
    + intros x I. rewrite all_snoc, app_nil_r in I. apply within_snoc; [now apply all_pos|now apply (i_in _ _ IV)].
    + intros b e c' res' H. rewrite did_snoc, app_nil_r. apply ended_snoc in H. destruct H as [H|(-> & t' & [= -> -> ->] & BN & NB)].
      * destruct (i_end _ _ IV _ _ _ _ H) as (Wa & Wb & DN' & Ea & Eb & BF'). exists Wa, Wb. split; [exact DN'|]. split; [exact Ea|]. split; [exact Eb|]. apply before_snoc; [|exact BF']. apply ended_lt in H. lia.
      * rewrite <- (cur_is _ _ _ _ BN NB). exists W0, W. split; [exact DN|]. split; [exact E0|]. split; [apply ext_refl|]. apply before_snoc; [|exact BF].
        enough (cur (y_log y) t' < length (y_log y))%nat by lia. apply nth_error_Some. congruence.
  - (* a lock is taken *)
    destruct (y_lock y l) as [u|] eqn:LK; [discriminate|]. injection ST as <-. destruct G as [RK G]. exists W.
    assert (NI : ~ In l held) by (intro I; apply HL in I; congruence).
    eapply inv_quiet with (held0 := held) (held1 := l :: held) (W0 := W0); eauto.
    + intros h _. apply ext_refl.
    + constructor; assumption.
    + intro l'. unfold lupd. destruct (lock_eqb l' l) eqn:E.
      * apply lock_eqb_spec in E. subst l'. split; [intros _; now left|reflexivity].
      * rewrite HL. split; [now right|]. intros [->|I]; [rewrite lock_eqb_refl in E; discriminate|exact I].
    + intros l' u NU. apply lupd_other with (t := t); [exact NU|congruence|now left].
  - (* a lock is given back *)
    injection ST as <-. destruct G as (held' & -> & G). exists W. inversion ND as [|? ? NI ND']; subst.
    assert (LK : y_lock y l = Some t) by (apply HL; now left).
    eapply inv_quiet with (held0 := l :: held') (held1 := held') (W0 := W0); eauto.
    + intros h _. apply ext_refl.
    + intro l'. unfold lupd. destruct (lock_eqb l' l) eqn:E.
      * apply lock_eqb_spec in E. subst l'. split; [discriminate|intro I; contradiction].
      * rewrite HL. split; [intros [->|I]; [rewrite lock_eqb_refl in E; discriminate|exact I]|now right].
    + intros l' u NU. apply lupd_other with (t := t); [exact NU|congruence|now right].
  - injection ST as <-. exists W. rewrite <- MM. apply Q0; auto. intros h _. apply ext_refl.
  - injection ST as <-. destruct G as (IL & FN & PL & G). exists (w_setS W r i ms). rewrite <- MM, put_i_new by exact FN. apply Q0; auto.
    + now apply wf_setS.
    + intros h H. apply ext_setS. intro I. exact (H _ I IL).
  - injection ST as <-. destruct G as (r & i & j & NV & G). exists (w_newM W v (r, i, j)). rewrite <- MM.
    assert (X : ext [] W (w_newM W v (r, i, j))) by (eapply ext_newM; exact F). apply Q0; auto.
    + now apply wf_newM.
    + intros a m k attrs now O. cbn in O. destruct (SD _ _ _ _ _ O) as [(w & s & V1 & S1 & SQ) (r' & i' & j' & b & c' & PL & CA)]. split.
      * exists w, s. split; [exact (e_V _ _ _ X _ _ V1)|]. now split.
      * exists r', i', j', b, c'. split; [exact (e_P _ _ _ X _ _ PL)|exact CA].
    + intros h _. eapply ext_newM; exact F.
  - destruct G as (w & VW & G). rewrite <- MM, VW in ST. injection ST as <-. exists W. apply Q0; auto. intros h _. apply ext_refl.
  - injection ST as <-. exists W. rewrite <- MM. apply Q0; auto. intros h _. apply ext_refl.
  - injection ST as <-. destruct G as (IL & FN & OW & G). exists (w_setM W m k a). rewrite <- MM, (put_k_new keq) by exact FN. apply Q0; auto.
    + now apply wf_setM.
    + intros h H. apply ext_setM. intro I. exact (H _ I IL).
  - injection ST as <-. destruct G as (m & k & attrs & now & w & VW & KO & -> & (r & i & j & PL & US) & G). exists (w_newA W (new_agg w attrs now) (m, k, attrs, now)). rewrite <- MM.
    apply Q0; auto.
    + eapply wf_newA; eassumption.
    + intros a m' k' at' n' O. cbn in O |- *. unfold upd in O |- *. destruct (Nat.eqb_spec a (nA (mm W))) as [->|NA].
      * injection O as <- <- <- <-. split.
        -- exists w, (new_agg w attrs now). split; [exact VW|]. split; [reflexivity|].
           assert (EM : entries (nA (mm W)) (y_log y) = []).
           { destruct (entries (nA (mm W)) (y_log y)) eqn:E; [reflexivity|]. exfalso. assert (PB : published W (nA (mm W))) by (apply (i_pub _ _ IV); rewrite E; discriminate).
             destruct (tables_own _ _ F PB) as (m' & k' & at' & n' & O). destruct (f_nA _ _ _ _ F _ (le_n _)) as [_ NO]. congruence. }
           rewrite EM. constructor.
        -- exists r, i, j, (cur (y_log y) t), c. split; [exact PL|]. split; [exists t; exact B|exact US].
      * destruct (SD _ _ _ _ _ O) as [H1 H2]. split; assumption.
    + intros h H. eapply ext_newA; exact F.
  - destruct G as (IL & x & SA & G). rewrite <- MM, SA in ST. injection ST as <-. exists W. apply Q0; auto. intros h _. apply ext_refl.
  - (* something is done to an aggregation *)
    injection ST as <-. destruct G as (IL & PB & (x0 & SA & LG) & G). exists (w_setA W a x).
    assert (X : forall h, (forall l, In l h -> ~ In l held) -> ext h W (w_setA W a x)) by (intros h H; apply ext_setA; intro I; exact (H _ I IL)).
    pose proof (X [] (fun l (I : In l []) => match I with end)) as X0.
    assert (LB : (cur (y_log y) t < length (y_log y))%nat) by (apply nth_error_Some; congruence).
    assert (NOE : forall e c' res', ~ ended (y_log y) (cur (y_log y) t) e c' res').
    { intros e c' res' (L & t' & B' & E' & _). destruct (thread_of_call _ _ _ _ _ _ B B') as [<- <-]. exact (NE _ _ _ L E'). }
    constructor; cbn [y_mem y_lock y_thr y_log].
    + cbn. now rewrite <- MM.
    + apply wf_setA; [exact F|congruence].
    + intro u. unfold upd. destruct (Nat.eqb_spec u t) as [->|NU].
      * exists held, W0. cbn [y_lock y_log]. rewrite cur_snoc, did_snoc, Nat.eqb_refl. split; [exact ND|]. split; [exact HL|]. split; [exact G|]. split; [exact (ext_trans _ _ _ _ E0 X0)|].
        split; [apply before_snoc; [lia|exact BF]|]. split; [now apply nth_old|]. intros n c' res' LN H. apply nth_snoc in H. destruct H as [H|[_ [=]]]. exact (NE _ _ _ LN H).
      * pose proof (i_thr _ _ IV u) as TU. destruct (y_thr y u) as [[c' p']|] eqn:EU; [|exact TU].
        eapply running_log; [exact TU|exact NU|reflexivity| |reflexivity|exists c; exact B]. intros h HU. apply X. intros l I I0. apply HU in I. apply HL in I0. congruence.
    + intros b m k attrs now O. cbn in O. destruct (SD _ _ _ _ _ O) as [(w & s & V1 & S1 & SQ) (r & i & j & bb & c' & PL & (t' & CA) & US)]. split.
      * cbn. unfold upd. rewrite entries_snoc. destruct (Nat.eqb_spec b a) as [->|NA].
        -- rewrite Nat.eqb_refl, map_app. exists w, x. split; [exact V1|]. split; [reflexivity|]. cbn. eapply seq_snoc; [exact SQ|]. replace s with x0 by congruence.
           destruct act as [v|nw p']; cbn in LG; [exact LG|]. destruct LG as (m2 & k2 & at2 & n2 & w2 & O2 & V2 & C2). rewrite O in O2. injection O2 as <- <- <- <-. rewrite V1 in V2. injection V2 as <-. exact C2.
        -- exists w, s. split; [exact V1|]. split; [exact S1|]. destruct (Nat.eqb_spec a b) as [->|]; [contradiction|]. now rewrite app_nil_r.
      * exists r, i, j, bb, c'. split; [exact PL|]. split; [exists t'; now apply nth_old|exact US].
    + intros b H. rewrite entries_snoc in H. eapply published_ext; [exact X0|]. destruct (Nat.eqb_spec a b) as [->|NA]; [exact PB|]. rewrite app_nil_r in H. now apply (i_pub _ _ IV).
    + intros z I. rewrite all_snoc in I. apply in_app_or in I. destruct I as [I|[<-|[]]]; [apply within_snoc; [now apply all_pos|now apply (i_in _ _ IV)]|].
      split; [exact LB|]. split; [exists c, t; now apply nth_old|]. cbn. intros e c' res' H. apply ended_snoc in H. destruct H as [H|(_ & t' & [=] & _)]. exfalso. exact (NOE _ _ _ H).
    + intros b e c' res' H. apply ended_snoc in H. destruct H as [H|(_ & t' & [=] & _)]. rewrite did_snoc. destruct (Nat.eqb_spec (cur (y_log y) t) b) as [<-|NB]; [exfalso; exact (NOE _ _ _ H)|]. rewrite app_nil_r.
      destruct (i_end _ _ IV _ _ _ _ H) as (Wa & Wb & DN & Ea & Eb & BF'). exists Wa, Wb. split; [exact DN|]. split; [exact Ea|]. split; [exact (ext_trans _ _ _ _ Eb X0)|].
      apply before_snoc; [|exact BF']. apply ended_lt in H. lia.
Qed.
Lemma inv_begin y W t c : inv y W -> y_thr y t = None -> may_call readers c -> inv (Sys (y_mem y) (y_lock y) (upd (y_thr y) t (Some (c, code c))) (y_log y ++ [LBegin t c])) W.
Proof.
  intros IV TH OK. constructor; cbn [y_mem y_lock y_thr y_log]; [exact (i_mm _ _ IV)|exact (i_wf _ _ IV)|..].
  - intro u. pose proof (i_thr _ _ IV u) as TU. unfold upd at 1. destruct (Nat.eqb_spec u t) as [->|NU].
    + rewrite TH in TU. exists [], W. cbn [y_lock y_log]. rewrite cur_snoc, did_snoc, app_nil_r. unfold upd. rewrite Nat.eqb_refl. split; [constructor|]. split; [intro l; split; [intro H; exact (TU l H)|intros []]|].
      split.
      { replace (did (length (y_log y)) (y_log y)) with (@nil (nat * @action D)); [exact (good_code keq keq_refl key_of new_agg aggregate1 collect1 views_of readers c W (i_wf _ _ IV) OK)|].
        unfold did. destruct (filter _ (all (y_log y))) as [|x l] eqn:E; [reflexivity|]. exfalso.
        assert (I : In x (filter (fun x => Nat.eqb (e_call (snd x)) (length (y_log y))) (all (y_log y)))) by (rewrite E; now left).
        apply filter_In in I. destruct I as [I Q]. apply Nat.eqb_eq in Q. destruct (i_in _ _ IV _ I) as (_ & (c' & t' & CA) & _). rewrite Q in CA.
        assert (length (y_log y) < length (y_log y))%nat by (apply nth_error_Some; congruence). lia. }
      split; [apply ext_refl|]. split; [intros a H; apply (i_pub _ _ IV); now rewrite firstn_app, Nat.sub_diag, firstn_all, app_nil_r in H|].
      split; [now rewrite nth_error_app2, Nat.sub_diag by lia|]. intros n c' res LN H.
      assert (n < length (y_log y ++ [LBegin t c]))%nat by (apply nth_error_Some; congruence). rewrite app_length in H0. cbn in H0. lia.
    + destruct (y_thr y u) as [[c' p']|] eqn:EU; [|exact TU]. destruct TU as (held & W0 & ND & HL & G & E0 & BF & B & NE). exists held, W0. cbn [y_lock y_log].
      rewrite cur_snoc, did_snoc, app_nil_r. unfold upd. destruct (Nat.eqb_spec u t) as [|_]; [contradiction|].
      assert (LB : (cur (y_log y) u < length (y_log y))%nat) by (apply nth_error_Some; congruence).
      split; [exact ND|]. split; [exact HL|]. split; [exact G|]. split; [exact E0|]. split; [apply before_snoc; [lia|exact BF]|]. split; [now apply nth_old|].
      intros n c2 res2 LN H. apply nth_snoc in H. destruct H as [H|[_ [=]]]. exact (NE _ _ _ LN H).
  - apply sound_snoc; [exact (i_sound _ _ IV)|discriminate].
  - intro a. rewrite entries_snoc, app_nil_r. apply (i_pub _ _ IV).
  - intros x I. rewrite all_snoc, app_nil_r in I. apply within_snoc; [now apply all_pos|now apply (i_in _ _ IV)].
  - intros b e c' res' H. rewrite did_snoc, app_nil_r. apply ended_snoc in H. destruct H as [H|(_ & t' & [=] & _)].
    destruct (i_end _ _ IV _ _ _ _ H) as (Wa & Wb & DN' & Ea & Eb & BF'). exists Wa, Wb. split; [exact DN'|]. split; [exact Ea|]. split; [exact Eb|]. apply before_snoc; [|exact BF']. apply ended_lt in H. lia.
Qed.
Definition world0 : world := Wd mem0 (fun _ => None) (fun _ => None).
Lemma inv0 : inv sys0 world0.
Proof.
  constructor; cbn.
  - reflexivity.
  - constructor; cbn; try discriminate; try (intros; contradiction); auto; intros; constructor.
  - discriminate.
  - intros a m k at' n' [=].
  - intros a H. now destruct H.
  - intros x [].
  - intros b e c res (_ & t & B & _). destruct b; discriminate.
Qed.
Lemma inv_run es : calls_ok readers es -> forall y, (exists W, inv y W) -> exists W, inv (yrun es y) W.
Proof.
  induction es as [|e es IH]; intros OK y (W & IV); [now exists W|]. cbn. apply IH; [intros t c I; apply (OK t); now right|].
  destruct (ystep y e) as [y'|] eqn:E; [|now exists W]. destruct e as [t c|t]; cbn in E.
  - destruct (y_thr y t) as [x|] eqn:TH; [discriminate|]. injection E as <-. exists W. apply inv_begin; [exact IV|exact TH|]. eapply OK. left. reflexivity.
  - eapply inv_step; eassumption.
Qed.

(** ** Nothing gets stuck, and every call ends *)
Lemma can_go y W t c p : inv y W -> y_thr y t = Some (c, p) -> tstep y t <> None \/ exists l q u, p = Acquire l q /\ y_lock y l = Some u.
Proof.
  intros IV TH. pose proof (i_thr _ _ IV t) as RT. rewrite TH in RT. destruct RT as (held & W0 & ND & HL & G & _). unfold Model_MetricThreads.tstep. rewrite TH.
  pose proof (i_mm _ _ IV) as MM. destruct p as [res|l q|l q|r f|r i ms q|v f|m f|m f|m k a q|x f|a f|a x act q]; try (left; discriminate); cbn [Proof_MetricThreads.good] in G; specialize (G W (i_wf _ _ IV) (ext_refl _ _)).
  - destruct (y_lock y l) as [u|] eqn:LK; [right; eauto|left; discriminate].
  - destruct G as (w & VW & _). rewrite <- MM, VW. left. discriminate.
  - destruct G as (_ & x & SA & _). rewrite <- MM, SA. left. discriminate.
Qed.
Lemma progress y W : inv y W -> forall n t c l q, (3 - rank l)%nat = n -> y_thr y t = Some (c, Acquire l q) -> exists u, tstep y u <> None.
Proof.
  intro IV. induction n as [n IH] using lt_wf_ind. intros t c l q RK TH. destruct (can_go _ _ _ _ _ IV TH) as [GO|(l' & q' & u & [= <- <-] & LK)]; [eauto|].
  pose proof (i_thr _ _ IV u) as TU. destruct (y_thr y u) as [[cu pu]|] eqn:EU; [|exfalso; exact (TU _ LK)].
  destruct (can_go _ _ _ _ _ IV EU) as [GO|(l2 & q2 & u2 & -> & LK2)]; [eauto|].
  destruct TU as (held & W0 & ND & HL & G & _). cbn [Proof_MetricThreads.good] in G. destruct (G W (i_wf _ _ IV) (ext_refl _ _)) as [RH _].
  apply HL in LK. rewrite Forall_forall in RH. specialize (RH _ LK). cbn beta in RH.
  apply (IH (3 - rank l2)%nat) with (t := u) (c := cu) (l := l2) (q := q2); [|reflexivity|exact EU]. assert (rank l2 <= 3)%nat by (destruct l2; cbn; lia). lia.
Qed.
Lemma unstuck y W t x : inv y W -> y_thr y t = Some x -> exists u, tstep y u <> None.
Proof. intros IV TH. destruct x as [c p]. destruct (can_go _ _ _ _ _ IV TH) as [GO|(l & q & u & -> & LK)]; [eauto|]. eapply progress; [exact IV|reflexivity|exact TH]. Qed.
(** Each step goes from a program to a part of it. *)
Inductive part {R} : @prog V K A D R -> @prog V K A D R -> Prop :=
| part_acq l q : part q (Acquire l q)
| part_rel l q : part q (Release l q)
| part_getS r f x : part (f x) (GetS r f)
| part_setS r i ms q : part q (SetS r i ms q)
| part_newM v f x : part (f x) (NewM v f)
| part_getV m f x : part (f x) (GetV m f)
| part_getM m f x : part (f x) (GetM m f)
| part_setM m k a q : part q (SetM m k a q)
| part_newA x f y : part (f y) (NewA x f)
| part_getA a f x : part (f x) (GetA a f)
| part_setA a x act q : part q (SetA a x act q).
Lemma part_wf {R} (p : @prog V K A D R) : Acc part p.
Proof. induction p; constructor; intros y P; inversion P; subst; auto. Qed.
Definition opart (x' x : option (@prog V K A D (@result D))) : Prop :=
  match x, x' with Some p, Some q => part q p | Some _, None => True | None, _ => False end.
Lemma opart_wf x : Acc opart x.
Proof.
  assert (N : Acc opart None) by (constructor; intros y H; destruct H).
  destruct x as [p|]; [|exact N]. induction (part_wf p) as [p _ IH]. constructor. intros [q|] H; [now apply IH|exact N].
Qed.
Inductive lstep : list (option (@prog V K A D (@result D))) -> list (option (@prog V K A D (@result D))) -> Prop :=
| ls_here x' x l : opart x' x -> lstep (x' :: l) (x :: l)
| ls_there x l' l : lstep l' l -> lstep (x :: l') (x :: l).
Lemma lstep_cons x : Acc opart x -> forall l, Acc lstep l -> Acc lstep (x :: l).
Proof.
  induction 1 as [x _ IHx]. intros l AL. induction AL as [l AL IHl]. constructor. intros y H. inversion H; subst; [apply IHx; [assumption|constructor; exact AL]|apply IHl; assumption].
Qed.
Lemma lstep_wf l : Acc lstep l.
Proof. induction l as [|x l IH]; [constructor; intros y H; inversion H|]. apply lstep_cons; [apply opart_wf|exact IH]. Qed.
Definition view (y : @sys V T K A D) (ts : list nat) : list (option (@prog V K A D (@result D))) := map (fun t => option_map snd (y_thr y t)) ts.
Lemma tstep_view (y : @sys V T K A D) t y' : tstep y t = Some y' -> (forall u, u <> t -> y_thr y' u = y_thr y u) /\ opart (option_map snd (y_thr y' t)) (option_map snd (y_thr y t)).
Proof.
  intro ST. unfold Model_MetricThreads.tstep in ST. destruct (y_thr y t) as [[c p]|] eqn:TH; [|discriminate].
  assert (U : forall x u, u <> t -> upd (y_thr y) t x u = y_thr y u) by (intros x u NU; unfold upd; destruct (Nat.eqb_spec u t); [contradiction|reflexivity]).
  assert (S1 : forall x, upd (y_thr y) t x t = x) by (intro x; unfold upd; now rewrite Nat.eqb_refl).
  destruct p; try (injection ST as <-; cbn [y_thr]; split; [apply U|rewrite S1; cbn; auto; constructor]).
  - destruct (y_lock y l); [discriminate|]. injection ST as <-. cbn [y_thr]. split; [apply U|rewrite S1; constructor].
  - destruct (vw (y_mem y) m); [|discriminate]. injection ST as <-. cbn [y_thr]. split; [apply U|rewrite S1; cbn; constructor].
  - destruct (st (y_mem y) a); [|discriminate]. injection ST as <-. cbn [y_thr]. split; [apply U|rewrite S1; cbn; constructor].
Qed.
Lemma view_step (y : @sys V T K A D) t y' ts : tstep y t = Some y' -> NoDup ts -> In t ts -> lstep (view y' ts) (view y ts).
Proof.
  intros ST ND I. destruct (tstep_view _ _ _ ST) as [OT HR]. induction ND as [|u ts NI ND IH]; [destruct I|]. cbn. destruct I as [->|I].
  - assert (EV : view y' ts = view y ts) by (apply map_ext_in; intros u I; rewrite OT; [reflexivity|intros ->; contradiction]). unfold view in EV. rewrite EV. apply ls_here. exact HR.
  - rewrite OT by (intros ->; contradiction). apply ls_there. now apply IH.
Qed.
Lemma settle ts : NoDup ts -> forall y, (exists W, inv y W) -> (forall t, y_thr y t <> None -> In t ts) -> settles keq y.
Proof.
  intros ND y. remember (view y ts) as l eqn:EL. revert y EL. induction (lstep_wf l) as [l _ IH]. intros y -> (W & IV) FI.
  assert (DEC : (forall t, In t ts -> y_thr y t = None) \/ exists t, In t ts /\ y_thr y t <> None).
  { clear. induction ts as [|t ts IH]; [left; intros t []|]. destruct (y_thr y t) as [x|] eqn:E; [right; exists t; split; [now left|congruence]|].
    destruct IH as [N|(u & I & N)]; [left; intros u [<-|I]; auto|right; exists u; split; [now right|exact N]]. }
  destruct DEC as [N|(t & I & N)].
  - apply settles_idle. intro t. destruct (y_thr y t) as [x|] eqn:E; [|reflexivity]. rewrite <- E. apply N, FI. congruence.
  - apply settles_step.
    + destruct (y_thr y t) as [x|] eqn:E; [|contradiction]. eapply unstuck; eassumption.
    + intros u y' ST. assert (IU : In u ts). { apply FI. intro H. unfold Model_MetricThreads.tstep in ST. rewrite H in ST. discriminate. }
      eapply IH; [eapply view_step; eassumption|reflexivity|eapply inv_step; eassumption|].
      intros v NV. destruct (Nat.eq_dec v u) as [->|NU]; [exact IU|]. destruct (tstep_view _ _ _ ST) as [OT _]. rewrite OT in NV by exact NU. now apply FI.
Qed.
Lemma run_threads es : forall y ts, (forall t, y_thr y t <> None -> In t ts) -> exists ts', forall t, y_thr (yrun es y) t <> None -> In t ts'.
Proof.
  induction es as [|e es IH]; intros y ts FI; [now exists ts|]. cbn. destruct (ystep y e) as [y'|] eqn:E; [|eapply IH; exact FI].
  destruct e as [t c|t]; cbn in E.
  - destruct (y_thr y t); [discriminate|]. injection E as <-. apply (IH _ (t :: ts)). cbn. intros u. unfold upd. destruct (Nat.eqb_spec u t) as [->|]; [auto|]. intro H. right. now apply FI.
  - apply (IH _ ts). intros u NU. destruct (Nat.eq_dec u t) as [->|NE].
    + apply FI. intro H. unfold Model_MetricThreads.tstep in E. rewrite H in E. discriminate.
    + destruct (tstep_view _ _ _ E) as [OT _]. rewrite OT in NU by exact NE. now apply FI.
Qed.
Lemma all_settle es : calls_ok readers es -> settles keq (yrun es sys0).
Proof.
  intro OK. destruct (run_threads es sys0 [] ltac:(intros t H; now destruct H)) as [ts FI].
  apply (settle (nodup Nat.eq_dec ts)); [apply NoDup_nodup|apply inv_run; [exact OK|exists world0; apply inv0]|]. intros t H. apply nodup_In. now apply FI.
Qed.
(** A schedule that ends all calls *)
Lemma settles_run (y : @sys V T K A D) : settles keq y -> exists es, (forall t c, ~ In (YBegin t c) es) /\ forall t, y_thr (yrun es y) t = None.
Proof.
  induction 1 as [y N|y (t & NT) _ IH]; [exists []; split; [intros t c []|exact N]|].
  destruct (tstep y t) as [y'|] eqn:ST; [|contradiction]. destruct (IH _ _ ST) as (es & NB & N). exists (YStep t :: es). split.
  - intros u c [[=]|I]. exact (NB _ _ I).
  - cbn. rewrite ST. exact N.
Qed.
End Runs.
