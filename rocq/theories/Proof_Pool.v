(** Proofs for C136. *)
From Verif Require Import Spec_Pool.
From Coq Require Import Lia.

(** ** Lists *)
Lemma set_nth_length {A} n (x : A) l : length (set_nth n x l) = length l.
Proof. revert n. induction l as [|y l IH]; intros [|n]; cbn; auto. Qed.
Lemma nth_set {A} n m (x : A) l : nth_error (set_nth n x l) m = if Nat.eq_dec m n then (if m <? length l then Some x else None) else nth_error l m.
Proof.
  revert n m. induction l as [|y l IH]; intros [|n] [|m]; cbn [set_nth nth_error length]; try reflexivity; try (destruct (Nat.eq_dec _ _); [|reflexivity]; try lia; reflexivity).
  rewrite IH. destruct (Nat.eq_dec m n), (Nat.eq_dec (S m) (S n)); try lia; [|reflexivity]. reflexivity.
Qed.

Definition sk (t : task) : agent * nat * work := (t_by t, t_call t, t_work t).
Notation skel := (list (agent * nat * work)).
Definition mine (a : agent) (c : nat) (x : agent * nat * work) : bool := (if agent_dec (fst (fst x)) a then true else false) && (snd (fst x) =? c).
Definition ids (K : skel) (a : agent) (c : nat) : list nat :=
  filter (fun i => match nth_error K i with Some x => mine a c x | None => false end) (seq 0 (length K)).
Definition works (K : skel) (is : list nat) : list work := flat_map (fun i => match nth_error K i with Some (_, w) => [w] | None => [] end) is.
Lemma ids_in K a c i : In i (ids K a c) <-> exists x, nth_error K i = Some x /\ mine a c x = true.
Proof.
  unfold ids. rewrite filter_In, in_seq. split.
  - intros [_ H]. destruct (nth_error K i) as [x|]; [eauto|discriminate].
  - intros (x & E & M). rewrite E. split; [|exact M]. split; [lia|]. cbn. apply nth_error_Some. congruence.
Qed.
Lemma ids_app K x a c : ids (K ++ [x]) a c = ids K a c ++ (if mine a c x then [length K] else []).
Proof.
  unfold ids. rewrite app_length. cbn [length]. rewrite Nat.add_1_r, seq_S, filter_app. cbn [filter plus]. f_equal.
  - apply filter_ext_in. intros i I. apply in_seq in I. rewrite nth_error_app1 by lia. reflexivity.
  - rewrite nth_error_app2 by lia. rewrite Nat.sub_diag. cbn. reflexivity.
Qed.
Lemma works_app K x is : (forall i, In i is -> i < length K) -> works (K ++ [x]) is = works K is.
Proof.
  intros H. unfold works. induction is as [|i is IH]; cbn; [reflexivity|]. rewrite nth_error_app1 by (apply H; now left). rewrite IH; [reflexivity|]. intros j J. apply H. now right.
Qed.
Lemma works_cat K a b : works K (a ++ b) = works K a ++ works K b.
Proof. unfold works. apply flat_map_app. Qed.
Lemma ids_lt K a c i : In i (ids K a c) -> i < length K.
Proof. intros H. apply ids_in in H. destruct H as (x & E & _). apply nth_error_Some. congruence. Qed.
Lemma mine_true a c x : mine a c x = true <-> fst (fst x) = a /\ snd (fst x) = c.
Proof. unfold mine. rewrite andb_true_iff, Nat.eqb_eq. destruct (agent_dec (fst (fst x)) a); intuition congruence. Qed.

(** ** What holds of the calls of one agent *)
Definition frame_ok (p : list call) (a : agent) (K : skel) (D : nat -> option bool) (f : frame) : Prop :=
  let m := length (f_out f) in
  (forall c, c < m -> exists l ws, nth_error p c = Some (Call l ws) /\ works K (ids K a c) = ws
     /\ match nth_error (f_out f) c with
        | Some false => Forall (fun i => D i = Some false) (ids K a c)
        | _ => Exists (fun i => D i = Some true) (ids K a c)
        end)
  /\ (forall c, m < c -> ids K a c = [])
  /\ match f_now f with
     | None => f_rest f = skipn m p /\ m <= length p /\ ids K a m = []
     | Some d => nth_error p m = Some (Call (d_locked d) (works K (ids K a m) ++ d_submit d)) /\ f_rest f = skipn (S m) p
                 /\ exists old, ids K a m = old ++ d_await d /\ Forall (fun i => D i = Some false) old
     end.
Definition more (D D' : nat -> option bool) : Prop := forall i b, D i = Some b -> D' i = Some b.
Lemma forall_more D D' b is : more D D' -> Forall (fun i => D i = Some b) is -> Forall (fun i => D' i = Some b) is.
Proof. intros M. apply Forall_impl. intros i. apply M. Qed.
Lemma exists_more D D' b is : more D D' -> Exists (fun i => D i = Some b) is -> Exists (fun i => D' i = Some b) is.
Proof. intros M. apply Exists_impl. intros i. apply M. Qed.
Lemma frame_ok_more p a K D D' f : more D D' -> frame_ok p a K D f -> frame_ok p a K D' f.
Proof.
  intros M (A & B & C). split; [|split; [exact B|]].
  - intros c L. destruct (A c L) as (l & ws & E & W & H). exists l, ws. split; [exact E|]. split; [exact W|].
    destruct (nth_error (f_out f) c) as [[|]|]; eauto using forall_more, exists_more.
  - destruct (f_now f); [|exact C]. destruct C as (E & R & old & I & F). split; [exact E|]. split; [exact R|]. exists old. split; [exact I|]. eapply forall_more; eauto.
Qed.
Lemma frame_ok_app p a K D f x : fst (fst x) <> a -> frame_ok p a K D f -> frame_ok p a (K ++ [x]) D f.
Proof.
  intros N (A & B & C).
  assert (I : forall c, ids (K ++ [x]) a c = ids K a c).
  { intros c. rewrite ids_app. destruct (mine a c x) eqn:M; [|apply app_nil_r]. apply mine_true in M. tauto. }
  assert (W : forall c, works (K ++ [x]) (ids K a c) = works K (ids K a c)) by (intros c; apply works_app; intros i; apply ids_lt).
  split; [|split].
  - intros c L. rewrite I, W. auto.
  - intros c L. rewrite I. auto.
  - destruct (f_now f); rewrite !I, ?W; exact C.
Qed.

(** ** The invariant *)
Definition K_of (s : state) : skel := map sk (s_tasks s).
Definition inv (programs : list (list call)) (s : state) : Prop :=
  (forall a f, frame_of s a = Some f -> exists p, program_of programs s a = Some p /\ frame_ok p a (K_of s) (is_done s) f)
  /\ (forall i t, nth_error (s_tasks s) i = Some t -> (t_place t = Queued <-> s_next s <= i)
        /\ match t_by t with User n => n < length (s_users s) | Task j => j < s_next s /\ j < i end)
  /\ s_next s <= length (s_tasks s)
  /\ (forall a, s_lock s = Some a -> exists f d, frame_of s a = Some f /\ f_now f = Some d /\ d_locked d = true).

Lemma set_place_sk i p l : map sk (set_place i p l) = map sk l.
Proof.
  unfold set_place. destruct (nth_error l i) as [t|] eqn:E; [|reflexivity]. revert i E. induction l as [|u l IH]; intros [|i] E; cbn in *; try discriminate; [now injection E as ->|].
  f_equal. eauto.
Qed.
Lemma set_place_length i p l : length (set_place i p l) = length l.
Proof. unfold set_place. destruct (nth_error l i); [apply set_nth_length|reflexivity]. Qed.
Lemma nth_place i p l j : nth_error (set_place i p l) j = if Nat.eq_dec j i then option_map (with_place p) (nth_error l j) else nth_error l j.
Proof.
  unfold set_place. destruct (nth_error l i) as [t|] eqn:E.
  - rewrite nth_set. destruct (Nat.eq_dec j i) as [->|]; [|reflexivity]. rewrite E. cbn [option_map]. assert (H : i < length l) by (apply nth_error_Some; congruence).
    apply Nat.ltb_lt in H. now rewrite H.
  - destruct (Nat.eq_dec j i) as [->|]; [now rewrite E|reflexivity].
Qed.
Lemma frame_set a f' s b : frame_of s a <> None -> frame_of (set_frame a f' s) b = if agent_dec b a then Some f' else frame_of s b.
Proof.
  intros H. destruct a as [n|i], b as [m|j]; cbn [set_frame frame_of s_users s_tasks].
  - cbn in H. rewrite nth_set. destruct (Nat.eq_dec m n) as [->|N]; destruct (agent_dec _ _) as [Q|Q]; try congruence; try reflexivity.
    apply nth_error_Some in H. apply Nat.ltb_lt in H. now rewrite H.
  - destruct (agent_dec _ _); [discriminate|reflexivity].
  - destruct (agent_dec _ _); [discriminate|reflexivity].
  - cbn in H. rewrite nth_place. destruct (Nat.eq_dec j i) as [->|N]; destruct (agent_dec _ _) as [Q|Q]; try congruence; try reflexivity.
    destruct (nth_error (s_tasks s) i) as [[b c w p]|]; [reflexivity|congruence].
Qed.
Lemma running_frame s i f : frame_of s (Task i) = Some f <-> exists t, nth_error (s_tasks s) i = Some t /\ t_place t = Running f.
Proof.
  cbn. destruct (nth_error (s_tasks s) i) as [[b c w p]|]; [|split; [discriminate|intros (t & Q & _); discriminate]].
  destruct p; split; try discriminate; try (intros (t & Q & R); injection Q as <-; cbn in R; congruence).
  intros Q. injection Q as ->. eexists. split; reflexivity.
Qed.
Lemma done_spec s i b : is_done s i = Some b <-> exists t, nth_error (s_tasks s) i = Some t /\ t_place t = Done /\ w_raises (t_work t) = b.
Proof.
  unfold is_done. destruct (nth_error (s_tasks s) i) as [[y c w p]|]; [|split; [discriminate|intros (t & Q & _); discriminate]].
  destruct p; split; try discriminate; try (intros (t & Q & R & V); injection Q as <-; cbn in *; congruence).
  intros Q. injection Q as <-. eexists. split; [reflexivity|]. auto.
Qed.
Lemma set_frame_K a f s : K_of (set_frame a f s) = K_of s.
Proof. destruct a; [reflexivity|apply set_place_sk]. Qed.
Lemma set_frame_next a f s : s_next (set_frame a f s) = s_next s.
Proof. destruct a; reflexivity. Qed.
Lemma set_frame_lock a f s : s_lock (set_frame a f s) = s_lock s.
Proof. destruct a; reflexivity. Qed.
Lemma set_frame_users a f s : length (s_users (set_frame a f s)) = length (s_users s).
Proof. destruct a; [apply set_nth_length|reflexivity]. Qed.
Lemma set_frame_done a f s i : frame_of s a <> None -> is_done (set_frame a f s) i = is_done s i.
Proof.
  intros H. destruct a as [n|j]; [reflexivity|]. unfold is_done. cbn [set_frame s_tasks]. rewrite nth_place. destruct (Nat.eq_dec i j) as [->|]; [|reflexivity].
  cbn in H. destruct (nth_error (s_tasks s) j) as [[b c w []]|]; cbn; try reflexivity; congruence.
Qed.
Lemma set_frame_task a f s i t : frame_of s a <> None -> nth_error (s_tasks (set_frame a f s)) i = Some t ->
  exists t0, nth_error (s_tasks s) i = Some t0 /\ sk t = sk t0 /\ (t_place t = Queued <-> t_place t0 = Queued).
Proof.
  intros H. destruct a as [n|j]; [cbn; eauto using iff_refl|]. cbn [set_frame s_tasks]. rewrite nth_place. destruct (Nat.eq_dec i j) as [->|]; [|eauto using iff_refl].
  cbn in H. destruct (nth_error (s_tasks s) j) as [[b c w p]|]; [|discriminate]. cbn. intros Q. injection Q as <-. eexists. split; [reflexivity|]. split; [reflexivity|].
  cbn. destruct p; try congruence. split; discriminate.
Qed.
Lemma program_K programs s a : program_of programs s a = match a with User n => nth_error programs n | Task i => option_map (fun x => w_inner (snd x)) (nth_error (K_of s) i) end.
Proof. destruct a; [reflexivity|]. unfold program_of, K_of. rewrite nth_error_map. destruct (nth_error (s_tasks s) i); reflexivity. Qed.
Lemma more_refl D : more D D.
Proof. intros i b H. exact H. Qed.

(** A step of an agent that submits nothing *)
Lemma agent_step programs s a f f' p lk : inv programs s -> frame_of s a = Some f -> program_of programs s a = Some p ->
  frame_ok p a (K_of s) (is_done s) f' ->
  (forall b, lk = Some b -> (b = a /\ exists d, f_now f' = Some d /\ d_locked d = true) \/ (b <> a /\ s_lock s = Some b)) ->
  inv programs (set_frame a f' (set_lock lk s)).
Proof.
  intros (A & B & C & L) F P O LK.
  assert (F1 : frame_of (set_lock lk s) a <> None) by (destruct a; cbn in F |- *; congruence).
  assert (FR : forall b, frame_of (set_frame a f' (set_lock lk s)) b = if agent_dec b a then Some f' else frame_of s b) by (intros b; rewrite frame_set by exact F1; destruct b; reflexivity).
  split; [|split; [|split]].
  - intros b g G. rewrite FR in G. rewrite program_K, set_frame_K. change (K_of (set_lock lk s)) with (K_of s). rewrite <- program_K.
    assert (X : exists p', program_of programs s b = Some p' /\ frame_ok p' b (K_of s) (is_done s) g).
    { destruct (agent_dec b a) as [->|]; [|eauto]. injection G as <-. eauto. }
    destruct X as (p' & P' & O'). exists p'. split; [exact P'|]. eapply frame_ok_more; [|exact O']. intros i r R. rewrite set_frame_done by exact F1. exact R.
  - intros i t T. apply set_frame_task in T; [|exact F1]. destruct T as (t0 & T & S & Q). rewrite set_frame_next, set_frame_users. cbn [set_lock s_next s_users].
    destruct (B i t0 T) as [B1 B2]. unfold sk in S. injection S as -> _ _. rewrite Q. auto.
  - rewrite set_frame_next. cbn [set_lock s_next]. replace (length (s_tasks (set_frame a f' (set_lock lk s)))) with (length (s_tasks s)); [exact C|].
    destruct a; cbn; rewrite ?set_place_length; reflexivity.
  - rewrite set_frame_lock. cbn [set_lock s_lock]. intros b E. rewrite FR. destruct (LK b E) as [(-> & d & N & Q)|(N & E')].
    + destruct (agent_dec a a); [|congruence]. exists f', d. auto.
    + destruct (agent_dec b a); [congruence|]. apply L, E'.
Qed.
(** The one that submits *)
Lemma submit_step programs s a r l w ws is o p : inv programs s -> frame_of s a = Some (Frame r (Some (Doing l (w :: ws) is)) o) -> program_of programs s a = Some p ->
  inv programs (set_frame a (Frame r (Some (Doing l ws (is ++ [length (s_tasks s)]))) o) (add_task (TaskOf a (length o) w Queued) s)).
Proof.
  intros (A & B & C & L) F P. set (x := TaskOf a (length o) w Queued). set (f' := Frame _ _ _).
  assert (FA : forall b, frame_of (add_task x s) b = frame_of s b).
  { intros [n|i]; [reflexivity|]. cbn [frame_of add_task s_tasks]. destruct (le_lt_dec (length (s_tasks s)) i) as [H|H].
    - rewrite nth_error_app2 by exact H. replace (nth_error (s_tasks s) i) with (@None task) by (symmetry; now apply nth_error_None).
      destruct (i - length (s_tasks s)) as [|[|]]; reflexivity.
    - now rewrite nth_error_app1. }
  assert (F1 : frame_of (add_task x s) a <> None) by (rewrite FA; congruence).
  assert (KA : K_of (add_task x s) = K_of s ++ [(a, length o, w)]) by (unfold K_of; cbn; now rewrite map_app).
  assert (DA : forall i, is_done (add_task x s) i = is_done s i).
  { intros i. unfold is_done. cbn [add_task s_tasks]. destruct (le_lt_dec (length (s_tasks s)) i) as [H|H].
    - rewrite nth_error_app2 by exact H. replace (nth_error (s_tasks s) i) with (@None task) by (symmetry; now apply nth_error_None).
      destruct (i - length (s_tasks s)) as [|[|]]; reflexivity.
    - now rewrite nth_error_app1. }
  assert (LK : length (K_of s) = length (s_tasks s)) by apply map_length.
  assert (PA : forall b q, program_of programs s b = Some q -> program_of programs (add_task x s) b = Some q).
  { intros b q. rewrite !program_K, KA. destruct b as [n|i]; [auto|]. intros Q. destruct (nth_error (K_of s) i) eqn:E; [|discriminate]. rewrite nth_error_app1; [now rewrite E|]. apply nth_error_Some. congruence. }
  split; [|split; [|split]].
  - intros b g G. rewrite frame_set in G by exact F1. rewrite FA in G.
    assert (X : exists p', program_of programs s b = Some p' /\ frame_ok p' b (K_of s ++ [(a, length o, w)]) (is_done s) g).
    { destruct (agent_dec b a) as [->|N].
      - injection G as <-. exists p. split; [exact P|]. destruct (A _ _ F) as (p' & P' & O). rewrite P in P'. injection P' as <-.
        destruct O as (O1 & O2 & O3). cbn [f_out f_now f_rest d_locked d_submit d_await] in O1, O2, O3. destruct O3 as (E & R & old & I & Fo).
        assert (I' : forall c, ids (K_of s ++ [(a, length o, w)]) a c = ids (K_of s) a c ++ (if length o =? c then [length (s_tasks s)] else [])).
        { intros c. rewrite ids_app, LK. f_equal. unfold mine. cbn. destruct (agent_dec a a); [reflexivity|congruence]. }
        assert (W : forall c, works (K_of s ++ [(a, length o, w)]) (ids (K_of s) a c) = works (K_of s) (ids (K_of s) a c)) by (intros c; apply works_app; intros i; apply ids_lt).
        split; [|split]; cbn [f_out f_now f_rest f' d_locked d_submit d_await].
        + intros c Hc. rewrite I'. destruct (Nat.eqb_spec (length o) c); [lia|]. rewrite app_nil_r, W. auto.
        + intros c Hc. rewrite I', (O2 c Hc). destruct (Nat.eqb_spec (length o) c); [lia|reflexivity].
        + rewrite I', Nat.eqb_refl, works_cat, W. replace (works (K_of s ++ [(a, length o, w)]) [length (s_tasks s)]) with [w].
          * rewrite <- app_assoc. split; [exact E|]. split; [exact R|]. exists old. split; [rewrite I, app_assoc; reflexivity|exact Fo].
          * cbn. rewrite nth_error_app2 by lia. now rewrite LK, Nat.sub_diag.
      - destruct (A _ _ G) as (p' & P' & O). exists p'. split; [exact P'|]. apply frame_ok_app; [cbn; congruence|exact O]. }
    destruct X as (p' & P' & O). exists p'. rewrite program_K, set_frame_K, <- program_K. split; [now apply PA|]. rewrite KA. eapply frame_ok_more; [|exact O].
    intros i z Z. rewrite set_frame_done by exact F1. now rewrite DA.
  - intros i t T. apply set_frame_task in T; [|exact F1]. destruct T as (t0 & T & S & Q). rewrite set_frame_next, set_frame_users. cbn [add_task s_next s_users].
    unfold sk in S. injection S as -> _ _. rewrite Q. cbn [add_task s_tasks] in T. destruct (le_lt_dec (length (s_tasks s)) i) as [H|H].
    + rewrite nth_error_app2 in T by exact H. destruct (i - length (s_tasks s)) as [|k] eqn:D; [|destruct k; discriminate]. injection T as <-. cbn [t_place t_by x].
      split; [split; [intros _; lia|reflexivity]|]. destruct a as [n|j].
      * cbn in F. apply nth_error_Some. congruence.
      * apply running_frame in F. destruct F as (u & E & R). destruct (B j u E) as [[_ B1] _]. assert (j < length (s_tasks s)) by (apply nth_error_Some; congruence).
        destruct (le_lt_dec (s_next s) j) as [G|G]; [rewrite (B1 G) in R; discriminate|lia].
    + rewrite nth_error_app1 in T by exact H. apply (B i t0 T).
  - rewrite set_frame_next. cbn [add_task s_next]. replace (length (s_tasks (set_frame a f' (add_task x s)))) with (S (length (s_tasks s))); [lia|].
    destruct a; cbn; rewrite ?set_place_length, app_length; cbn; lia.
  - rewrite set_frame_lock. cbn [add_task s_lock]. intros b E. rewrite frame_set by exact F1. destruct (L b E) as (f & d & Fb & N & Q).
    destruct (agent_dec b a) as [->|]; [|rewrite FA; eauto]. rewrite F in Fb. injection Fb as <-. cbn in N. injection N as <-. cbn in Q. subst l.
    exists f'. eexists. split; [reflexivity|]. split; reflexivity.
Qed.

Lemma inv_start programs : inv programs (start programs).
Proof.
  split; [|split; [|split]].
  - intros [n|i] f F; cbn in F; [|destruct i; discriminate]. rewrite nth_error_map in F. cbn. destruct (nth_error programs n) as [p|]; [|discriminate]. injection F as <-.
    exists p. split; [reflexivity|]. split; [|split]; cbn; [lia|reflexivity|]. split; [reflexivity|]. split; [lia|reflexivity].
  - intros [|i] t T; discriminate.
  - cbn. lia.
  - intros a E. discriminate.
Qed.
Lemma skipn_cons {A} m (p : list A) x r : x :: r = skipn m p -> nth_error p m = Some x /\ r = skipn (S m) p /\ S m <= length p.
Proof.
  revert p. induction m as [|m IH]; intros [|y p] H; cbn [skipn nth_error length] in *; try discriminate.
  - injection H as -> ->. split; [reflexivity|]. split; [reflexivity|lia].
  - apply IH in H. destruct H as (E & R & L). split; [exact E|]. split; [exact R|lia].
Qed.
Lemma nth_last {A} (l : list A) x c y : nth_error (l ++ [x]) c = Some y -> (c < length l /\ nth_error l c = Some y) \/ (c = length l /\ y = x).
Proof.
  intros H. destruct (le_lt_dec (length l) c) as [G|G]; [|rewrite nth_error_app1 in H by exact G; auto]. rewrite nth_error_app2 in H by exact G.
  destruct (c - length l) as [|k] eqn:D; [|destruct k; discriminate]. injection H as <-. right. split; [lia|reflexivity].
Qed.
(** A call ends. *)
Lemma ends_ok p a K D r l ws is o (b : bool) : frame_ok p a K D (Frame r (Some (Doing l ws is)) o) -> ws = [] ->
  (if b then exists i is', is = i :: is' /\ D i = Some true else is = []) -> frame_ok p a K D (Frame r None (o ++ [b])).
Proof.
  intros (A & B & E & R & old & I & F) -> H. cbn [f_out f_now f_rest d_locked d_submit d_await] in *. rewrite app_nil_r in E.
  split; [|split]; cbn [f_out f_now f_rest]; rewrite app_length; cbn [length].
  - intros c Hc. destruct (Nat.eq_dec c (length o)) as [->|N].
    + do 2 eexists. split; [exact E|]. split; [reflexivity|]. rewrite nth_error_app2, Nat.sub_diag by lia. cbn [nth_error].
      destruct b.
      * destruct H as (i & is' & -> & Di). rewrite I. apply Exists_exists. exists i. split; [apply in_or_app; right; now left|exact Di].
      * subst is. rewrite I, app_nil_r. exact F.
    + destruct (A c) as (l' & ws' & E' & W & O); [lia|]. exists l', ws'. split; [exact E'|]. split; [exact W|]. rewrite nth_error_app1 by lia. exact O.
  - intros c Hc. apply B. lia.
  - rewrite Nat.add_1_r. split; [exact R|]. split; [apply nth_error_Some; congruence|]. apply B. lia.
Qed.
Lemma set_lock_same s : set_lock (s_lock s) s = s.
Proof. destruct s; reflexivity. Qed.
Lemma inv_step programs k s s' : inv programs s -> step k s s' -> inv programs s'.
Proof.
  intros I H. pose proof I as (A & B & C & L). inversion H; subst; clear H.
  - destruct (A _ _ H0) as (p & P & O). pose proof O as (O1 & O2 & O3). cbn [f_out f_now f_rest] in *. destruct O3 as (R & Lm & Z).
    apply skipn_cons in R. destruct R as (E & R & Lm').
    assert (X : frame_ok p a (K_of s) (is_done s) (Frame r (Some (Doing l ws [])) o)).
    { split; [exact O1|]. split; [exact O2|]. cbn [f_out f_now f_rest d_locked d_submit d_await]. rewrite Z. split; [exact E|]. split; [exact R|]. exists []. split; [reflexivity|constructor]. }
    destruct l.
    + eapply agent_step; eauto. intros b Q. injection Q as <-. left. split; [reflexivity|]. cbn. eauto.
    + rewrite <- (set_lock_same s) at 1. eapply agent_step; eauto. intros b Q. right. split; [|exact Q]. intros ->. destruct (L _ Q) as (f & d & Fa & N & _).
      rewrite H0 in Fa. injection Fa as <-. discriminate.
  - destruct (A _ _ H0) as (p & P & O). eapply submit_step; eauto.
  - destruct (A _ _ H0) as (p & P & O). pose proof O as (O1 & O2 & O3). cbn [f_out f_now f_rest d_locked d_submit d_await] in *. destruct O3 as (E & R & old & Q & F).
    assert (X : frame_ok p a (K_of s) (is_done s) (Frame r (Some (Doing l [] is)) o)).
    { split; [exact O1|]. split; [exact O2|]. cbn [f_out f_now f_rest d_locked d_submit d_await]. split; [exact E|]. split; [exact R|]. exists (old ++ [i]). split; [rewrite Q, <- app_assoc; reflexivity|].
      apply Forall_app. split; [exact F|]. now repeat constructor. }
    rewrite <- (set_lock_same s) at 1. eapply agent_step; eauto. intros b Eb. destruct (agent_dec b a) as [->|N]; [|auto]. left. split; [reflexivity|].
    destruct (L _ Eb) as (f & d & Fa & Nd & Ld). rewrite H0 in Fa. injection Fa as <-. cbn in Nd. injection Nd as <-. cbn in *. subst. eauto.
  - destruct (A _ _ H0) as (p & P & O). assert (X : frame_ok p a (K_of s) (is_done s) (Frame r None (o ++ [true]))) by (eapply ends_ok; eauto).
    destruct l.
    + eapply agent_step; eauto. discriminate.
    + rewrite <- (set_lock_same s) at 1. eapply agent_step; eauto. intros b Q. right. split; [|exact Q]. intros ->. destruct (L _ Q) as (f & d & Fa & N & Ld).
      rewrite H0 in Fa. injection Fa as <-. cbn in N. injection N as <-. discriminate.
  - destruct (A _ _ H0) as (p & P & O). assert (X : frame_ok p a (K_of s) (is_done s) (Frame r None (o ++ [false]))) by (eapply ends_ok; eauto; reflexivity).
    destruct l.
    + eapply agent_step; eauto. discriminate.
    + rewrite <- (set_lock_same s) at 1. eapply agent_step; eauto. intros b Q. right. split; [|exact Q]. intros ->. destruct (L _ Q) as (f & d & Fa & N & Ld).
      rewrite H0 in Fa. injection Fa as <-. cbn in N. injection N as <-. discriminate.
  - (* a task begins *)
    set (n := s_next s) in *. set (s1 := St _ _ _ _).
    assert (Qt : t_place t = Queued) by (apply (proj1 (B n t H0)); lia).
    assert (K1 : K_of s1 = K_of s) by apply set_place_sk.
    assert (D1 : more (is_done s) (is_done s1)).
    { intros i b Db. apply done_spec in Db. destruct Db as (u & E & Pu & Ru). apply done_spec. exists u. split; [|auto]. cbn [s1 s_tasks]. rewrite nth_place.
      destruct (Nat.eq_dec i n) as [->|]; [congruence|exact E]. }
    assert (F1 : forall a f, frame_of s1 a = Some f -> (a = Task n /\ f = begin_frame (w_inner (t_work t))) \/ (a <> Task n /\ frame_of s a = Some f)).
    { intros [m|i] f; [right; split; [discriminate|exact H]|]. intros F. apply running_frame in F. destruct F as (u & E & Pu). cbn [s1 s_tasks] in E. rewrite nth_place in E.
      destruct (Nat.eq_dec i n) as [->|N]; [|right; split; [congruence|apply running_frame; eauto]]. rewrite H0 in E. cbn in E. injection E as <-. cbn in Pu. injection Pu as <-. auto. }
    split; [|split; [|split]].
    + intros a f F. rewrite program_K, K1, <- program_K. destruct (F1 a f F) as [(-> & ->)|(N & F0)].
      * exists (w_inner (t_work t)). cbn [program_of]. rewrite H0. split; [reflexivity|].
        assert (Z : forall c, ids (K_of s) (Task n) c = []).
        { intros c. destruct (ids (K_of s) (Task n) c) as [|i l] eqn:E; [reflexivity|]. exfalso. assert (In i (ids (K_of s) (Task n) c)) as J by (rewrite E; now left).
          apply ids_in in J. destruct J as (x & Ex & M). apply mine_true in M. unfold K_of in Ex. rewrite nth_error_map in Ex. destruct (nth_error (s_tasks s) i) as [u|] eqn:Eu; [|discriminate].
          injection Ex as <-. cbn in M. destruct (B i u Eu) as [_ Bu]. rewrite (proj1 M) in Bu. lia. }
        split; [|split]; cbn; [lia|auto|]. split; [reflexivity|]. split; [lia|apply Z].
      * destruct (A _ _ F0) as (p & P & O). exists p. split; [exact P|]. eapply frame_ok_more; eauto.
    + intros i u E. cbn [s1 s_tasks s_next s_users] in *. rewrite nth_place in E. destruct (Nat.eq_dec i n) as [->|N].
      * rewrite H0 in E. cbn in E. injection E as <-. cbn. destruct (B n t H0) as [_ Bt]. split; [split; [discriminate|lia]|]. destruct (t_by t); [exact Bt|lia].
      * destruct (B i u E) as [B1 B2]. split; [rewrite B1; fold n; lia|]. destruct (t_by u); [exact B2|fold n in B2; lia].
    + cbn [s1 s_tasks s_next]. rewrite set_place_length. assert (n < length (s_tasks s)) by (apply nth_error_Some; congruence). lia.
    + cbn [s1 s_lock]. intros a E. destruct (L a E) as (f & d & F & Nd & Ld). exists f, d. split; [|auto]. destruct a as [m|i]; [exact F|]. apply running_frame in F. destruct F as (u & Eu & Pu).
      apply running_frame. exists u. split; [|exact Pu]. cbn [s1 s_tasks]. rewrite nth_place. destruct (Nat.eq_dec i n) as [->|]; [congruence|exact Eu].
  - (* a task ends *)
    set (s1 := St _ _ _ _). pose proof H0 as Fi. apply running_frame in H0. destruct H0 as (t & Et & Pt).
    assert (K1 : K_of s1 = K_of s) by apply set_place_sk.
    assert (D1 : more (is_done s) (is_done s1)).
    { intros j b Db. apply done_spec in Db. destruct Db as (u & E & Pu & Ru). apply done_spec. exists u. split; [|auto]. cbn [s1 s_tasks]. rewrite nth_place.
      destruct (Nat.eq_dec j i) as [->|]; [congruence|exact E]. }
    assert (F1 : forall a f, frame_of s1 a = Some f -> frame_of s a = Some f).
    { intros [m|j] f; [auto|]. intros F. apply running_frame in F. destruct F as (u & E & Pu). cbn [s1 s_tasks] in E. rewrite nth_place in E.
      destruct (Nat.eq_dec j i) as [->|N]; [|apply running_frame; eauto]. rewrite Et in E. cbn in E. injection E as <-. discriminate. }
    split; [|split; [|split]].
    + intros a f F. rewrite program_K, K1, <- program_K. destruct (A _ _ (F1 _ _ F)) as (p & P & O). exists p. split; [exact P|]. eapply frame_ok_more; eauto.
    + intros j u E. cbn [s1 s_tasks s_next s_users] in *. rewrite nth_place in E. destruct (Nat.eq_dec j i) as [->|N]; [|exact (B j u E)].
      rewrite Et in E. cbn in E. injection E as <-. cbn. destruct (B i t Et) as [B1 B2]. split; [|exact B2]. split; [discriminate|]. intros G. apply B1 in G. congruence.
    + cbn [s1 s_tasks s_next]. now rewrite set_place_length.
    + cbn [s1 s_lock]. intros a E. destruct (L a E) as (f & d & F & Nd & Ld). exists f, d. split; [|auto]. destruct a as [m|j]; [exact F|]. apply running_frame in F. destruct F as (u & Eu & Pu).
      apply running_frame. exists u. split; [|exact Pu]. cbn [s1 s_tasks]. rewrite nth_place. destruct (Nat.eq_dec j i) as [->|]; [|exact Eu]. exfalso. rewrite Et in Eu. injection Eu as <-. rewrite Pt in Pu. injection Pu as <-. discriminate.
Qed.
Lemma inv_reach programs k s0 s : reaches k s0 s -> inv programs s0 -> inv programs s.
Proof. induction 1; intros; [assumption|]. eapply inv_step; [|eassumption]. auto. Qed.

(** ** What all works have *)
Definition hereditary (P : work -> Prop) : Prop := forall w, P w -> Forall (fun c => match c with Call _ ws => Forall P ws end) (w_inner w).
Lemma works_have P programs k s s' : hereditary P -> Forall (Forall (fun c => match c with Call _ ws => Forall P ws end)) programs ->
  inv programs s -> step k s s' -> Forall (fun x => P (snd x)) (K_of s) -> Forall (fun x => P (snd x)) (K_of s').
Proof.
  intros H G (A & _) S F. inversion S; subst; try (rewrite set_frame_K; try destruct l; exact F); try (unfold K_of; cbn [s_tasks]; rewrite set_place_sk; exact F).
  rewrite set_frame_K. unfold K_of. cbn [add_task s_tasks]. rewrite map_app. apply Forall_app. split; [exact F|]. constructor; [|constructor]. cbn.
  destruct (A _ _ H0) as (p & Pp & _ & _ & E & _). cbn [f_out d_locked d_submit] in E.
  assert (X : Forall (fun c => match c with Call _ ws => Forall P ws end) p).
  { rewrite program_K in Pp. destruct a as [n|i].
    - rewrite Forall_forall in G. apply G. eapply nth_error_In; eauto.
    - destruct (nth_error (K_of s) i) as [x|] eqn:Ex; [|discriminate]. injection Pp as <-. apply H. rewrite Forall_forall in F. apply F. eapply nth_error_In; eauto. }
  rewrite Forall_forall in X. specialize (X _ (nth_error_In _ _ E)). cbn in X. apply Forall_app in X. destruct X as [_ X]. now inversion X.
Qed.
Lemma works_reach P programs k s : hereditary P -> Forall (Forall (fun c => match c with Call _ ws => Forall P ws end)) programs ->
  reaches k (start programs) s -> Forall (fun x => P (snd x)) (K_of s).
Proof.
  intros H G R. remember (start programs) as s0 eqn:E. induction R; subst; [constructor|]. eapply works_have; eauto. eapply inv_reach; eauto. apply inv_start.
Qed.
Lemma fold_and {A} (P : A -> Prop) l : fold_right and True (map P l) <-> Forall P l.
Proof. induction l as [|x l IH]; cbn; [split; constructor|]. rewrite IH. split; [intros [? ?]; now constructor|intros H; now inversion H]. Qed.
Lemma quiet_inner w : quiet w -> Forall (fun c => match c with Call l ws => l = false /\ Forall quiet ws end) (w_inner w).
Proof.
  destruct w as [r inner]. cbn. rewrite fold_and. apply Forall_impl. intros [l ws]. rewrite fold_and. auto.
Qed.
Lemma quiet_her : hereditary quiet.
Proof. intros w Q. apply quiet_inner in Q. revert Q. apply Forall_impl. intros [l ws]. tauto. Qed.
Lemma flat_quiet programs : flat programs -> all_quiet programs.
Proof.
  apply Forall_impl. intros p. apply Forall_impl. intros [l ws]. apply Forall_impl. intros [r inner] E. cbn in E. subst. exact I.
Qed.

(** ** Progress *)
(** In a call a thread goes on or waits for a task. *)
Lemma in_call k s a f d : frame_of s a = Some f -> f_now f = Some d ->
  (exists s', step k s s') \/ (exists i is, d_submit d = [] /\ d_await d = i :: is /\ is_done s i = None).
Proof.
  intros F N. destruct f as [r n o], d as [l sub aw]. cbn in *. subst n. destruct sub as [|w ws]; [|left; eexists; eapply p_submit; eauto].
  destruct aw as [|i is]; [left; eexists; eapply p_return; eauto|]. destruct (is_done s i) as [[|]|] eqn:D; [left; eexists; eapply p_raise; eauto|left; eexists; eapply p_await; eauto|].
  right. eauto.
Qed.
Lemma filter_split {A} (f g : A -> bool) l : length (filter (fun x => f x && g x) l) < length (filter f l) -> exists x, In x l /\ f x = true /\ g x = false.
Proof.
  induction l as [|x l IH]; cbn; [lia|]. destruct (f x) eqn:F; cbn.
  - destruct (g x) eqn:G; cbn; intros H; [|exists x; auto]. destruct IH as (y & I & H'); [lia|]. exists y. auto.
  - intros H. destruct (IH H) as (y & I & H'). exists y. auto.
Qed.
Lemma awaited programs s a f d i is : inv programs s -> frame_of s a = Some f -> f_now f = Some d -> d_await d = i :: is ->
  exists t, nth_error (s_tasks s) i = Some t /\ t_by t = a.
Proof.
  intros (A & _) F N E. destruct (A _ _ F) as (p & _ & _ & _ & O). rewrite N in O. destruct O as (_ & _ & old & I & _).
  assert (J : In i (ids (K_of s) a (length (f_out f)))) by (rewrite I, E; apply in_or_app; right; now left). apply ids_in in J. destruct J as (x & Ex & M). apply mine_true in M.
  unfold K_of in Ex. rewrite nth_error_map in Ex. destruct (nth_error (s_tasks s) i) as [t|]; [|discriminate]. injection Ex as <-. exists t. split; [reflexivity|apply M].
Qed.
Lemma not_done s i t : nth_error (s_tasks s) i = Some t -> is_done s i = None -> t_place t <> Done.
Proof. intros E D Q. assert (is_done s i = Some (w_raises (t_work t))) by (apply done_spec; eauto). congruence. Qed.
(** With an empty queue, where a task runs somebody can go on. *)
Lemma running_goes programs k s : inv programs s -> Forall (fun x => quiet (snd x)) (K_of s) -> s_next s = length (s_tasks s) ->
  forall n i f, length (s_tasks s) - i <= n -> frame_of s (Task i) = Some f -> exists s', step k s s'.
Proof.
  intros I Q E. induction n as [|n IH]; intros i f Hn F.
  - apply running_frame in F. destruct F as (t & Et & _). assert (i < length (s_tasks s)) by (apply nth_error_Some; congruence). lia.
  - destruct (f_now f) as [d|] eqn:N.
    + destruct (in_call k s _ _ _ F N) as [S|(j & is & _ & Aw & D)]; [exact S|]. destruct (awaited _ _ _ _ _ _ _ I F N Aw) as (t & Et & By).
      pose proof (not_done _ _ _ Et D) as ND. destruct I as (A & B & C & L). destruct (B j t Et) as [B1 B2]. rewrite By in B2.
      assert (Hj : j < length (s_tasks s)) by (apply nth_error_Some; congruence).
      destruct (t_place t) as [|g|] eqn:Pt; [assert (s_next s <= j) by (now apply B1); lia| |congruence].
      apply (IH j g); [lia|]. apply running_frame. eauto.
    + destruct f as [r nw o]. cbn in N. subst nw. destruct r as [|[l ws] r]; [eexists; eapply p_finish; eauto|].
      destruct I as (A & B & C & L). destruct (A _ _ F) as (p & P & _ & _ & R & _). cbn [f_rest f_out] in R. apply skipn_cons in R. destruct R as (R & _).
      rewrite program_K in P. destruct (nth_error (K_of s) i) as [x|] eqn:Ex; [|discriminate]. injection P as <-.
      rewrite Forall_forall in Q. pose proof (quiet_inner _ (Q x (nth_error_In _ _ Ex))) as Qi. rewrite Forall_forall in Qi. specialize (Qi _ (nth_error_In _ _ R)). destruct Qi as [-> _].
      eexists. eapply p_begin; eauto. discriminate.
Qed.
Lemma stuck_done programs k s : inv programs s -> Forall (fun x => quiet (snd x)) (K_of s) -> nesting s < k -> stuck k s -> all_returned s /\ Forall finished (s_tasks s).
Proof.
  intros I Q Hk St. pose proof I as (A & B & C & L).
  assert (E : s_next s = length (s_tasks s)).
  { destruct (le_lt_dec (length (s_tasks s)) (s_next s)) as [G|G]; [lia|]. exfalso. destruct (nth_error (s_tasks s) (s_next s)) as [t|] eqn:Et; [|apply nth_error_None in Et; lia].
    destruct (le_lt_dec k (at_work s)) as [W|W]; [|eapply St, p_take; eauto].
    destruct (filter_split is_running (fun t => match w_inner (t_work t) with [] => false | _ => true end) (s_tasks s)) as (u & Iu & Ru & Wu); [unfold nesting, at_work in *; lia|].
    apply In_nth_error in Iu. destruct Iu as [i Eu]. unfold is_running in Ru. destruct (t_place u) as [|f|] eqn:Pu; try discriminate.
    assert (F : frame_of s (Task i) = Some f) by (apply running_frame; eauto). destruct (A _ _ F) as (p & P & _ & _ & O). cbn in P. rewrite Eu in P. cbn in P.
    destruct (w_inner (t_work u)) eqn:Wi; [|discriminate]. injection P as <-. destruct f as [r nw o]. cbn [f_out f_now f_rest] in O. destruct nw as [d|].
    - destruct O as (O & _). destruct (length o); discriminate.
    - destruct O as (O & _). rewrite skipn_nil in O. subst r. eapply St, p_finish; eauto. }
  assert (D : Forall finished (s_tasks s)).
  { apply Forall_forall. intros t It. apply In_nth_error in It. destruct It as [i Et]. unfold finished. destruct (t_place t) as [|f|] eqn:Pt; [| |reflexivity]; exfalso.
    - assert (s_next s <= i) by (apply (proj1 (B i t Et)), Pt). assert (i < length (s_tasks s)) by (apply nth_error_Some; congruence). lia.
    - destruct (running_goes _ k _ I Q E (length (s_tasks s)) i f) as [s' S']; [lia|apply running_frame; eauto|]. eapply St; eauto. }
  split; [|exact D].
  assert (NC : forall a f d, frame_of s a = Some f -> f_now f = Some d -> False).
  { intros a f d F N. destruct (in_call k s _ _ _ F N) as [[s' S']|(j & is & _ & Aw & Dn)]; [eapply St; eauto|]. destruct (awaited _ _ _ _ _ _ _ I F N Aw) as (t & Et & _).
    apply (not_done _ _ _ Et Dn). rewrite Forall_forall in D. apply D. eapply nth_error_In; eauto. }
  apply Forall_forall. intros f If. apply In_nth_error in If. destruct If as [n F]. change (frame_of s (User n) = Some f) in F.
  destruct (f_now f) as [d|] eqn:N; [exfalso; eauto|]. split; [|reflexivity]. destruct f as [r nw o]. cbn in *. subst nw. destruct r as [|[l ws] r]; [reflexivity|]. exfalso.
  assert (X : l = true -> s_lock s = None).
  { intros _. destruct (s_lock s) as [b|] eqn:Lk; [|reflexivity]. destruct (L b eq_refl) as (g & d & G & Ng & _). exfalso. eauto. }
  eapply St, (p_begin k s (User n)); eauto.
Qed.

(** ** The end *)
Fixpoint wsize (w : work) : nat :=
  match w with Work _ inner => 2 + list_sum (map (fun c => match c with Call _ ws => 2 + list_sum (map (fun w => 2 + wsize w) ws) end) inner) end.
Definition csize (c : call) : nat := match c with Call _ ws => 2 + list_sum (map (fun w => 2 + wsize w) ws) end.
Lemma wsize_eq w : wsize w = 2 + list_sum (map csize (w_inner w)).
Proof. destruct w. reflexivity. Qed.
Definition fsize (f : frame) : nat :=
  list_sum (map csize (f_rest f)) + match f_now f with None => 0 | Some d => 1 + list_sum (map (fun w => 2 + wsize w) (d_submit d)) + length (d_await d) end.
Definition tsize (t : task) : nat := match t_place t with Queued => wsize (t_work t) | Running f => 1 + fsize f | Done => 0 end.
Definition size (s : state) : nat := list_sum (map fsize (s_users s)) + list_sum (map tsize (s_tasks s)).
Lemma list_sum_cons x l : list_sum (x :: l) = x + list_sum l.
Proof. reflexivity. Qed.
Lemma sum_set {A} (g : A -> nat) n x y l : nth_error l n = Some x -> list_sum (map g (set_nth n y l)) + g x = list_sum (map g l) + g y.
Proof.
  revert n. induction l as [|z l IH]; intros [|n] E; cbn [set_nth map nth_error] in *; try discriminate; rewrite !list_sum_cons; [injection E as ->; lia|].
  specialize (IH n E). lia.
Qed.
Lemma size_set s a f f' : frame_of s a = Some f -> size (set_frame a f' s) + fsize f = size s + fsize f'.
Proof.
  destruct a as [n|i]; intros F.
  - cbn in F. pose proof (sum_set fsize n f f' _ F). unfold size. cbn [set_frame s_users s_tasks]. lia.
  - apply running_frame in F. destruct F as (t & E & P). unfold size. cbn [set_frame s_users s_tasks]. unfold set_place. rewrite E.
    pose proof (sum_set tsize i t (with_place (Running f') t) _ E) as H. unfold tsize at 2 4 in H. rewrite P in H. cbn [with_place t_place] in H. lia.
Qed.
Lemma list_sum_snoc l x : list_sum (l ++ [x]) = list_sum l + x.
Proof. rewrite list_sum_app. cbn. lia. Qed.
Lemma step_size k s s' : (forall i t, nth_error (s_tasks s) i = Some t -> s_next s <= i -> t_place t = Queued) -> step k s s' -> size s' < size s.
Proof.
  intros B H. inversion H; subst; clear H.
  - assert (F : frame_of (if l then set_lock (Some a) s else s) a = Some (Frame (Call l ws :: r) None o)) by (destruct l, a; exact H0).
    pose proof (size_set _ _ _ (Frame r (Some (Doing l ws [])) o) F) as E. assert (size (if l then set_lock (Some a) s else s) = size s) as X by (destruct l; reflexivity). rewrite X in E.
    unfold fsize in E. cbn [f_rest f_now d_submit d_await map length csize] in E. rewrite ?list_sum_cons in E. cbn [csize] in E. lia.
  - assert (F : frame_of (add_task (TaskOf a (length o) w Queued) s) a = Some (Frame r (Some (Doing l (w :: ws) is)) o)).
    { destruct a as [n|i]; [exact H0|]. apply running_frame in H0. apply running_frame. destruct H0 as (t & E & P). exists t. split; [|exact P]. cbn. rewrite nth_error_app1; [exact E|]. apply nth_error_Some. congruence. }
    pose proof (size_set _ _ _ (Frame r (Some (Doing l ws (is ++ [length (s_tasks s)]))) o) F) as E.
    assert (size (add_task (TaskOf a (length o) w Queued) s) = size s + wsize w) as X by (unfold size; cbn [add_task s_users s_tasks]; rewrite map_app, list_sum_app; cbn [map]; rewrite list_sum_cons; unfold tsize at 2; cbn [t_place t_work]; change (list_sum []) with 0; lia). rewrite X in E.
    unfold fsize in E. cbn [f_rest f_now d_submit d_await map length csize] in E. rewrite ?list_sum_cons in E. cbn [csize] in E. rewrite app_length in E. cbn [length] in E. lia.
  - pose proof (size_set _ _ _ (Frame r (Some (Doing l [] is)) o) H0) as E. unfold fsize in E. cbn [f_rest f_now d_submit d_await map length csize] in E. rewrite ?list_sum_cons in E. cbn [csize] in E. lia.
  - assert (F : frame_of (if l then set_lock None s else s) a = Some (Frame r (Some (Doing l [] (i :: is))) o)) by (destruct l, a; exact H0).
    pose proof (size_set _ _ _ (Frame r None (o ++ [true])) F) as E. assert (size (if l then set_lock None s else s) = size s) as X by (destruct l; reflexivity). rewrite X in E.
    unfold fsize in E. cbn [f_rest f_now d_submit d_await map length csize] in E. rewrite ?list_sum_cons in E. cbn [csize] in E. lia.
  - assert (F : frame_of (if l then set_lock None s else s) a = Some (Frame r (Some (Doing l [] [])) o)) by (destruct l, a; exact H0).
    pose proof (size_set _ _ _ (Frame r None (o ++ [false])) F) as E. assert (size (if l then set_lock None s else s) = size s) as X by (destruct l; reflexivity). rewrite X in E.
    unfold fsize in E. cbn [f_rest f_now d_submit d_await map length csize] in E. rewrite ?list_sum_cons in E. cbn [csize] in E. lia.
  - assert (Q : t_place t = Queued) by (eapply B; eauto). unfold size. cbn [s_users s_tasks]. unfold set_place. rewrite H0.
    pose proof (sum_set tsize _ t (with_place (Running (begin_frame (w_inner (t_work t)))) t) _ H0) as E. unfold tsize at 2 4 in E. rewrite Q in E. cbn [with_place t_place] in E.
    rewrite wsize_eq in E. unfold fsize in E. cbn [begin_frame f_rest f_now] in E. lia.
  - apply running_frame in H0. destruct H0 as (t & E & P). unfold size. cbn [s_users s_tasks]. unfold set_place. rewrite E.
    pose proof (sum_set tsize _ t (with_place Done t) _ E) as X. unfold tsize at 2 4 in X. rewrite P in X. cbn [with_place t_place] in X. unfold fsize in X. cbn [f_rest f_now map] in X. change (list_sum []) with 0 in X. lia.
Qed.

(** ** The tasks of a call *)
Lemma tasks_ids l a c :
  filter (fun t => (if agent_dec (t_by t) a then true else false) && (t_call t =? c)) l
  = flat_map (fun i => match nth_error l i with Some t => [t] | None => [] end) (ids (map sk l) a c).
Proof.
  induction l as [|t l IH] using rev_ind; [reflexivity|].
  rewrite map_app, filter_app. cbn [map]. rewrite ids_app, flat_map_app, IH, map_length. f_equal.
  - assert (X : forall is, (forall i, In i is -> i < length l) -> flat_map (fun i => match nth_error l i with Some t => [t] | None => [] end) is
      = flat_map (fun i => match nth_error (l ++ [t]) i with Some t => [t] | None => [] end) is).
    { induction is as [|i is IHi]; intros H; cbn; [reflexivity|]. rewrite nth_error_app1 by (apply H; now left). rewrite IHi; [reflexivity|]. intros j J. apply H. now right. }
    apply X. intros i J. apply ids_lt in J. now rewrite map_length in J.
  - unfold mine, sk. cbn. destruct ((if agent_dec (t_by t) a then true else false) && (t_call t =? c)); [|reflexivity]. cbn. rewrite nth_error_app2, Nat.sub_diag by lia. reflexivity.
Qed.
Lemma works_tasks s a c : map t_work (tasks_of a c s) = works (K_of s) (ids (K_of s) a c).
Proof.
  unfold tasks_of. rewrite tasks_ids. fold (K_of s). unfold works. induction (ids (K_of s) a c) as [|i is IH]; cbn; [reflexivity|]. rewrite map_app, IH. f_equal.
  unfold K_of. rewrite nth_error_map. destruct (nth_error (s_tasks s) i); reflexivity.
Qed.
Lemma task_in s a c t : In t (tasks_of a c s) -> exists i, In i (ids (K_of s) a c) /\ nth_error (s_tasks s) i = Some t.
Proof.
  unfold tasks_of. rewrite tasks_ids. fold (K_of s). intros H. apply in_flat_map in H. destruct H as (i & I & H). destruct (nth_error (s_tasks s) i) as [u|] eqn:E; [|destruct H].
  destruct H as [<-|[]]. eauto.
Qed.
Lemma in_task s a c i t : In i (ids (K_of s) a c) -> nth_error (s_tasks s) i = Some t -> In t (tasks_of a c s).
Proof. intros I E. unfold tasks_of. rewrite tasks_ids. fold (K_of s). apply in_flat_map. exists i. rewrite E. split; [exact I|now left]. Qed.

(** ** A pool all of whose threads wait for tasks in the queue *)
Lemma count_le l : forall i, (forall j t, nth_error l j = Some t -> is_running t = true -> j < i) -> length (filter is_running l) <= i.
Proof.
  induction l as [|t l IH]; intros i H; cbn; [lia|]. destruct i as [|i].
  - replace (filter is_running l) with (@nil task).
    + destruct (is_running t) eqn:R; [specialize (H 0 t eq_refl R); lia|cbn; lia].
    + symmetry. assert (X : forall u, In u l -> is_running u = false). { intros u U. apply In_nth_error in U. destruct U as [j U]. destruct (is_running u) eqn:R; [|reflexivity]. specialize (H (S j) u U R). lia. }
      clear -X. induction l as [|u l IH]; cbn; [reflexivity|]. rewrite (X u) by now left. apply IH. intros v V. apply X. now right.
  - assert (length (filter is_running l) <= i) by (apply IH; intros j u U R; specialize (H (S j) u U R); lia). destruct (is_running t); cbn; lia.
Qed.
Lemma count_ge l : forall i, (forall j, j < i -> exists t, nth_error l j = Some t /\ is_running t = true) -> i <= length (filter is_running l).
Proof.
  induction l as [|t l IH]; intros i H.
  - destruct i; [cbn; lia|]. destruct (H 0) as (t & E & _); [lia|discriminate].
  - destruct i as [|i]; [lia|]. destruct (H 0) as (u & E & R); [lia|]. injection E as <-. cbn. rewrite R. cbn. assert (i <= length (filter is_running l)); [|lia].
    apply IH. intros j J. destruct (H (S j)) as (u & E & Ru); [lia|]. eauto.
Qed.
Definition leaf : work := Work false [].
Definition nest : work := Work false [Call false [leaf]].
Section Full.
Variable k : nat.
Definition user (m : nat) : frame := Frame [] (Some (Doing false (repeat nest (k - m)) (seq 0 m))) [].
Definition T (p : place) : task := TaskOf (User 0) 0 nest p.
Definition phase1 (m : nat) (s : state) : Prop :=
  s_users s = [user m] /\ s_tasks s = repeat (T Queued) m /\ s_next s = 0 /\ s_lock s = None.
Definition phase2 (i : nat) (s : state) : Prop :=
  s_users s = [user k] /\ length (s_tasks s) = k /\ s_next s = i /\ s_lock s = None
  /\ forall j, j < k -> nth_error (s_tasks s) j = Some (T (if j <? i then Running (begin_frame (w_inner nest)) else Queued)).
Definition phase3 (i : nat) (s : state) : Prop :=
  s_users s = [user k] /\ length (s_tasks s) = k + i /\ s_next s = k /\ s_lock s = None
  /\ (forall j, j < k -> nth_error (s_tasks s) j = Some (T (Running (if j <? i then Frame [] (Some (Doing false [] [k + j])) [] else begin_frame (w_inner nest)))))
  /\ forall j, k <= j -> j < k + i -> exists t, nth_error (s_tasks s) j = Some t /\ t_place t = Queued.
Definition programs : list (list call) := [[Call false (repeat nest k)]].
Lemma to1 m : m <= k -> exists s, reaches k (start programs) s /\ phase1 m s.
Proof.
  induction m as [|m IH]; intros H.
  - eexists. split; [eapply re_step; [apply re_here|]; apply (p_begin k (start programs) (User 0) false (repeat nest k) [] []); [reflexivity|discriminate]|].
    split; [|split; [|split]]; try reflexivity. cbn. unfold user. now rewrite Nat.sub_0_r.
  - destruct IH as (s & R & (U & Ts & N & L)); [lia|]. eexists. split.
    + eapply re_step; [exact R|]. apply (p_submit k s (User 0) false nest (repeat nest (k - S m)) (seq 0 m) [] []). cbn. rewrite U. cbn. unfold user. replace (k - m) with (S (k - S m)) by lia. reflexivity.
    + split; [|split; [|split]]; cbn; try assumption.
      * rewrite U, Ts, repeat_length. cbn. unfold user. now rewrite seq_S.
      * rewrite Ts. change (T Queued :: repeat (T Queued) m) with (repeat (T Queued) (S m)). replace (S m) with (m + 1) by lia. rewrite repeat_app. reflexivity.
Qed.
Lemma to2 i : i <= k -> exists s, reaches k (start programs) s /\ phase2 i s.
Proof.
  induction i as [|i IH]; intros H.
  - destruct (to1 k) as (s & R & (U & Ts & N & L)); [lia|]. exists s. split; [exact R|]. split; [exact U|]. split; [rewrite Ts; apply repeat_length|]. split; [exact N|]. split; [exact L|].
    intros j J. rewrite Ts. cbn. now apply nth_error_repeat.
  - destruct IH as (s & R & (U & Len & N & L & E)); [lia|]. eexists. split.
    + eapply re_step; [exact R|]. eapply p_take.
      * rewrite N. rewrite E by lia. reflexivity.
      * unfold at_work. apply Nat.le_lt_trans with i; [|lia]. apply count_le. intros j t Et Rt. destruct (le_lt_dec k j) as [G|G]; [assert (nth_error (s_tasks s) j = None) by (apply nth_error_None; lia); congruence|].
        rewrite E in Et by exact G. injection Et as <-. destruct (Nat.ltb_spec j i); [lia|discriminate].
    + split; [exact U|]. split; [cbn; now rewrite set_place_length|]. split; [cbn; lia|]. split; [exact L|]. intros j J. cbn [s_tasks]. rewrite nth_place, E by exact J. rewrite N.
      destruct (Nat.eq_dec j i) as [->|Nj].
      * destruct (Nat.ltb_spec i i), (Nat.ltb_spec i (S i)); try lia. reflexivity.
      * destruct (Nat.ltb_spec j i), (Nat.ltb_spec j (S i)); try lia; reflexivity.
Qed.
Lemma to3 i : i <= k -> exists s, reaches k (start programs) s /\ phase3 i s.
Proof.
  induction i as [|i IH]; intros H.
  - destruct (to2 k) as (s & R & (U & Len & N & L & E)); [lia|]. exists s. split; [exact R|]. split; [exact U|]. split; [lia|]. split; [exact N|]. split; [exact L|]. split; [|lia].
    intros j J. rewrite E by exact J. destruct (Nat.ltb_spec j k), (Nat.ltb_spec j 0); try lia; reflexivity.
  - destruct IH as (s & R & (U & Len & N & L & E & Q)); [lia|].
    assert (F : frame_of s (Task i) = Some (Frame [Call false [leaf]] None [])).
    { apply running_frame. eexists. split; [apply E; lia|]. destruct (Nat.ltb_spec i i); [lia|reflexivity]. }
    pose (s1 := set_frame (Task i) (Frame [] (Some (Doing false [leaf] [])) []) s).
    assert (R1 : reaches k (start programs) s1) by (eapply re_step; [exact R|]; apply (p_begin k s (Task i) false [leaf] [] []); [exact F|discriminate]).
    assert (F1 : frame_of s1 (Task i) = Some (Frame [] (Some (Doing false [leaf] [])) [])).
    { unfold s1. rewrite frame_set by congruence. destruct (agent_dec (Task i) (Task i)); congruence. }
    eexists. split; [eapply re_step; [exact R1|]; apply (p_submit k s1 (Task i) false leaf [] [] [] [] F1)|].
    assert (L1 : length (s_tasks s1) = k + i) by (cbn; now rewrite set_place_length).
    split; [exact U|]. split; [cbn; rewrite set_place_length, app_length, set_place_length; cbn; lia|]. split; [exact N|]. split; [exact L|]. split.
    + intros j J. cbn [set_frame add_task s_tasks]. rewrite nth_place, nth_error_app1 by (rewrite L1; lia). cbn [s1 set_frame s_tasks]. rewrite nth_place, (E j J). rewrite set_place_length, Len.
      destruct (Nat.eq_dec j i) as [->|Nj].
      * destruct (Nat.ltb_spec i i), (Nat.ltb_spec i (S i)); try lia. reflexivity.
      * destruct (Nat.ltb_spec j i), (Nat.ltb_spec j (S i)); try lia; reflexivity.
    + intros j J1 J2. cbn [set_frame add_task s_tasks]. rewrite nth_place. destruct (Nat.eq_dec j i) as [->|_]; [lia|]. destruct (Nat.eq_dec j (k + i)) as [->|Nj].
      * rewrite nth_error_app2 by (rewrite L1; lia). rewrite L1, Nat.sub_diag. eexists. split; reflexivity.
      * rewrite nth_error_app1 by (rewrite L1; lia). cbn [s1 set_frame s_tasks]. rewrite nth_place. destruct (Nat.eq_dec j i) as [->|_]; [lia|]. apply Q; lia.
Qed.
Lemma full_stuck : 0 < k -> exists s, reaches k (start programs) s /\ stuck k s /\ ~ all_returned s.
Proof.
  intros K. destruct (to3 k) as (s & R & (U & Len & N & L & E & Q)); [lia|]. exists s. split; [exact R|].
  assert (ND : forall i, is_done s i = None).
  { intros i. destruct (is_done s i) as [b|] eqn:D; [|reflexivity]. apply done_spec in D. destruct D as (t & Et & Pt & _). exfalso. destruct (le_lt_dec k i) as [G|G].
    - destruct (Q i G) as (u & Eu & Pu); [rewrite <- Len; apply nth_error_Some; congruence|]. congruence.
    - rewrite E in Et by exact G. injection Et as <-. discriminate. }
  assert (FR : forall a f, frame_of s a = Some f -> exists i is, f_now f = Some (Doing false [] (i :: is))).
  { intros [n|i] f F.
    - cbn in F. rewrite U in F. destruct n as [|n]; [|destruct n; discriminate]. injection F as <-. unfold user. cbn. rewrite Nat.sub_diag. destruct k as [|k']; [lia|]. cbn. eauto.
    - apply running_frame in F. destruct F as (t & Et & Pt). destruct (le_lt_dec k i) as [G|G].
      + destruct (Q i G) as (u & Eu & Pu); [rewrite <- Len; apply nth_error_Some; congruence|]. congruence.
      + rewrite E in Et by exact G. destruct (Nat.ltb_spec i k); [|lia]. injection Et as <-. cbn in Pt. injection Pt as <-. cbn. eauto. }
  split.
  - intros s' S. inversion S; subst; try (destruct (FR _ _ H) as (i' & is' & X); cbn in X; try discriminate; injection X; intros; subst; try discriminate; rewrite ND in H0; discriminate).
    assert (k <= at_work s); [|lia]. apply count_ge. intros j J. rewrite E by exact J. eexists. split; [reflexivity|]. reflexivity.
  - intros A. unfold all_returned in A. rewrite U in A. inversion A as [|x l [_ X] _]. discriminate X.
Qed.
End Full.
