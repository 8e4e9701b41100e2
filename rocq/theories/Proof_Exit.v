(** Proofs about the end of a program. *)
From Verif Require Export Spec_Exit.
From Coq Require Import Lia.
Local Open Scope nat_scope.

Lemma upd_nth {B} n (f : B -> B) l k : nth_error (upd n f l) k = if Nat.eqb k n then option_map f (nth_error l k) else nth_error l k.
Proof.
  unfold upd. destruct (nth_error l n) as [x|] eqn:E.
  - assert (Hn : n < length l) by (apply nth_error_Some; congruence).
    assert (Lf : length (firstn n l) = n) by (rewrite firstn_length; lia).
    destruct (Nat.eqb_spec k n) as [Q|Q].
    + subst. rewrite nth_error_app2, Lf, Nat.sub_diag by lia. cbn [nth_error]. rewrite E. reflexivity.
    + destruct (Nat.lt_ge_cases k n) as [L|L].
      * rewrite nth_error_app1 by lia. rewrite <- (firstn_skipn n l) at 2. rewrite nth_error_app1 by lia. reflexivity.
      * rewrite nth_error_app2 by lia. rewrite Lf. destruct (k - n) as [|j] eqn:Ej; [lia|]. cbn [nth_error].
        rewrite <- (firstn_skipn (S n) l) at 2. rewrite nth_error_app2 by (rewrite firstn_length; lia).
        rewrite firstn_length. f_equal. lia.
  - destruct (Nat.eqb_spec k n) as [Q|Q]; [subst; rewrite E|]; reflexivity.
Qed.
Lemma upd_length {B} n (f : B -> B) l : length (upd n f l) = length l.
Proof.
  unfold upd. destruct (nth_error l n) as [x|] eqn:E; [|reflexivity]. assert (Hn : n < length l) by (apply nth_error_Some; congruence).
  rewrite app_length, firstn_length. cbn [length]. rewrite skipn_length. lia.
Qed.

Section Proofs.
Context {A : Type}.
Notation world := (xworld A).
Implicit Types (w : world) (h : list (xev A)).

(** What operations on processors leave as it is. *)
Definition shape w : nat * list (list nat * bool) := (length (x_procs w), map (fun v => (xp_procs v, xp_concurrent v)) (x_provs w)).
Definition wf w : Prop :=
  (forall p v q, nth_error (x_provs w) p = Some v -> In q (xp_procs v) -> q < length (x_procs w))
  /\ (forall p p' v v' q, nth_error (x_provs w) p = Some v -> nth_error (x_provs w) p' = Some v' -> In q (xp_procs v) -> In q (xp_procs v') -> p = p')
  /\ (forall p v, nth_error (x_provs w) p = Some v -> NoDup (xp_procs v)).
Definition same_rest w w' : Prop := x_provs w' = x_provs w /\ x_atexit w' = x_atexit w /\ x_pools w' = x_pools w /\ length (x_procs w') = length (x_procs w)
  /\ forall q, option_map bp_raises (nth_error (x_procs w') q) = option_map bp_raises (nth_error (x_procs w) q).
Lemma same_refl w : same_rest w w. Proof. repeat split. Qed.
Lemma same_trans a b c : same_rest a b -> same_rest b c -> same_rest a c.
Proof. intros (A1 & A2 & A3 & A4 & A5) (B1 & B2 & B3 & B4 & B5). repeat split; congruence. Qed.
Definition keeps (f : bproc A -> bproc A) : Prop := forall b, bp_raises (f b) = bp_raises b.
Lemma keeps_end a : keeps (bp_end a). Proof. intros b. unfold bp_end. destruct (bp_done b); reflexivity. Qed.
Lemma keeps_work k : keeps (bp_work k). Proof. intros b. reflexivity. Qed.
Lemma keeps_shutdown : keeps bp_shutdown. Proof. intros b. reflexivity. Qed.
Lemma on_proc_nth q f w k : nth_error (x_procs (on_proc q f w)) k = if Nat.eqb k q then option_map f (nth_error (x_procs w) k) else nth_error (x_procs w) k.
Proof. apply upd_nth. Qed.
Lemma on_proc_same q f w : keeps f -> same_rest w (on_proc q f w).
Proof.
  intros K. split; [reflexivity|]. split; [reflexivity|]. split; [reflexivity|]. split; [apply upd_length|]. intros k. rewrite on_proc_nth.
  destruct (Nat.eqb k q); [|reflexivity]. destruct (nth_error (x_procs w) k) as [b|]; [|reflexivity]. cbn [option_map]. f_equal. apply K.
Qed.
Lemma each_same f l w : keeps f -> same_rest w (fold_left (fun w q => on_proc q f w) l w).
Proof.
  intros K. revert w. induction l as [|q l IH]; intros w; cbn [fold_left]; [apply same_refl|].
  eapply same_trans; [apply (on_proc_same q f), K|apply IH].
Qed.
Lemma each_out f l w k : ~ In k l -> nth_error (x_procs (fold_left (fun w q => on_proc q f w) l w)) k = nth_error (x_procs w) k.
Proof.
  revert w. induction l as [|q l IH]; intros w H; cbn [fold_left]; [reflexivity|]. cbn [In] in H. rewrite IH by tauto. rewrite on_proc_nth.
  destruct (Nat.eqb_spec k q) as [Q|Q]; [|reflexivity]. exfalso. apply H. left. congruence.
Qed.
Lemma each_in f l w k : NoDup l -> In k l ->
  nth_error (x_procs (fold_left (fun w q => on_proc q f w) l w)) k = option_map f (nth_error (x_procs w) k).
Proof.
  revert w. induction l as [|q l IH]; intros w N H; cbn [fold_left]; [destruct H|]. inversion N as [|? ? Nq Nl]; subst.
  destruct H as [->|H].
  - rewrite each_out by exact Nq. rewrite on_proc_nth, Nat.eqb_refl. reflexivity.
  - rewrite IH by assumption. rewrite on_proc_nth. destruct (Nat.eqb_spec k q) as [Q|Q]; [|reflexivity]. subst. contradiction.
Qed.
Lemma works_same l w : same_rest w (fold_left (fun w (qk : nat * nat) => on_proc (fst qk) (bp_work (snd qk)) w) l w).
Proof. revert w. induction l as [|q l IH]; intros w; cbn [fold_left]; [apply same_refl|]. eapply same_trans; [apply (on_proc_same (fst q)), keeps_work|apply IH]. Qed.

Lemma shut_each_same l w : same_rest w (fst (shut_each l w)).
Proof.
  revert w. induction l as [|q l IH]; intros w; cbn [shut_each]; [apply same_refl|].
  destruct (match nth_error (x_procs w) q with Some b => bp_raises b | None => false end); [apply on_proc_same, keeps_shutdown|].
  eapply same_trans; [apply (on_proc_same q bp_shutdown), keeps_shutdown|apply IH].
Qed.
Lemma shut_each_out l w k : ~ In k l -> nth_error (x_procs (fst (shut_each l w))) k = nth_error (x_procs w) k.
Proof.
  revert w. induction l as [|q l IH]; intros w H; cbn [shut_each]; [reflexivity|]. cbn [In] in H.
  assert (K : nth_error (x_procs (on_proc q bp_shutdown w)) k = nth_error (x_procs w) k).
  { rewrite on_proc_nth. destruct (Nat.eqb_spec k q) as [Q|Q]; [|reflexivity]. exfalso. apply H. left. congruence. }
  destruct (match nth_error (x_procs w) q with Some b => bp_raises b | None => false end); [exact K|]. rewrite IH by tauto. exact K.
Qed.
Lemma shut_each_ok l w : NoDup l -> (forall q b, In q l -> nth_error (x_procs w) q = Some b -> bp_raises b = false) ->
  shut_each l w = (fold_left (fun w q => on_proc q bp_shutdown w) l w, false).
Proof.
  revert w. induction l as [|q l IH]; intros w N H; cbn [shut_each fold_left]; [reflexivity|]. inversion N as [|? ? Nq Nl]; subst.
  replace (match nth_error (x_procs w) q with Some b => bp_raises b | None => false end) with false.
  2:{ destruct (nth_error (x_procs w) q) as [b|] eqn:E; [|reflexivity]. symmetry. apply (H q b); [now left|exact E]. }
  apply IH; [exact Nl|]. intros k b Hk. rewrite on_proc_nth. destruct (Nat.eqb_spec k q) as [Q|Q]; [subst; contradiction|].
  intros E. apply (H k b); [now right|exact E].
Qed.

(** end_span *)
Lemma end_same p a w : same_rest w (fst (end_span p a w)).
Proof.
  unfold end_span. destruct (nth_error (x_provs w) p) as [v|]; [|apply same_refl].
  destruct (xp_concurrent v && negb (x_pools w) && negb (match xp_procs v with [] => true | _ => false end)); [apply same_refl|apply each_same, keeps_end].
Qed.
Lemma end_out p a w q : (forall v, nth_error (x_provs w) p = Some v -> ~ In q (xp_procs v)) ->
  nth_error (x_procs (fst (end_span p a w))) q = nth_error (x_procs w) q.
Proof.
  intros H. unfold end_span. destruct (nth_error (x_provs w) p) as [v|] eqn:E; [|reflexivity].
  destruct (xp_concurrent v && negb (x_pools w) && negb (match xp_procs v with [] => true | _ => false end)); [reflexivity|].
  apply each_out, H. reflexivity.
Qed.
Lemma end_in p a w q v : nth_error (x_provs w) p = Some v -> In q (xp_procs v) -> NoDup (xp_procs v) -> xp_concurrent v = false ->
  end_span p a w = (fst (end_span p a w), false)
  /\ nth_error (x_procs (fst (end_span p a w))) q = option_map (bp_end a) (nth_error (x_procs w) q).
Proof. intros E H N C. unfold end_span. rewrite E, C. cbn [andb fst]. split; [reflexivity|]. apply each_in; assumption. Qed.
Lemma end_plain p a w : (forall v, nth_error (x_provs w) p = Some v -> xp_concurrent v = false) -> snd (end_span p a w) = false.
Proof. intros H. unfold end_span. destruct (nth_error (x_provs w) p) as [v|]; [|reflexivity]. rewrite (H v eq_refl). reflexivity. Qed.

(** shutdown *)
Lemma shutdown_shape p w : length (x_procs (fst (shutdown p w))) = length (x_procs w)
  /\ x_pools (fst (shutdown p w)) = x_pools w
  /\ (forall q, option_map bp_raises (nth_error (x_procs (fst (shutdown p w))) q) = option_map bp_raises (nth_error (x_procs w) q))
  /\ (forall k, option_map (fun v => (xp_procs v, xp_concurrent v)) (nth_error (x_provs (fst (shutdown p w))) k)
                = option_map (fun v => (xp_procs v, xp_concurrent v)) (nth_error (x_provs w) k))
  /\ (forall k, k <> p -> nth_error (x_provs (fst (shutdown p w))) k = nth_error (x_provs w) k)
  /\ (x_atexit (fst (shutdown p w)) = x_atexit w \/ x_atexit (fst (shutdown p w)) = filter (fun c => negb (is_shutdown_of p c)) (x_atexit w)).
Proof.
  unfold shutdown. destruct (nth_error (x_provs w) p) as [v|] eqn:E; [|repeat split; auto].
  set (r := if xp_concurrent v then _ else _).
  assert (S : same_rest w (fst r)).
  { unfold r. destruct (xp_concurrent v); [|apply shut_each_same].
    destruct (negb (x_pools w) && negb (match xp_procs v with [] => true | _ => false end)); [apply same_refl|apply each_same, keeps_shutdown]. }
  destruct r as [w1 raised]. cbn [fst] in S. destruct S as (S1 & S2 & S3 & S4 & S5).
  destruct raised; [cbn [fst]; rewrite S1, S2, S3, S4; repeat split; auto|].
  destruct (xp_handler v); [|cbn [fst]; rewrite S1, S2, S3, S4; repeat split; auto].
  cbn [fst x_procs x_provs x_atexit x_pools]. rewrite S1, S2, S3, S4. split; [reflexivity|]. split; [reflexivity|]. split; [exact S5|]. split; [|split; [|auto]].
  - intros k. rewrite upd_nth. destruct (Nat.eqb k p); [|reflexivity]. destruct (nth_error (x_provs w) k); reflexivity.
  - intros k Hk. rewrite upd_nth. destruct (Nat.eqb_spec k p); [contradiction|reflexivity].
Qed.
Lemma shutdown_out p w q : (forall v, nth_error (x_provs w) p = Some v -> ~ In q (xp_procs v)) ->
  nth_error (x_procs (fst (shutdown p w))) q = nth_error (x_procs w) q.
Proof.
  intros H. unfold shutdown. destruct (nth_error (x_provs w) p) as [v|] eqn:E; [|reflexivity]. specialize (H v eq_refl).
  set (r := if xp_concurrent v then _ else _).
  assert (S : nth_error (x_procs (fst r)) q = nth_error (x_procs w) q).
  { unfold r. destruct (xp_concurrent v); [|apply shut_each_out, H].
    destruct (negb (x_pools w) && negb (match xp_procs v with [] => true | _ => false end)); [reflexivity|apply each_out, H]. }
  destruct r as [w1 raised]. cbn [fst] in S. destruct raised; [exact S|]. destruct (xp_handler v); exact S.
Qed.
Lemma shutdown_in p w q v : nth_error (x_provs w) p = Some v -> xp_concurrent v = false -> NoDup (xp_procs v) -> In q (xp_procs v) ->
  (forall q b, In q (xp_procs v) -> nth_error (x_procs w) q = Some b -> bp_raises b = false) ->
  nth_error (x_procs (fst (shutdown p w))) q = option_map bp_shutdown (nth_error (x_procs w) q)
  /\ (xp_handler v = true -> x_atexit (fst (shutdown p w)) = filter (fun c => negb (is_shutdown_of p c)) (x_atexit w)).
Proof.
  intros E C N H R. unfold shutdown. rewrite E, C, (shut_each_ok _ _ N R).
  assert (K : nth_error (x_procs (fold_left (fun w q => on_proc q bp_shutdown w) (xp_procs v) w)) q = option_map bp_shutdown (nth_error (x_procs w) q))
    by (apply each_in; assumption).
  destruct (each_same bp_shutdown (xp_procs v) w keeps_shutdown) as (S1 & S2 & S3 & S4 & _).
  destruct (xp_handler v); cbn [fst x_procs x_atexit]; [rewrite S2|]; split; auto; discriminate.
Qed.

(** ** Well-formed worlds *)
Definition wf_kept w w' : Prop := length (x_procs w') = length (x_procs w)
  /\ forall k, option_map (fun v => (xp_procs v, xp_concurrent v)) (nth_error (x_provs w') k)
             = option_map (fun v => (xp_procs v, xp_concurrent v)) (nth_error (x_provs w) k).
Lemma wf_kept_prov w w' k v' : wf_kept w w' -> nth_error (x_provs w') k = Some v' ->
  exists v, nth_error (x_provs w) k = Some v /\ xp_procs v' = xp_procs v /\ xp_concurrent v' = xp_concurrent v.
Proof.
  intros [_ H] E. specialize (H k). rewrite E in H. cbn [option_map] in H. destruct (nth_error (x_provs w) k) as [v|]; [|discriminate].
  cbn [option_map] in H. injection H as H1 H2. eauto.
Qed.
Lemma wf_kept_wf w w' : wf_kept w w' -> wf w -> wf w'.
Proof.
  intros K (W1 & W2 & W3). destruct K as [L K0]. pose proof (conj L K0 : wf_kept w w') as K. split; [|split].
  - intros p v q E H. destruct (wf_kept_prov _ _ _ _ K E) as (v0 & E0 & P0 & _). rewrite L. rewrite P0 in H. eapply W1; eauto.
  - intros p p' v v' q E E' H H'. destruct (wf_kept_prov _ _ _ _ K E) as (v0 & E0 & P0 & _). destruct (wf_kept_prov _ _ _ _ K E') as (v1 & E1 & P1 & _).
    rewrite P0 in H. rewrite P1 in H'. eapply W2; eauto.
  - intros p v E. destruct (wf_kept_prov _ _ _ _ K E) as (v0 & E0 & P0 & _). rewrite P0. eapply W3; eauto.
Qed.
Lemma same_wf_kept w w' : same_rest w w' -> wf_kept w w'.
Proof. intros (S1 & _ & _ & S4 & _). split; [exact S4|]. intros k. rewrite S1. reflexivity. Qed.
Lemma shutdown_wf_kept p w : wf_kept w (fst (shutdown p w)).
Proof. destruct (shutdown_shape p w) as (S1 & _ & _ & S4 & _). split; assumption. Qed.

Lemma xrun_snoc h e w : xrun (h ++ [e]) w = xstep (xrun h w) e.
Proof. unfold xrun. rewrite fold_left_app. reflexivity. Qed.
Lemma nth_snoc {B} (l : list B) x k : nth_error (l ++ [x]) k = if Nat.eqb k (length l) then Some x else nth_error l k.
Proof.
  destruct (Nat.eqb_spec k (length l)) as [->|H]; [rewrite nth_error_app2, Nat.sub_diag by lia; reflexivity|].
  destruct (Nat.lt_ge_cases k (length l)); [rewrite nth_error_app1 by lia; reflexivity|].
  rewrite (proj2 (nth_error_None _ _)) by (rewrite app_length; cbn [length]; lia). symmetry. apply nth_error_None. lia.
Qed.
Lemma wf_step w e : wf w -> wf (xstep w e).
Proof.
  intros W. destruct e as [c x|p r|p a|q k|p|body]; cbn [xstep].
  - destruct W as (W1 & W2 & W3). split; [|split]; cbn [x_provs x_procs].
    + intros p v q. rewrite nth_snoc. destruct (Nat.eqb p (length (x_provs w))); [intros E; injection E as <-; intros []|apply W1].
    + intros p p' v v' q. rewrite !nth_snoc. destruct (Nat.eqb p (length (x_provs w))); [intros E; injection E as <-; intros ? []|].
      destruct (Nat.eqb p' (length (x_provs w))); [intros ? E; injection E as <-; intros ? []|apply W2].
    + intros p v. rewrite nth_snoc. destruct (Nat.eqb p (length (x_provs w))); [intros E; injection E as <-; constructor|apply W3].
  - destruct W as (W1 & W2 & W3). set (n := length (x_procs w)).
    assert (U : forall k v, nth_error (upd p (fun v => XP (xp_procs v ++ [n]) (xp_concurrent v) (xp_handler v)) (x_provs w)) k = Some v ->
      exists v0, nth_error (x_provs w) k = Some v0 /\ (xp_procs v = xp_procs v0 \/ (k = p /\ xp_procs v = xp_procs v0 ++ [n]))).
    { intros k v. rewrite upd_nth. destruct (Nat.eqb_spec k p) as [Q|Q]; [|intros E; eauto]. subst k.
      destruct (nth_error (x_provs w) p) as [v0|]; [|discriminate]. cbn [option_map]. intros E. injection E as <-. eauto. }
    split; [|split]; cbn [x_provs x_procs].
    + intros k v q E H. rewrite app_length. cbn [length]. destruct (U _ _ E) as (v0 & E0 & [Q|[_ Q]]); [rewrite Q in H; apply (W1 k v0 q E0) in H; lia|].
      rewrite Q in H. apply in_app_iff in H as [H|[<-|[]]]; [apply (W1 k v0 q E0) in H; lia|unfold n; lia].
    + intros k k' v v' q E E' H H'. destruct (U _ _ E) as (v0 & E0 & C). destruct (U _ _ E') as (v1 & E1 & C1).
      assert (D : (In q (xp_procs v0) \/ (k = p /\ q = n)) /\ (In q (xp_procs v1) \/ (k' = p /\ q = n))).
      { split; [destruct C as [C|[-> C]]|destruct C1 as [C1|[-> C1]]]; rewrite ?C, ?C1 in *; auto.
        - apply in_app_iff in H as [H|[<-|[]]]; auto.
        - apply in_app_iff in H' as [H'|[<-|[]]]; auto. }
      destruct D as [[D|[D1 D2]] [F|[F1 F2]]]; try congruence.
      * eapply W2; eauto.
      * exfalso. apply (W1 k v0 q E0) in D. unfold n in F2. lia.
      * exfalso. apply (W1 k' v1 q E1) in F. unfold n in D2. lia.
    + intros k v E. destruct (U _ _ E) as (v0 & E0 & [->|[_ Q]]); [eapply W3; eauto|]. rewrite Q.
      assert (Nn : ~ In n (xp_procs v0)) by (intros H; apply (W1 k v0 n E0) in H; unfold n in H; lia).
      specialize (W3 k v0 E0). clear - Nn W3. induction (xp_procs v0) as [|y l IH]; cbn [app]; [constructor; [intros []|constructor]|].
      inversion W3; subst. cbn [In] in Nn. constructor; [rewrite in_app_iff; cbn; intuition congruence|apply IH; tauto].
  - eapply wf_kept_wf; [|exact W]. apply same_wf_kept, end_same.
  - eapply wf_kept_wf; [|exact W]. apply same_wf_kept, on_proc_same, keeps_work.
  - eapply wf_kept_wf; [|exact W]. apply shutdown_wf_kept.
  - exact W.
Qed.
Lemma wf_init : wf x_init.
Proof.
  split; [|split]; cbn [x_init x_provs].
  - intros p v q H. destruct p; discriminate.
  - intros p p' v v' q H. destruct p; discriminate.
  - intros p v H. destruct p; discriminate.
Qed.
Lemma wf_run h : wf (xrun h x_init).
Proof. induction h as [|e h IH] using rev_ind; [apply wf_init|]. rewrite xrun_snoc. apply wf_step, IH. Qed.

(** ** Counting *)
Lemma end_lengths p a w : length (x_provs (fst (end_span p a w))) = length (x_provs w) /\ length (x_procs (fst (end_span p a w))) = length (x_procs w).
Proof. destruct (end_same p a w) as (S1 & _ & _ & S4 & _). rewrite S1. auto. Qed.
Lemma kept_provs w w' : wf_kept w w' -> length (x_provs w') = length (x_provs w).
Proof.
  intros [_ H]. apply Nat.le_antisymm.
  - apply Nat.nlt_ge. intros L. apply nth_error_Some in L. apply L. specialize (H (length (x_provs w))).
    rewrite (proj2 (nth_error_None (x_provs w) _)) in H by lia. cbn [option_map] in H. destruct (nth_error (x_provs w') _); [discriminate|reflexivity].
  - apply Nat.nlt_ge. intros L. apply nth_error_Some in L. apply L. specialize (H (length (x_provs w'))).
    rewrite (proj2 (nth_error_None (x_provs w') _)) in H by lia. cbn [option_map] in H. destruct (nth_error (x_provs w) _); [discriminate|reflexivity].
Qed.
Lemma counts h : length (x_provs (xrun h x_init)) = providers h /\ length (x_procs (xrun h x_init)) = processors h /\ x_pools (xrun h x_init) = true.
Proof.
  induction h as [|e h (I1 & I2 & I3)] using rev_ind; [auto|]. rewrite xrun_snoc. unfold providers, processors in *. rewrite !filter_app, !app_length.
  destruct e as [c x|p r|p a|q k|p|body]; cbn [xstep filter length x_provs x_procs x_pools]; rewrite ?app_length; cbn [length].
  - repeat split; first [lia|exact I3].
  - rewrite upd_length. repeat split; first [lia|exact I3].
  - destruct (end_same p a (xrun h x_init)) as (S1 & _ & S3 & S4 & _). rewrite S1, S3. repeat split; first [lia|exact I3].
  - unfold on_proc. cbn [x_provs x_procs x_pools]. rewrite upd_length. repeat split; first [lia|exact I3].
  - destruct (shutdown_shape p (xrun h x_init)) as (S1 & S2 & _). rewrite (kept_provs _ _ (shutdown_wf_kept p (xrun h x_init))). rewrite S2.
    repeat split; first [lia|exact I3].
  - repeat split; first [lia|exact I3].
Qed.
Lemma concurrent_spec h p v : nth_error (x_provs (xrun h x_init)) p = Some v -> xp_concurrent v = true -> concurrent p h.
Proof.
  revert v. induction h as [|e h IH] using rev_ind; intros v; [destruct p; discriminate|]. rewrite xrun_snoc. intros E C.
  assert (G : forall v0, nth_error (x_provs (xrun h x_init)) p = Some v0 -> xp_concurrent v0 = true -> concurrent p (h ++ [e])).
  { intros v0 E0 C0. destruct (IH v0 E0 C0) as (h1 & x & h2 & -> & P). exists h1, x, (h2 ++ [e]). split; [|exact P]. rewrite <- app_assoc. reflexivity. }
  destruct e as [c x|p' r|p' a|q k|p'|body]; cbn [xstep x_provs] in E.
  - rewrite nth_snoc in E. destruct (Nat.eqb_spec p (length (x_provs (xrun h x_init)))) as [Q|Q]; [|eapply G; eauto].
    injection E as <-. cbn [xp_concurrent] in C. subst c. exists h, x, []. split; [reflexivity|]. rewrite Q. symmetry. apply counts.
  - rewrite upd_nth in E. destruct (Nat.eqb p p'); [|eapply G; eauto]. destruct (nth_error (x_provs (xrun h x_init)) p) as [v0|]; [|discriminate].
    cbn [option_map] in E. injection E as <-. cbn [xp_concurrent] in C. eapply G; eauto.
  - destruct (end_same p' a (xrun h x_init)) as (S1 & _). rewrite S1 in E. eapply G; eauto.
  - eapply G; eauto.
  - destruct (wf_kept_prov _ _ _ _ (shutdown_wf_kept p' (xrun h x_init)) E) as (v0 & E0 & _ & C0). eapply G; [exact E0|congruence].
  - eapply G; eauto.
Qed.

(** ** A provider with the default multi processor that is shut down at exit, and one of its processors *)
Definition users (l : list (callback A)) : list (list (uev A)) := flat_map (fun c => match c with HUser b => [b] | _ => [] end) l.
Definition is_p (p : nat) w (handler : bool) : Prop := exists v, nth_error (x_provs w) p = Some v /\ xp_concurrent v = false /\ xp_handler v = handler
  /\ forall q b, In q (xp_procs v) -> nth_error (x_procs w) q = Some b -> bp_raises b = false.
Definition has_q (p q : nat) w (P : bproc A -> Prop) : Prop := exists v b, nth_error (x_provs w) p = Some v /\ In q (xp_procs v)
  /\ nth_error (x_procs w) q = Some b /\ P b.
Definition live (l : list A) (b : bproc A) : Prop := bp_done b = false /\ bp_closed b = 0 /\ bp_sent b ++ bp_queue b = l.
Definition dead (l : list A) (n : nat) (b : bproc A) : Prop := bp_done b = true /\ bp_closed b = n /\ bp_sent b = l /\ bp_queue b = [].

Lemma is_p_same p w w' x : same_rest w w' -> is_p p w x -> is_p p w' x.
Proof.
  intros (S1 & S2 & S3 & S4 & S5) (v & E & C & Hd & R). exists v. rewrite S1. repeat split; auto.
  intros q b Hq Eb. specialize (S5 q). rewrite Eb in S5. destruct (nth_error (x_procs w) q) as [b0|] eqn:E0; [|discriminate]. cbn [option_map] in S5.
  injection S5 as S5. rewrite S5. eapply R; eauto.
Qed.
Lemma is_p_shutdown p p' w x : p' <> p -> is_p p w x -> is_p p (fst (shutdown p' w)) x.
Proof.
  intros N (v & E & C & Hd & R). destruct (shutdown_shape p' w) as (_ & _ & S3 & _ & S5 & _). exists v. rewrite S5 by congruence.
  repeat split; auto. intros q b Hq Eb. specialize (S3 q). rewrite Eb in S3. destruct (nth_error (x_procs w) q) as [b0|] eqn:E0; [|discriminate].
  cbn [option_map] in S3. injection S3 as S3. rewrite S3. eapply R; eauto.
Qed.
Lemma work_live k l b : live l b -> live l (bp_work k b).
Proof. intros (L1 & L2 & L3). repeat split; auto. cbn [bp_work bp_sent bp_queue]. rewrite <- app_assoc, firstn_skipn. exact L3. Qed.
Lemma work_dead k l n b : dead l n b -> dead l n (bp_work k b).
Proof.
  intros (L1 & L2 & L3 & L4). repeat split; auto; cbn [bp_work bp_sent bp_queue]; rewrite L4; [rewrite firstn_nil, app_nil_r; exact L3|apply skipn_nil].
Qed.
Lemma end_live a l b : live l b -> live (l ++ [a]) (bp_end a b).
Proof. intros (L1 & L2 & L3). unfold bp_end. rewrite L1. repeat split; auto. cbn [bp_sent bp_queue]. rewrite app_assoc, L3. reflexivity. Qed.
Lemma end_dead a l n b : dead l n b -> dead l n (bp_end a b).
Proof. intros H. unfold bp_end. destruct H as (L1 & L2). rewrite L1. split; auto. Qed.
Lemma shutdown_live l b : live l b -> dead l 1 (bp_shutdown b).
Proof. intros (L1 & L2 & L3). repeat split; cbn [bp_shutdown bp_done bp_closed bp_sent bp_queue]; [rewrite L2; reflexivity|exact L3]. Qed.
Lemma shutdown_dead l n b : dead l n b -> dead l (S n) (bp_shutdown b).
Proof. intros (L1 & L2 & L3 & L4). repeat split; cbn [bp_shutdown bp_done bp_closed bp_sent bp_queue]; [rewrite L2; reflexivity|rewrite L4, app_nil_r; exact L3]. Qed.

Lemma has_q_work p q w q' k (P : bproc A -> Prop) : (forall b, P b -> P (bp_work k b)) -> has_q p q w P -> has_q p q (on_proc q' (bp_work k) w) P.
Proof.
  intros HP (v & b & E & Hq & Eb & Pb). exists v. cbn [on_proc x_provs]. rewrite on_proc_nth, Eb.
  destruct (Nat.eqb q q'); eexists; (split; [exact E|]; split; [exact Hq|]; split; [reflexivity|]); auto.
Qed.
Lemma has_q_works p q w ws (P : bproc A -> Prop) : (forall k b, P b -> P (bp_work k b)) -> has_q p q w P ->
  has_q p q (fold_left (fun w (qk : nat * nat) => on_proc (fst qk) (bp_work (snd qk)) w) ws w) P.
Proof. intros HP. revert w. induction ws as [|x ws IH]; intros w H; cbn [fold_left]; [exact H|]. apply IH, has_q_work; auto. Qed.
Lemma has_q_end p q w p' a (P P' : bproc A -> Prop) : wf w -> (forall b, P b -> P' (bp_end a b)) ->
  (forall v, nth_error (x_provs w) p = Some v -> xp_concurrent v = false) -> has_q p q w P ->
  has_q p q (fst (end_span p' a w)) (if Nat.eqb p' p then P' else P).
Proof.
  intros W HP C (v & b & E & Hq & Eb & Pb). destruct (end_same p' a w) as (S1 & _). exists v. rewrite S1.
  destruct (Nat.eqb_spec p' p) as [Q|Q].
  - subst p'. destruct W as (_ & _ & W3). destruct (end_in p a w q v E Hq (W3 p v E) (C v E)) as [_ K]. rewrite K, Eb. cbn [option_map]. eauto 6.
  - rewrite end_out; [eauto 6|]. intros v' E' H'. destruct W as (_ & W2 & _). apply Q. eapply W2; eauto.
Qed.
Lemma has_q_shutdown p q w p' (P : bproc A -> Prop) : wf w -> p' <> p -> has_q p q w P -> has_q p q (fst (shutdown p' w)) P.
Proof.
  intros W Q (v & b & E & Hq & Eb & Pb). destruct (shutdown_shape p' w) as (_ & _ & _ & _ & S5 & _). exists v, b. rewrite S5 by congruence.
  rewrite shutdown_out; [auto|]. intros v' E' H'. destruct W as (_ & W2 & _). apply Q. eapply W2; eauto.
Qed.
Lemma has_q_shut p q w (P P' : bproc A -> Prop) x : wf w -> is_p p w x -> (forall b, P b -> P' (bp_shutdown b)) -> has_q p q w P ->
  has_q p q (fst (shutdown p w)) P' /\ is_p p (fst (shutdown p w)) false
  /\ (x = true -> x_atexit (fst (shutdown p w)) = filter (fun c => negb (is_shutdown_of p c)) (x_atexit w)).
Proof.
  intros W (v & E & C & Hd & R) HP (v0 & b & E0 & Hq & Eb & Pb). rewrite E in E0. injection E0 as <-. destruct W as (W1 & W2 & W3).
  destruct (shutdown_in p w q v E C (W3 p v E) Hq R) as [K1 K2].
  destruct (shutdown_shape p w) as (_ & _ & S3 & S4 & _). specialize (S4 p). rewrite E in S4. cbn [option_map] in S4.
  destruct (nth_error (x_provs (fst (shutdown p w))) p) as [v'|] eqn:E'; [|discriminate]. cbn [option_map] in S4. injection S4 as P1 P2.
  split; [|split].
  - exists v', (bp_shutdown b). rewrite E', P1, K1, Eb. auto.
  - exists v'. rewrite E', P1, P2. repeat split; auto.
    + unfold shutdown in E'. rewrite E, C, (shut_each_ok _ _ (W3 p v E) R) in E'. destruct (each_same bp_shutdown (xp_procs v) w keeps_shutdown) as (S1 & _).
      destruct (xp_handler v) eqn:Eh; cbn [fst x_provs] in E'; rewrite S1 in E'.
      * rewrite upd_nth, Nat.eqb_refl, E in E'. cbn [option_map] in E'. injection E' as <-. reflexivity.
      * rewrite E in E'. injection E' as <-. exact Eh.
    + intros k b' Hk Ek. specialize (S3 k). rewrite Ek in S3. destruct (nth_error (x_procs w) k) as [b0|] eqn:E0; [|discriminate].
      cbn [option_map] in S3. injection S3 as S3. rewrite S3. eapply R; eauto.
  - intros ->. apply K2, Hd.
Qed.

(** ** Histories *)
Definition pre (p : nat) w (us : list (list (uev A))) : Prop := is_p p w true /\
  exists l rest, x_atexit w = l ++ HShutdown p :: rest /\ users l = us /\ existsb (is_shutdown_of p) l = false.
Lemma is_p_lt p w x : is_p p w x -> p < length (x_provs w).
Proof. intros (v & E & _). apply nth_error_Some. congruence. Qed.
Lemma is_p_nc p w x : is_p p w x -> forall v, nth_error (x_provs w) p = Some v -> xp_concurrent v = false.
Proof. intros (v & E & C & _) v' E'. congruence. Qed.
Lemma filter_users p (l : list (callback A)) : users (filter (fun c => negb (is_shutdown_of p c)) l) = users l.
Proof.
  unfold users. induction l as [|c l IH]; [reflexivity|]. cbn [filter flat_map]. destruct c as [k|b]; cbn [is_shutdown_of].
  - destruct (Nat.eqb k p); cbn [negb flat_map app]; exact IH.
  - cbn [negb flat_map]. rewrite IH. reflexivity.
Qed.
Lemma filter_other p p' (l : list (callback A)) : existsb (is_shutdown_of p) l = false -> existsb (is_shutdown_of p) (filter (fun c => negb (is_shutdown_of p' c)) l) = false.
Proof.
  induction l as [|c l IH]; [reflexivity|]. cbn [existsb filter]. intros H. apply orb_false_iff in H as [H1 H2].
  destruct (negb (is_shutdown_of p' c)); cbn [existsb]; [rewrite H1, IH by exact H2; reflexivity|auto].
Qed.
Lemma pre_atexit p w p' us : p' <> p -> pre p w us -> pre p (fst (shutdown p' w)) us.
Proof.
  intros N (H & l & rest & E & U & X). split; [apply is_p_shutdown; assumption|].
  destruct (shutdown_shape p' w) as (_ & _ & _ & _ & _ & [S|S]); rewrite S; [exists l, rest; auto|].
  rewrite E, filter_app. cbn [filter is_shutdown_of]. destruct (Nat.eqb_spec p p') as [Q|Q]; [congruence|]. cbn [negb].
  eexists _, _. split; [reflexivity|]. split; [rewrite filter_users; exact U|apply filter_other, X].
Qed.
Lemma pre_step p w us e : wf w -> e <> XShutdown p -> e <> XAdd p true -> pre p w us ->
  pre p (xstep w e) (match e with XRegister b => b :: us | _ => us end).
Proof.
  intros W N1 N2 Hp. pose proof Hp as (H & l & rest & E & U & X). pose proof (is_p_lt _ _ _ H) as Lp.
  destruct e as [c x|p' r|p' a|q k|p'|body]; cbn [xstep].
  - split.
    + destruct H as (v & E0 & R). exists v. cbn [x_provs x_procs]. rewrite nth_error_app1 by lia. auto.
    + cbn [x_atexit]. destruct x; [|exists l, rest; auto]. exists (HShutdown (length (x_provs w)) :: l), rest. split; [rewrite E; reflexivity|].
      split; [exact U|]. cbn [existsb is_shutdown_of]. rewrite X. destruct (Nat.eqb_spec (length (x_provs w)) p); [lia|reflexivity].
  - split; [|exists l, rest; auto]. destruct H as (v & E0 & C & Hd & R). destruct (Nat.eqb_spec p p') as [Q|Q].
    + subst p'. exists (XP (xp_procs v ++ [length (x_procs w)]) (xp_concurrent v) (xp_handler v)). cbn [x_provs x_procs xp_concurrent xp_handler xp_procs].
      rewrite upd_nth, Nat.eqb_refl, E0. repeat split; auto. intros q b Hq. rewrite nth_snoc. destruct (Nat.eqb_spec q (length (x_procs w))) as [Z|Z].
      * intros Eb. injection Eb as <-. cbn [bp_raises]. destruct r; [exfalso; apply N2; reflexivity|reflexivity].
      * apply in_app_iff in Hq as [Hq|[Hq|[]]]; [apply R, Hq|congruence].
    + exists v. cbn [x_provs x_procs]. rewrite upd_nth. destruct (Nat.eqb_spec p p'); [contradiction|]. repeat split; auto.
      intros q b Hq. rewrite nth_snoc. destruct (Nat.eqb_spec q (length (x_procs w))) as [Z|Z]; [|apply R, Hq].
      exfalso. destruct W as (W1 & _). apply (W1 p v q E0) in Hq. lia.
  - split; [apply (is_p_same p w); [apply end_same|exact H]|]. destruct (end_same p' a w) as (_ & S2 & _). rewrite S2. exists l, rest; auto.
  - split; [apply (is_p_same p w); [apply on_proc_same, keeps_work|exact H]|]. exists l, rest; auto.
  - apply pre_atexit; [|exact Hp]. congruence.
  - split; [exact H|]. exists (HUser body :: l), rest. cbn [x_atexit]. split; [rewrite E; reflexivity|]. split; [cbn [users flat_map]; unfold users in U; rewrite U; reflexivity|exact X].
Qed.
Lemma pre_run p w us h : wf w -> ~ In (XShutdown p) h -> ~ In (XAdd p true) h -> pre p w us -> pre p (xrun h w) (rev (registered h) ++ us).
Proof.
  revert w us. induction h as [|e h IH]; intros w us W N1 N2 H; [exact H|]. cbn [xrun fold_left]. fold (xrun h (xstep w e)). cbn [In] in N1, N2.
  specialize (IH (xstep w e) (match e with XRegister b => b :: us | _ => us end) (wf_step w e W)).
  replace (rev (registered (e :: h)) ++ us) with (rev (registered h) ++ match e with XRegister b => b :: us | _ => us end).
  { apply IH; [tauto|tauto|]. apply pre_step; auto; intros ->; tauto. }
  destruct e; try reflexivity. cbn [registered flat_map app rev]. unfold registered. rewrite <- app_assoc. reflexivity.
Qed.

Lemma q_step p q w l e x : wf w -> is_p p w x -> e <> XShutdown p -> has_q p q w (live l) -> has_q p q (xstep w e) (live (l ++ ended_on p [e])).
Proof.
  intros W H N K. pose proof (is_p_lt _ _ _ H) as Lp. destruct e as [c y|p' r|p' a|q' k|p'|body]; cbn [xstep ended_on flat_map]; rewrite ?app_nil_r.
  - destruct K as (v & b & E & K). exists v, b. cbn [x_provs x_procs]. rewrite nth_error_app1 by lia. auto.
  - destruct K as (v & b & E & Hq & Eb & Lb). cbn [x_provs x_procs].
    assert (Lq : q < length (x_procs w)) by (apply nth_error_Some; congruence).
    unfold has_q. cbn [x_provs x_procs]. rewrite upd_nth, nth_error_app1 by lia. rewrite E. destruct (Nat.eqb p p'); cbn [option_map]; eexists _, b;
      (split; [reflexivity|]; split; [|auto]); cbn [xp_procs]; [apply in_app_iff; auto|exact Hq].
  - assert (Z := has_q_end p q w p' a (live l) (live (l ++ [a])) W (end_live a l) (is_p_nc _ _ _ H) K).
    destruct (Nat.eqb p' p); [exact Z|rewrite app_nil_r; exact Z].
  - apply has_q_work; [intros b; apply work_live|exact K].
  - apply has_q_shutdown; [exact W|congruence|exact K].
  - exact K.
Qed.
Lemma ended_cons p e h : ended_on p (e :: h) = ended_on p [e] ++ ended_on p h.
Proof. unfold ended_on. cbn [flat_map]. rewrite app_nil_r. reflexivity. Qed.
Lemma q_run p q w us l h : wf w -> pre p w us -> ~ In (XShutdown p) h -> ~ In (XAdd p true) h -> has_q p q w (live l) ->
  has_q p q (xrun h w) (live (l ++ ended_on p h)).
Proof.
  revert w us l. induction h as [|e h IH]; intros w us l W Hp N1 N2 K; [rewrite app_nil_r; exact K|]. cbn [xrun fold_left]. fold (xrun h (xstep w e)).
  cbn [In] in N1, N2. rewrite ended_cons, app_assoc. eapply IH; [apply wf_step, W| |tauto|tauto|].
  - apply (pre_step p w us e); auto; intros ->; tauto.
  - eapply q_step; [exact W|apply Hp|intros ->; tauto|exact K].
Qed.

(** ** The callbacks *)
Definition nc w (e : uev A) : Prop := exists p a, e = UEnd p a /\ forall v, nth_error (x_provs w) p = Some v -> xp_concurrent v = false.
Lemma nc_kept w w' e : wf_kept w w' -> nc w e -> nc w' e.
Proof.
  intros K (p & a & -> & H). exists p, a. split; [reflexivity|]. intros v E. destruct (wf_kept_prov _ _ _ _ K E) as (v0 & E0 & _ & C). rewrite C. apply H, E0.
Qed.
Definition on_exit (p q : nat) w (l : list A) : Prop := wf w /\ is_p p w true /\ existsb (is_shutdown_of p) (x_atexit w) = true /\ has_q p q w (live l).
Lemma kept_trans a b c : wf_kept a b -> wf_kept b c -> wf_kept a c.
Proof. intros [A1 A2] [B1 B2]. split; [congruence|]. intros k. rewrite B2. apply A2. Qed.
Lemma kept_refl w : wf_kept w w. Proof. split; auto. Qed.
Lemma works_ok p q w l ws : on_exit p q w l ->
  on_exit p q (fold_left (fun w (qk : nat * nat) => on_proc (fst qk) (bp_work (snd qk)) w) ws w) l.
Proof.
  intros (W & H & X & K). pose proof (works_same ws w) as S. split; [eapply wf_kept_wf; [apply same_wf_kept, S|exact W]|].
  split; [eapply is_p_same; [exact S|exact H]|]. split; [destruct S as (_ & S2 & _); rewrite S2; exact X|]. apply has_q_works; [intros k b; apply work_live|exact K].
Qed.
Lemma body_ok p q body w l : on_exit p q w l -> (forall e, In e body -> nc w e) ->
  on_exit p q (run_body body w) (l ++ ended_in p body) /\ wf_kept w (run_body body w).
Proof.
  revert w l. induction body as [|e body IH]; intros w l H N; [rewrite app_nil_r; split; [exact H|apply kept_refl]|].
  cbn [run_body]. destruct (N e (or_introl eq_refl)) as (p' & a & -> & C).
  pose proof (end_plain p' a w C) as Q. pose proof (end_same p' a w) as S. destruct H as (W & H & X & K).
  assert (Z := has_q_end p q w p' a (live l) (live (l ++ [a])) W (end_live a l) (is_p_nc _ _ _ H) K).
  destruct (end_span p' a w) as [w1 raised]. cbn [fst snd] in *. subst raised.
  pose proof (same_wf_kept _ _ S) as Kp.
  specialize (IH w1 (l ++ if Nat.eqb p' p then [a] else [])). destruct IH as [I1 I2].
  - split; [eapply wf_kept_wf; eauto|]. split; [eapply is_p_same; eauto|]. split; [destruct S as (_ & S2 & _); rewrite S2; exact X|].
    destruct (Nat.eqb p' p); [exact Z|rewrite app_nil_r; exact Z].
  - intros e He. eapply nc_kept; [exact Kp|]. apply N. now right.
  - split; [|eapply kept_trans; eauto]. cbn [ended_in flat_map]. rewrite app_assoc. exact I1.
Qed.
Lemma callbacks_ok work p q l0 r w l : on_exit p q w l -> existsb (is_shutdown_of p) l0 = false ->
  (forall b e, In b (users l0) -> In e b -> nc w e) ->
  exists w', callbacks work (l0 ++ r) w = callbacks work r w' /\ on_exit p q w' (l ++ flat_map (ended_in p) (users l0)).
Proof.
  revert w l. induction l0 as [|c l0 IH]; intros w l H X N; [exists w; rewrite app_nil_r; auto|]. cbn [app callbacks].
  cbn [existsb] in X. apply orb_false_iff in X as [X1 X2].
  set (w1 := fold_left _ (work (length (l0 ++ r))) w). assert (H1 : on_exit p q w1 l) by apply works_ok, H.
  assert (K1 : wf_kept w w1) by (apply same_wf_kept, works_same).
  destruct c as [p'|body].
  - cbn [is_shutdown_of] in X1. apply Nat.eqb_neq in X1. cbn [users flat_map app].
    destruct (existsb (is_shutdown_of p') (x_atexit w1)).
    + apply IH; [|exact X2|].
      * destruct H1 as (W & H1 & X & K). split; [eapply wf_kept_wf; [apply shutdown_wf_kept|exact W]|]. split; [apply is_p_shutdown; assumption|].
        split; [|apply has_q_shutdown; assumption]. destruct (shutdown_shape p' w1) as (_ & _ & _ & _ & _ & [S|S]); rewrite S; [exact X|].
        apply existsb_exists in X as (c & Hc & Ec). apply existsb_exists. exists c. split; [|exact Ec]. apply filter_In. split; [exact Hc|].
        destruct c as [k|]; [|discriminate]. cbn [is_shutdown_of] in *. apply Nat.eqb_eq in Ec. subst k. destruct (Nat.eqb_spec p p'); [congruence|reflexivity].
      * intros b e Hb He. eapply nc_kept; [eapply kept_trans; [exact K1|apply shutdown_wf_kept]|]. eapply N; eauto.
    + apply IH; [exact H1|exact X2|]. intros b e Hb He. eapply nc_kept; [exact K1|]. eapply N; eauto.
  - cbn [users flat_map]. destruct (body_ok p q body w1 l H1) as [B1 B2].
    { intros e He. eapply nc_kept; [exact K1|]. eapply N; [now left|exact He]. }
    destruct (IH (run_body body w1) (l ++ ended_in p body) B1 X2) as (w' & E' & H').
    + intros b e Hb He. eapply nc_kept; [eapply kept_trans; [exact K1|exact B2]|]. eapply N; [right; exact Hb|exact He].
    + exists w'. split; [exact E'|]. cbn [app flat_map]. rewrite app_assoc. exact H'.
Qed.

Definition off (p q : nat) w (l : list A) (n : nat) : Prop := wf w /\ is_p p w false /\ existsb (is_shutdown_of p) (x_atexit w) = false /\ has_q p q w (dead l n).
Lemma off_end p q w l n p' a : off p q w l n -> off p q (fst (end_span p' a w)) l n.
Proof.
  intros (W & H & X & K). pose proof (end_same p' a w) as S. split; [eapply wf_kept_wf; [apply same_wf_kept, S|exact W]|].
  split; [eapply is_p_same; eauto|]. split; [destruct S as (_ & S2 & _); rewrite S2; exact X|].
  assert (Z := has_q_end p q w p' a (dead l n) (dead l n) W (end_dead a l n) (is_p_nc _ _ _ H) K). destruct (Nat.eqb p' p); exact Z.
Qed.
Lemma off_shutdown p q w l n p' : off p q w l n -> off p q (fst (shutdown p' w)) l (if Nat.eqb p' p then S n else n).
Proof.
  intros (W & H & X & K). split; [eapply wf_kept_wf; [apply shutdown_wf_kept|exact W]|].
  assert (X' : existsb (is_shutdown_of p) (x_atexit (fst (shutdown p' w))) = false).
  { destruct (shutdown_shape p' w) as (_ & _ & _ & _ & _ & [S|S]); rewrite S; [exact X|apply filter_other, X]. }
  destruct (Nat.eqb_spec p' p) as [Q|Q].
  - subst p'. destruct (has_q_shut p q w (dead l n) (dead l (S n)) false W H (shutdown_dead l n) K) as (K1 & K2 & _). auto.
  - split; [apply is_p_shutdown; assumption|]. split; [exact X'|apply has_q_shutdown; assumption].
Qed.
Lemma off_work p q w l n q' k : off p q w l n -> off p q (on_proc q' (bp_work k) w) l n.
Proof.
  intros (W & H & X & K). split; [eapply wf_kept_wf; [apply same_wf_kept, on_proc_same, keeps_work|exact W]|].
  split; [eapply is_p_same; [apply on_proc_same, keeps_work|exact H]|]. split; [exact X|]. apply has_q_work; [intros b; apply work_dead|exact K].
Qed.
Lemma off_body p q body w l n : off p q w l n -> ~ In (UShutdown p) body -> off p q (run_body body w) l n.
Proof.
  revert w. induction body as [|e body IH]; intros w H N; [exact H|]. cbn [In] in N. cbn [run_body]. destruct e as [p' a|p'].
  - pose proof (off_end p q w l n p' a H) as H1. destruct (end_span p' a w) as [w1 raised]. cbn [fst] in H1. destruct raised; [exact H1|]. apply IH; tauto.
  - pose proof (off_shutdown p q w l n p' H) as H1. destruct (Nat.eqb_spec p' p) as [->|Q]; [tauto|].
    destruct (shutdown p' w) as [w1 raised]. cbn [fst] in H1. destruct raised; [exact H1|]. apply IH; tauto.
Qed.
Lemma off_callbacks work p q r w l n : off p q w l n -> (forall b, In b (users r) -> ~ In (UShutdown p) b) -> off p q (callbacks work r w) l n.
Proof.
  revert w. induction r as [|c r IH]; intros w H N; [exact H|]. cbn [callbacks].
  set (w1 := fold_left _ (work (length r)) w). assert (H1 : off p q w1 l n).
  { unfold w1. generalize (work (length r)). intros ws. revert H. clear. revert w. induction ws as [|x ws IH]; intros w H; cbn [fold_left]; [exact H|].
    apply IH, off_work, H. }
  destruct c as [p'|body].
  - apply IH; [|exact N]. destruct (existsb (is_shutdown_of p') (x_atexit w1)) eqn:E; [|exact H1].
    pose proof (off_shutdown p q w1 l n p' H1) as H2. destruct (Nat.eqb_spec p' p) as [->|Q]; [|exact H2].
    destruct H1 as (_ & _ & X & _). congruence.
  - apply IH; [|intros b Hb; apply N; cbn [users flat_map]; apply in_app_iff; auto]. apply off_body; [exact H1|]. apply N. now left.
Qed.

(** ** The theorems *)
Lemma xrun_app h h' w : xrun (h ++ h') w = xrun h' (xrun h w).
Proof. unfold xrun. apply fold_left_app. Qed.
Lemma atexit_users h : users (x_atexit (xrun h x_init)) = rev (registered h).
Proof.
  induction h as [|e h IH] using rev_ind; [reflexivity|]. rewrite xrun_snoc. unfold registered. rewrite flat_map_app, rev_app_distr. fold (registered h).
  destruct e as [c x|p r|p a|q k|p|body]; cbn [xstep flat_map app rev x_atexit].
  - destruct x; exact IH.
  - exact IH.
  - destruct (end_same p a (xrun h x_init)) as (_ & S2 & _). rewrite S2. exact IH.
  - exact IH.
  - destruct (shutdown_shape p (xrun h x_init)) as (_ & _ & _ & _ & _ & [S|S]); rewrite S; [exact IH|]. rewrite filter_users. exact IH.
  - cbn [users flat_map app]. fold (users (x_atexit (xrun h x_init))). rewrite IH. reflexivity.
Qed.
Lemma pre_new h0 : pre (providers h0) (xrun (h0 ++ [XProvider false true]) x_init) [].
Proof.
  rewrite xrun_snoc. destruct (counts h0) as (C1 & _). split.
  - exists (XP [] false true). cbn [xstep x_provs]. rewrite nth_snoc, C1, Nat.eqb_refl. repeat split. intros q b [].
  - exists [], (x_atexit (xrun h0 x_init)). cbn [xstep x_atexit]. rewrite C1. auto.
Qed.
Lemma q_new p w x : is_p p w x -> has_q p (length (x_procs w)) (xstep w (XAdd p false)) (live []).
Proof.
  intros (v & E & _). exists (XP (xp_procs v ++ [length (x_procs w)]) (xp_concurrent v) (xp_handler v)), (BP [] [] false 0 false).
  cbn [xstep x_provs x_procs xp_procs]. rewrite upd_nth, Nat.eqb_refl, E, nth_snoc, Nat.eqb_refl. repeat split. apply in_app_iff. right. now left.
Qed.
Lemma history_ok h0 h1 h2 : let p := providers h0 in
  ~ In (XShutdown p) (h1 ++ h2) -> ~ In (XAdd p true) (h1 ++ h2) ->
  let w := xrun (h0 ++ XProvider false true :: h1 ++ XAdd p false :: h2) x_init in
  pre p w (rev (registered (h1 ++ h2))) /\ has_q p (processors (h0 ++ XProvider false true :: h1)) w (live (ended_on p h2)).
Proof.
  intros p N1 N2 w. rewrite in_app_iff in N1, N2.
  assert (P0 := pre_new h0). fold p in P0.
  assert (W : forall k, wf (xrun k x_init)) by apply wf_run.
  assert (P1 : pre p (xrun (h0 ++ XProvider false true :: h1) x_init) (rev (registered h1))).
  { change (h0 ++ XProvider false true :: h1) with (h0 ++ [XProvider false true] ++ h1). rewrite app_assoc, xrun_app.
    rewrite <- (app_nil_r (rev (registered h1))). apply pre_run; [apply W|tauto|tauto|exact P0]. }
  assert (P2 : pre p (xrun ((h0 ++ XProvider false true :: h1) ++ [XAdd p false]) x_init) (rev (registered h1))).
  { rewrite xrun_snoc. apply (pre_step p _ _ (XAdd p false)); [apply W|discriminate|discriminate|exact P1]. }
  assert (E : w = xrun h2 (xrun ((h0 ++ XProvider false true :: h1) ++ [XAdd p false]) x_init)).
  { unfold w. rewrite <- xrun_app, <- !app_assoc. cbn [app]. rewrite <- ?app_assoc. reflexivity. }
  rewrite E. split.
  - unfold registered at 1. rewrite flat_map_app. fold (registered h1) (registered h2). rewrite rev_app_distr. apply pre_run; [apply W|tauto|tauto|exact P2].
  - apply (q_run p _ _ (rev (registered h1)) []); [apply W|exact P2|tauto|tauto|]. rewrite xrun_snoc.
    destruct (counts (h0 ++ XProvider false true :: h1)) as (_ & C2 & _). rewrite <- C2. eapply q_new. apply P1.
Qed.
Lemma on_exit_pools p q w l : wf w -> pre p w l -> forall x, has_q p q w (live x) -> on_exit p q (XW (x_procs w) (x_provs w) (x_atexit w) false) x.
Proof.
  intros W (H & l0 & rest & E & _) x K. split; [exact W|]. split; [exact H|]. split; [|exact K]. cbn [x_atexit]. rewrite E, existsb_app. cbn [existsb is_shutdown_of].
  rewrite Nat.eqb_refl. apply orb_true_r.
Qed.
Lemma filter_none p (l : list (callback A)) : existsb (is_shutdown_of p) (filter (fun c => negb (is_shutdown_of p c)) l) = false.
Proof. induction l as [|c l IH]; [reflexivity|]. cbn [filter]. destruct (is_shutdown_of p c) eqn:E; cbn [negb]; [exact IH|]. cbn [existsb]. rewrite E. exact IH. Qed.
Lemma nc_exit h b e : plain_callbacks h -> In b (registered h) -> In e b -> nc (xrun h x_init) e.
Proof.
  intros P Hb He. destruct (P b e Hb He) as (p & a & -> & C). exists p, a. split; [reflexivity|]. intros v E. destruct (xp_concurrent v) eqn:Q; [|reflexivity].
  exfalso. apply C. eapply concurrent_spec; eauto.
Qed.
Theorem exit_exports work h0 h1 h2 : let p := providers h0 in let h := h0 ++ XProvider false true :: h1 ++ XAdd p false :: h2 in
  ~ In (XShutdown p) (h1 ++ h2) -> ~ In (XAdd p true) (h1 ++ h2) -> plain_callbacks h ->
  exists b, nth_error (x_procs (exit work (xrun h x_init))) (processors (h0 ++ XProvider false true :: h1)) = Some b
    /\ bp_sent b = ended_on p h2 ++ flat_map (ended_in p) (rev (registered (h1 ++ h2))) /\ bp_queue b = [] /\ bp_closed b = 1.
Proof.
  intros p h N1 N2 P. destruct (history_ok h0 h1 h2 N1 N2) as [H K]. fold p in H, K. fold h in H, K. set (q := processors _) in *.
  pose proof (on_exit_pools _ _ _ _ (wf_run h) H _ K) as X. destruct H as (_ & l & rest & E & U & F). unfold exit. rewrite E. rewrite E in X.
  assert (R : forall b, In b (users l) \/ In b (users rest) -> In b (registered h)).
  { intros b Hb. apply in_rev. rewrite <- atexit_users, E. unfold users. rewrite flat_map_app. cbn [flat_map app]. apply in_app_iff. exact Hb. }
  destruct (callbacks_ok work p q l (HShutdown p :: rest) _ _ X F) as (w' & E' & X').
  { intros b e Hb He. apply (nc_exit h b e P); auto. }
  rewrite E'. cbn [callbacks]. rewrite U in X'. set (w1 := fold_left _ (work (length rest)) w').
  assert (X1 : on_exit p q w1 (ended_on p h2 ++ flat_map (ended_in p) (rev (registered (h1 ++ h2))))) by apply works_ok, X'.
  destruct X1 as (W1 & H1 & A1 & K1). rewrite A1.
  destruct (has_q_shut p q w1 _ _ true W1 H1 (shutdown_live _) K1) as (K2 & H2 & A2).
  assert (O : off p q (fst (shutdown p w1)) (ended_on p h2 ++ flat_map (ended_in p) (rev (registered (h1 ++ h2)))) 1).
  { split; [eapply wf_kept_wf; [apply shutdown_wf_kept|exact W1]|]. split; [exact H2|]. split; [rewrite A2 by reflexivity; apply filter_none|exact K2]. }
  apply (off_callbacks work p q rest) in O.
  - destruct O as (_ & _ & _ & (v & b & _ & _ & Eb & D1 & D2 & D3 & D4)). exists b. auto.
  - intros b Hb Hs. destruct (P b (UShutdown p) (R b (or_intror Hb)) Hs) as (p' & a & Q & _). discriminate.
Qed.

Lemma off_add p q w l n p' r : (p' = p -> r = false) -> off p q w l n -> off p q (xstep w (XAdd p' r)) l n.
Proof.
  intros Hr (W & H & X & K). split; [apply wf_step, W|]. split; [|split; [exact X|]].
  - destruct H as (v & E0 & C & Hd & R). destruct (Nat.eqb_spec p p') as [Q|Q].
    + subst p'. exists (XP (xp_procs v ++ [length (x_procs w)]) (xp_concurrent v) (xp_handler v)). cbn [xstep x_provs x_procs xp_concurrent xp_handler xp_procs].
      rewrite upd_nth, Nat.eqb_refl, E0. repeat split; auto. intros k b Hq. rewrite nth_snoc. destruct (Nat.eqb_spec k (length (x_procs w))) as [Z|Z].
      * intros Eb. injection Eb as <-. apply Hr. reflexivity.
      * apply in_app_iff in Hq as [Hq|[Hq|[]]]; [apply R, Hq|congruence].
    + exists v. cbn [xstep x_provs x_procs]. rewrite upd_nth. destruct (Nat.eqb_spec p p'); [contradiction|]. repeat split; auto.
      intros k b Hq. rewrite nth_snoc. destruct (Nat.eqb_spec k (length (x_procs w))) as [Z|Z]; [|apply R, Hq].
      exfalso. destruct W as (W1 & _). apply (W1 p v k E0) in Hq. lia.
  - destruct K as (v & b & E & Hq & Eb & Lb).
    assert (Lq : q < length (x_procs w)) by (apply nth_error_Some; congruence).
    unfold has_q. cbn [xstep x_provs x_procs]. rewrite upd_nth, nth_error_app1 by lia. rewrite E. destruct (Nat.eqb p p'); cbn [option_map]; eexists _, b;
      (split; [reflexivity|]; split; [|auto]); cbn [xp_procs]; [apply in_app_iff; auto|exact Hq].
Qed.
Lemma off_step p q w l n e : e <> XAdd p true -> off p q w l n ->
  off p q (xstep w e) l (match e with XShutdown p' => if Nat.eqb p' p then S n else n | _ => n end).
Proof.
  intros N H. destruct e as [c y|p' r|p' a|q' k|p'|body].
  - pose proof H as (W & I & X & K). pose proof (is_p_lt _ _ _ I) as Lp. split; [apply wf_step, W|]. split; [|split].
    + destruct I as (v & E0 & R). exists v. cbn [xstep x_provs x_procs]. rewrite nth_error_app1 by lia. auto.
    + cbn [xstep x_atexit]. destruct y; [|exact X]. cbn [existsb is_shutdown_of]. rewrite X. destruct (Nat.eqb_spec (length (x_provs w)) p); [lia|reflexivity].
    + destruct K as (v & b & E & K). exists v, b. cbn [xstep x_provs x_procs]. rewrite nth_error_app1 by lia. auto.
  - apply off_add; [|exact H]. intros ->. destruct r; [exfalso; apply N; reflexivity|reflexivity].
  - apply off_end, H.
  - apply off_work, H.
  - apply off_shutdown, H.
  - exact H.
Qed.
Lemma off_run p q w l n h : ~ In (XAdd p true) h -> off p q w l n -> off p q (xrun h w) l (n + shutdowns p h).
Proof.
  revert w n. induction h as [|e h IH]; intros w n N H; [rewrite Nat.add_0_r; exact H|]. cbn [xrun fold_left]. fold (xrun h (xstep w e)).
  assert (N' : ~ In (XAdd p true) h) by (intros Q; apply N; now right).
  assert (Ne : e <> XAdd p true) by (intros ->; apply N; now left).
  pose proof (IH _ _ N' (off_step p q w l n e Ne H)) as G.
  replace (n + shutdowns p (e :: h)) with (match e with XShutdown p' => if Nat.eqb p' p then S n else n | _ => n end + shutdowns p h); [exact G|].
  unfold shutdowns. destruct e as [| | | |p'|]; cbn [filter]; try reflexivity. destruct (Nat.eqb p' p); cbn [length]; lia.
Qed.
Theorem shutdown_exports work h0 h1 h2 h3 : let p := providers h0 in
  let h := h0 ++ XProvider false true :: h1 ++ XAdd p false :: h2 ++ XShutdown p :: h3 in
  ~ In (XShutdown p) (h1 ++ h2) -> ~ In (XAdd p true) (h1 ++ h2 ++ h3) -> (forall b, In b (registered h) -> ~ In (UShutdown p) b) ->
  forall w, w = xrun h x_init \/ w = exit work (xrun h x_init) ->
  exists b, nth_error (x_procs w) (processors (h0 ++ XProvider false true :: h1)) = Some b
    /\ bp_sent b = ended_on p h2 /\ bp_queue b = [] /\ bp_closed b = 1 + shutdowns p h3.
Proof.
  intros p h N1 N2 P. rewrite !in_app_iff in N2.
  destruct (history_ok h0 h1 h2 N1) as [H K]; [rewrite in_app_iff; tauto|]. fold p in H, K. set (g := h0 ++ XProvider false true :: h1 ++ XAdd p false :: h2) in *.
  assert (Eh : h = (g ++ [XShutdown p]) ++ h3).
  { unfold h, g. rewrite <- !app_assoc. cbn [app]. rewrite <- !app_assoc. cbn [app]. reflexivity. }
  set (q := processors _) in *. destruct H as [H (l & rest & E & U & F)]. pose proof (wf_run g) as W.
  destruct (has_q_shut p q _ _ _ true W H (shutdown_live _) K) as (K2 & H2 & A2).
  assert (O : off p q (xrun (g ++ [XShutdown p]) x_init) (ended_on p h2) 1).
  { rewrite xrun_snoc. split; [apply wf_step, W|]. split; [exact H2|]. split; [|exact K2]. cbn [xstep]. rewrite A2 by reflexivity. apply filter_none. }
  apply (off_run p q _ _ _ h3) in O; [|tauto]. rewrite <- xrun_app, <- Eh in O.
  assert (G : forall w, off p q w (ended_on p h2) (1 + shutdowns p h3) -> exists b, nth_error (x_procs w) q = Some b
    /\ bp_sent b = ended_on p h2 /\ bp_queue b = [] /\ bp_closed b = 1 + shutdowns p h3).
  { intros w (_ & _ & _ & (v & b & _ & _ & Eb & D1 & D2 & D3 & D4)). exists b. auto. }
  intros w [->| ->]; apply G; [exact O|]. unfold exit. apply off_callbacks.
  - destruct O as (O1 & O2 & O3 & O4). split; [exact O1|]. split; [exact O2|]. split; [exact O3|exact O4].
  - intros b Hb. apply P. apply in_rev. rewrite <- atexit_users. exact Hb.
Qed.
Lemma concurrent_flag p h : concurrent p h -> nth_error (flat_map (fun e => match e with XProvider c _ => [c] | _ => [] end) h) p = Some true.
Proof.
  intros (h1 & x & h2 & -> & <-). rewrite flat_map_app. unfold providers. induction h1 as [|e h1 IH]; [reflexivity|].
  destruct e; cbn [flat_map filter length app nth_error]; exact IH.
Qed.
End Proofs.
