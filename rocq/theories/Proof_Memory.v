(** Proofs about the exporters and the reader that keep telemetry in memory. *)
From Verif Require Export Spec_Memory.
From Coq Require Import Lia Permutation.
Local Open Scope nat_scope.

Section Proofs.
Context {A : Type}.
Implicit Types (h : list (mev A)) (n : nat).
Notation run h := (mrun (A := A) h m_init).

Lemma mrun_snoc h e : run (h ++ [e]) = mstep (run h) e.
Proof. unfold mrun. rewrite fold_left_app. reflexivity. Qed.

Lemma set_call_nth n k (c : call A) l : n < length l -> nth_error (set_call n c l) k = if Nat.eqb k n then Some c else nth_error l k.
Proof.
  intros Hn. unfold set_call. assert (Lf : length (firstn n l) = n) by (rewrite firstn_length; lia).
  destruct (Nat.eqb_spec k n) as [E|E].
  - subst. rewrite nth_error_app2, Lf, Nat.sub_diag by lia. reflexivity.
  - destruct (Nat.lt_ge_cases k n) as [L|L].
    + rewrite nth_error_app1 by lia. rewrite <- (firstn_skipn n l) at 2. rewrite nth_error_app1 by lia. reflexivity.
    + rewrite nth_error_app2 by lia. rewrite Lf. destruct (k - n) as [|j] eqn:Ej; [lia|]. cbn [nth_error].
      rewrite <- (firstn_skipn (S n) l) at 2. rewrite nth_error_app2 by (rewrite firstn_length; lia).
      rewrite firstn_length. f_equal. lia.
Qed.
Lemma set_call_length n (c : call A) l : n < length l -> length (set_call n c l) = length l.
Proof. intros H. unfold set_call. rewrite app_length, firstn_length. cbn [length]. rewrite skipn_length. lia. Qed.

(** One step keeps what a call was given and has returned. *)
Lemma step_calls (m : memory A) e n c : nth_error (m_calls m) n = Some c ->
  nth_error (m_calls (mstep m e)) n = Some c
  \/ (e = MStore n /\ exists b, c = Running b /\ nth_error (m_calls (mstep m e)) n = Some (Done b true)).
Proof.
  intros H. assert (Hn : n < length (m_calls m)) by (apply nth_error_Some; congruence).
  destruct e as [b|k| | |]; cbn [mstep m_calls]; auto.
  - left. rewrite nth_error_app1 by lia. exact H.
  - destruct (nth_error (m_calls m) k) as [[b|b ok]|] eqn:E; auto. cbn [m_calls].
    assert (Hk : k < length (m_calls m)) by (apply nth_error_Some; congruence).
    rewrite set_call_nth by exact Hk. destruct (Nat.eqb_spec n k) as [Q|Q]; [|left; exact H].
    subst. right. rewrite H in E. injection E as ->. eauto.
Qed.
Lemma started_mono h l n : started h n -> started (h ++ l) n.
Proof.
  intros H. induction l as [|e l IH] using rev_ind; [rewrite app_nil_r; exact H|]. rewrite app_assoc. unfold started in *.
  rewrite mrun_snoc. destruct (nth_error (m_calls (run (h ++ l))) n) as [c|] eqn:E; [|apply nth_error_None in E; lia].
  apply nth_error_Some. destruct (step_calls _ e n c E) as [E1|(_ & b & _ & E1)]; congruence.
Qed.
Lemma result_started h n b : result_of h n = Some b -> started h n.
Proof.
  unfold result_of, started. intros H. apply nth_error_Some. destruct (nth_error (m_calls (run h)) n); congruence.
Qed.
Lemma result_step h e n b : result_of h n = Some b -> result_of (h ++ [e]) n = Some b.
Proof.
  unfold result_of. rewrite mrun_snoc. destruct (nth_error (m_calls (run h)) n) as [[x|x ok]|] eqn:E; try discriminate.
  intros H. destruct (step_calls _ e n _ E) as [->|(_ & y & Q & _)]; [exact H|discriminate].
Qed.
Lemma result_mono h l n b : result_of h n = Some b -> result_of (h ++ l) n = Some b.
Proof.
  intros H. induction l as [|e l IH] using rev_ind; [rewrite app_nil_r; exact H|]. rewrite app_assoc. apply result_step, IH.
Qed.
Lemma batch_step h e n : started h n -> batch_of (h ++ [e]) n = batch_of h n.
Proof.
  unfold started, batch_of. intros H. rewrite mrun_snoc. destruct (nth_error (m_calls (run h)) n) as [c|] eqn:E; [|apply nth_error_None in E; lia].
  destruct (step_calls _ e n c E) as [->|(_ & b & -> & ->)]; reflexivity.
Qed.
Lemma batch_mono h l n : started h n -> batch_of (h ++ l) n = batch_of h n.
Proof.
  intros H. induction l as [|e l IH] using rev_ind; [rewrite app_nil_r; reflexivity|]. rewrite app_assoc, batch_step by (apply started_mono, H). exact IH.
Qed.

(** The calls whose batches are in memory. *)
Definition ord_step (m : memory A) (o : list nat) (e : mev A) : list nat :=
  match e with
  | MStore n => match nth_error (m_calls m) n with Some (Running _) => o ++ [n] | _ => o end
  | MClear => []
  | _ => o
  end.
Definition ord_fold (h : list (mev A)) : memory A * list nat :=
  fold_left (fun p e => (mstep (fst p) e, ord_step (fst p) (snd p) e)) h (m_init, []).
Definition ord h : list nat := snd (ord_fold h).
Lemma ord_fst h : fst (ord_fold h) = run h.
Proof.
  induction h as [|e h IH] using rev_ind; [reflexivity|]. unfold ord_fold in *. rewrite fold_left_app. cbn [fold_left fst]. rewrite IH, mrun_snoc. reflexivity.
Qed.
Lemma ord_snoc h e : ord (h ++ [e]) = ord_step (run h) (ord h) e.
Proof. unfold ord. rewrite <- (ord_fst h). unfold ord_fold. rewrite fold_left_app. reflexivity. Qed.

(** Which results a step gives. *)
Lemma new_result h e n : result_of h n = None -> result_of (h ++ [e]) n <> None ->
  (e = MStore n /\ result_of (h ++ [e]) n = Some true /\ ord (h ++ [e]) = ord h ++ [n])
  \/ result_of (h ++ [e]) n = Some false.
Proof.
  unfold result_of. rewrite mrun_snoc, ord_snoc. intros H Hn.
  destruct (nth_error (m_calls (run h)) n) as [[b|b ok]|] eqn:E; [|discriminate H|].
  - destruct (step_calls _ e n _ E) as [E1|(-> & b' & Q & E1)]; rewrite E1 in *; [congruence|]. left. split; [reflexivity|]. split; [reflexivity|].
    cbn [ord_step]. rewrite E. reflexivity.
  - right. apply nth_error_None in E. destruct e as [b|k| | |]; cbn [mstep m_calls] in *.
    + destruct (Nat.eq_dec n (length (m_calls (run h)))) as [Q|Q].
      * subst. rewrite nth_error_app2, Nat.sub_diag in * by lia. cbn [nth_error] in *. destruct (m_stopped (run h)); [reflexivity|congruence].
      * exfalso. apply Hn. rewrite (proj2 (nth_error_None _ _)); [reflexivity|]. rewrite app_length. cbn [length]. lia.
    + exfalso. apply Hn. destruct (nth_error (m_calls (run h)) k) as [[b|b ok]|] eqn:Ek; cbn [m_calls]; try (rewrite (proj2 (nth_error_None _ _)) by exact E; reflexivity).
      rewrite (proj2 (nth_error_None _ _)); [reflexivity|]. rewrite set_call_length; [exact E|]. apply nth_error_Some. congruence.
    + exfalso. apply Hn. rewrite (proj2 (nth_error_None _ _)) by exact E. reflexivity.
    + exfalso. apply Hn. rewrite (proj2 (nth_error_None _ _)) by exact E. reflexivity.
    + exfalso. apply Hn. rewrite (proj2 (nth_error_None _ _)) by exact E. reflexivity.
Qed.
(** How the order changes. *)
Lemma ord_change h e : ord (h ++ [e]) = ord h \/ ord (h ++ [e]) = []
  \/ exists n, e = MStore n /\ result_of h n = None /\ started h n /\ result_of (h ++ [e]) n = Some true /\ ord (h ++ [e]) = ord h ++ [n].
Proof.
  rewrite ord_snoc. destruct e as [b|n| | |]; cbn [ord_step]; auto.
  destruct (nth_error (m_calls (run h)) n) as [[b|b ok]|] eqn:E; auto. right. right. exists n. split; [reflexivity|].
  unfold result_of, started. rewrite mrun_snoc. split; [now rewrite E|]. split; [apply nth_error_Some; congruence|]. split; [|reflexivity].
  cbn [mstep]. rewrite E. cbn [m_calls]. rewrite set_call_nth, Nat.eqb_refl by (apply nth_error_Some; congruence). reflexivity.
Qed.
Lemma ord_done h n : In n (ord h) -> result_of h n = Some true.
Proof.
  revert n. induction h as [|e h IH] using rev_ind; intros n; [intros []|].
  destruct (ord_change h e) as [->|[->|(k & -> & _ & _ & R & ->)]].
  - intros H. apply result_step. auto.
  - intros [].
  - intros H. apply in_app_iff in H as [H|[<-|[]]]; [apply result_step; auto|exact R].
Qed.
Lemma ord_nodup h : NoDup (ord h).
Proof.
  induction h as [|e h IH] using rev_ind; [constructor|].
  destruct (ord_change h e) as [->|[->|(k & -> & R & _ & _ & ->)]]; [exact IH|constructor|].
  apply (Permutation_NoDup (l := k :: ord h)); [apply Permutation_cons_append|]. constructor; [|exact IH].
  intros Hx. apply ord_done in Hx. congruence.
Qed.
Lemma ord_items h : m_items (run h) = concat (map (batch_of h) (ord h)).
Proof.
  induction h as [|e h IH] using rev_ind; [reflexivity|].
  assert (K : map (batch_of (h ++ [e])) (ord h) = map (batch_of h) (ord h)).
  { apply map_ext_in. intros n Hn. apply batch_step. eapply result_started, ord_done, Hn. }
  rewrite mrun_snoc. rewrite ord_snoc. destruct e as [b|n| | |]; cbn [mstep ord_step m_items]; rewrite ?K; auto.
  destruct (nth_error (m_calls (run h)) n) as [[b|b ok]|] eqn:E; rewrite ?K; auto.
  cbn [m_items]. rewrite map_app, concat_app, K, IH. f_equal. cbn [map concat]. rewrite app_nil_r.
  rewrite batch_step by (unfold started; apply nth_error_Some; congruence). unfold batch_of. rewrite E. reflexivity.
Qed.
Lemma ord_cleared before after n : In n (ord (before ++ MClear :: after)) -> result_of before n = None.
Proof.
  induction after as [|e l IH] using rev_ind.
  - rewrite ord_snoc. intros [].
  - replace (before ++ MClear :: l ++ [e]) with ((before ++ MClear :: l) ++ [e]) by (rewrite <- app_assoc; reflexivity).
    destruct (ord_change (before ++ MClear :: l) e) as [->|[->|(k & -> & R & _ & _ & ->)]]; [exact IH|intros []|].
    intros H. apply in_app_iff in H as [H|[<-|[]]]; [auto|]. destruct (result_of before k) as [b|] eqn:E; [|reflexivity].
    apply (result_mono before (MClear :: l)) in E. congruence.
Qed.
Lemma ord_grows h e n : e <> MClear -> In n (ord h) -> In n (ord (h ++ [e])).
Proof.
  intros He H. rewrite ord_snoc. destruct e as [b|k| | |]; cbn [ord_step]; auto; [|congruence].
  destruct (nth_error (m_calls (run h)) k) as [[b|b ok]|]; auto. apply in_app_iff. auto.
Qed.
Lemma ord_kept before after n : ~ started before n -> ~ In MClear after -> result_of (before ++ after) n = Some true -> In n (ord (before ++ after)).
Proof.
  intros Hs. induction after as [|e l IH] using rev_ind; intros Hc Hr.
  - exfalso. rewrite app_nil_r in Hr. apply result_started in Hr. auto.
  - rewrite app_assoc in *. assert (Hl : ~ In MClear l) by (intros Q; apply Hc, in_app_iff; auto).
    destruct (result_of (before ++ l) n) as [b|] eqn:E.
    + assert (b = true) by (apply (result_step _ e) in E; congruence). subst.
      apply ord_grows; [|auto]. intros ->. apply Hc, in_app_iff. right. now left.
    + destruct (new_result (before ++ l) e n E) as [(_ & _ & ->)|Q]; [congruence|apply in_app_iff; right; now left|congruence].
Qed.
Lemma ord_time h a m b n c before after : ord h = a ++ m :: b ++ n :: c -> h = before ++ after -> result_of before n = Some true -> started before m.
Proof.
  revert a b c after. induction h as [|e h IH] using rev_ind; intros a b c after Ho Eh Hr; [destruct a; discriminate Ho|].
  destruct after as [|x after _] using rev_ind.
  - rewrite app_nil_r in Eh. subst before. apply (result_started _ _ true), ord_done. rewrite Ho. apply in_app_iff. right. now left.
  - rewrite app_assoc in Eh. apply app_inj_tail in Eh as [Eh <-].
    destruct (ord_change h e) as [Q|[Q|(k & -> & R & _ & _ & Q)]]; rewrite Q in Ho.
    + eapply IH; eauto.
    + destruct a; discriminate Ho.
    + destruct c as [|y c _] using rev_ind.
      * replace (a ++ m :: b ++ [n]) with ((a ++ m :: b) ++ [n]) in Ho by (rewrite <- app_assoc; reflexivity).
        apply app_inj_tail in Ho as [_ ->]. subst h. apply (result_mono _ after) in Hr. congruence.
      * replace (a ++ m :: b ++ n :: c ++ [y]) with ((a ++ m :: b ++ n :: c) ++ [y]) in Ho by (rewrite <- !app_assoc; cbn; rewrite <- app_assoc; reflexivity).
        apply app_inj_tail in Ho as [Ho _]. eapply IH; eauto.
Qed.
Lemma ord_shown h : shown h (ord h).
Proof.
  split; [apply ord_nodup|]. split; [intros n; apply ord_done|]. split; [|split].
  - intros n before after -> R H. apply ord_cleared in H. auto.
  - intros n before after -> . apply ord_kept.
  - intros a m b n c before after Ho Eh. eapply ord_time; eauto.
Qed.

(** ** Results *)
Lemma stopped_after h : m_stopped (run h) = true <-> In MShutdown h.
Proof.
  induction h as [|e h IH] using rev_ind; [split; [discriminate|intros []]|]. rewrite mrun_snoc, in_app_iff.
  destruct e as [b|n| | |]; cbn [mstep m_stopped].
  1,3,4: rewrite IH; split; [auto|intros [H|[H|[]]]; [exact H|discriminate H]].
  - destruct (nth_error (m_calls (run h)) n) as [[b|b ok]|]; cbn [m_stopped]; rewrite IH; (split; [auto|intros [H|[H|[]]]; [exact H|discriminate H]]).
  - split; [intros _; right; now left|reflexivity].
Qed.
Lemma begin_result h b l : let n := length (m_calls (run h)) in
  batch_of (h ++ MBegin b :: l) n = b
  /\ (result_of (h ++ MBegin b :: l) n = Some false <-> In MShutdown h).
Proof.
  intros n. replace (h ++ MBegin b :: l) with ((h ++ [MBegin b]) ++ l) by (rewrite <- app_assoc; reflexivity).
  assert (E : nth_error (m_calls (run (h ++ [MBegin b]))) n = Some (if m_stopped (run h) then Done b false else Running b)).
  { rewrite mrun_snoc. cbn [mstep m_calls]. unfold n. rewrite nth_error_app2, Nat.sub_diag by lia. reflexivity. }
  split.
  - rewrite batch_mono; [|unfold started; apply nth_error_Some; congruence]. unfold batch_of. rewrite E. destruct (m_stopped (run h)); reflexivity.
  - split.
    + intros R. apply stopped_after. destruct (m_stopped (run h)) eqn:S; [reflexivity|]. exfalso.
      assert (G : forall l, nth_error (m_calls (run ((h ++ [MBegin b]) ++ l))) n = Some (Running b)
        \/ nth_error (m_calls (run ((h ++ [MBegin b]) ++ l))) n = Some (Done b true)).
      { clear R l. intros l. induction l as [|e l IH] using rev_ind; [rewrite app_nil_r; auto|]. rewrite app_assoc, mrun_snoc.
        destruct IH as [IH|IH]; destruct (step_calls _ e n _ IH) as [Q|(_ & x & Q1 & Q2)]; auto; [injection Q1 as <-; auto|discriminate]. }
      unfold result_of in R. destruct (G l) as [Q|Q]; rewrite Q in R; discriminate R.
    + intros H. apply stopped_after in H. apply result_mono. unfold result_of. rewrite E, H. reflexivity.
Qed.
End Proofs.

Section Reader.
Context {A : Type}.
Implicit Types (q : reader A) (h : list (qev A)).
Definition held (o : option (list A)) : list A := match o with Some d => d | None => [] end.
Definition pool q : list A := returned (q_gets q) ++ held (q_data q) ++ returned (q_flushes q) ++ q_new q.

Lemma qrun_snoc h e : qrun (h ++ [e]) q_init = qstep (qrun h q_init) e.
Proof. unfold qrun. rewrite fold_left_app. reflexivity. Qed.
Lemma returned_app (a b : list (option (list A))) : returned (a ++ b) = returned a ++ returned b.
Proof. unfold returned. apply flat_map_app. Qed.
Lemma recorded_snoc h e : recorded (h ++ [e]) = recorded h ++ match e with QRecord a => [a] | _ => [] end.
Proof. unfold recorded. rewrite flat_map_app. cbn [flat_map]. now rewrite app_nil_r. Qed.
Lemma held_collect q : held (collect q) = q_new q.
Proof. unfold collect. destruct (q_new q); reflexivity. Qed.
Lemma received_held (c d : option (list A)) : exists l, Permutation (held c ++ held d) (held (received c d) ++ l).
Proof. destruct c as [c|]; cbn [received held]; [exists (held d); reflexivity|exists []; now rewrite app_nil_r]. Qed.

Lemma take_nth (l : list (option (list A))) n c : nth_error l n = Some c ->
  Permutation (returned l) (held c ++ returned (firstn n l ++ None :: skipn (S n) l)).
Proof.
  revert n. induction l as [|x l IH]; intros [|n] H; try discriminate H.
  - injection H as ->. cbn [firstn skipn app]. unfold returned. cbn [flat_map app]. destruct c; reflexivity.
  - cbn [nth_error] in H. cbn [firstn app]. change (skipn (S (S n)) (x :: l)) with (skipn (S n) l).
    change (returned (x :: l)) with (held x ++ returned l).
    change (returned (x :: firstn n l ++ None :: skipn (S n) l)) with (held x ++ returned (firstn n l ++ None :: skipn (S n) l)).
    rewrite (IH n H), !app_assoc. apply Permutation_app_tail, Permutation_app_comm.
Qed.
(** Nothing is made up: all that is there, and something lost, is what was recorded. *)
Lemma accounted h : exists lost, Permutation (recorded h) (pool (qrun h q_init) ++ lost).
Proof.
  induction h as [|e h [lost IH]] using rev_ind; [exists []; reflexivity|]. rewrite qrun_snoc, recorded_snoc.
  set (q := qrun h q_init) in *. unfold pool in *. destruct e as [a| |n|]; cbn [qstep q_gets q_data q_flushes q_new].
  - exists lost. rewrite IH, <- !app_assoc. do 4 apply Permutation_app_head. apply Permutation_app_comm.
  - exists lost. rewrite app_nil_r, IH, returned_app. change (returned [collect q]) with (held (collect q) ++ []).
    rewrite held_collect, !app_nil_r, <- !app_assoc. reflexivity.
  - rewrite app_nil_r. destruct (nth_error (q_flushes q) n) as [c|] eqn:E; [|exists lost; exact IH]. cbn [q_gets q_data q_flushes q_new].
    destruct (received_held c (q_data q)) as [l Hl]. exists (l ++ lost). rewrite IH, (take_nth _ _ _ E).
    rewrite <- !app_assoc. apply Permutation_app_head.
    set (r := returned (firstn n (q_flushes q) ++ None :: skipn (S n) (q_flushes q))).
    transitivity ((held c ++ held (q_data q)) ++ r ++ q_new q ++ lost).
    { rewrite !app_assoc. do 3 apply Permutation_app_tail. apply Permutation_app_comm. }
    rewrite Hl, <- !app_assoc. apply Permutation_app_head. rewrite !app_assoc. apply Permutation_app_tail. rewrite <- app_assoc. apply Permutation_app_comm.
  - rewrite app_nil_r. destruct (received_held (collect q) (q_data q)) as [l Hl]. rewrite held_collect in Hl. exists (l ++ lost).
    rewrite IH, returned_app. change (returned [received (collect q) (q_data q)]) with (held (received (collect q) (q_data q)) ++ []).
    rewrite !app_nil_r, <- !app_assoc. apply Permutation_app_head. cbn [held app].
    transitivity ((q_new q ++ held (q_data q)) ++ returned (q_flushes q) ++ lost).
    { rewrite !app_assoc. apply Permutation_app_tail. rewrite <- !app_assoc. rewrite (Permutation_app_comm (q_new q)), <- app_assoc. reflexivity. }
    rewrite Hl, <- !app_assoc. apply Permutation_app_head. rewrite !app_assoc. apply Permutation_app_tail, Permutation_app_comm.
Qed.
(** Without other collections the gets return everything in order. *)
Lemma only_gets h : Forall (fun e => match e with QCollect | QReceive _ => False | _ => True end) h ->
  q_flushes (qrun h q_init) = [] /\ q_data (qrun h q_init) = None /\ recorded h = returned (q_gets (qrun h q_init)) ++ q_new (qrun h q_init).
Proof.
  induction h as [|e h IH] using rev_ind; intros F; [now auto|]. apply Forall_app in F as [F1 F2]. inversion F2 as [|? ? He _]; subst.
  destruct (IH F1) as (Ef & Ed & Er). rewrite qrun_snoc, recorded_snoc. destruct e as [a| |n|]; [|destruct He|destruct He|]; cbn [qstep q_gets q_data q_flushes q_new].
  - split; [exact Ef|]. split; [exact Ed|]. rewrite Er, <- app_assoc. reflexivity.
  - split; [exact Ef|]. split; [reflexivity|]. rewrite !app_nil_r, Ed, Er, returned_app. f_equal.
    unfold collect, returned. destruct (q_new (qrun h q_init)); cbn; now rewrite ?app_nil_r.
Qed.
End Reader.
