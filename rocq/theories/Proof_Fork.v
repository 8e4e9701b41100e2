(** Proofs about processes that fork. *)
From Verif Require Import Spec_Fork Proof_Processor Proof_Batch.
From Coq Require Import Lia.
Local Open Scope nat_scope.

Section Fork.
Variable X : Type.
Variable sampled : X -> bool.
Variable maxq maxb : nat.
Hypothesis Q1 : 1 <= maxq.
Hypothesis B1 : 1 <= maxb.
Notation item := (nat * X)%type.
Notation cs := (call_sampled X sampled).
Notation pstep := (pstep X sampled maxq maxb).
Notation prun := (prun X sampled maxq maxb).
Notation reach := (bsp_reach item cs maxq maxb).
Notation bstep := (bsp_step item cs maxq maxb).
Notation brun := (bsp_run item cs maxq maxb).

Lemma nth_put_proc (l : list (bsp item)) p s : forall q, nth_error (put_proc X p s l) q = if Nat.eqb p q then option_map (fun _ => s) (nth_error l q) else nth_error l q.
Proof. revert p. induction l as [|y l IH]; intros p q; [destruct p, q; try reflexivity; cbn; now destruct (Nat.eqb p q)|]. destruct p, q; try reflexivity. cbn. apply IH. Qed.

Definition called (w : pworld X) (p n : nat) (x : X) : Prop := nth_error (p_calls w) n = Some (p, x).
Definition winv (w : pworld X) : Prop :=
  (forall p s, nth_error (p_procs w) p = Some s -> reach s /\ ninv X cs (called w p) s)
  /\ (forall p x, In (p, x) (p_calls w) -> p < length (p_procs w)).
Lemma winv_init : winv (pworld_init X).
Proof.
  split; [|intros p x []]. intros [|[|p]] s H; try discriminate. cbn in H. injection H as <-. split; [apply br_init|]. apply ninv_init. intros n x C. unfold called in C. cbn in C. now destruct n.
Qed.
Lemma put_proc_length p s (l : list (bsp item)) : length (put_proc X p s l) = length l.
Proof. revert p. induction l as [|y l IH]; intros [|p]; cbn; auto. Qed.
Lemma called_old (l : list (nat * X)) p q y n x : nth_error (l ++ [(q, y)]) n = Some (p, x) <-> nth_error l n = Some (p, x) \/ (n = length l /\ q = p /\ y = x).
Proof.
  destruct (Nat.lt_ge_cases n (length l)) as [L|L].
  - rewrite nth_error_app1 by exact L. split; [auto|]. intros [H|(-> & _)]; [exact H|lia].
  - rewrite nth_error_app2 by exact L. assert (N : nth_error l n = None) by now apply nth_error_None. rewrite N. destruct (n - length l) as [|k] eqn:E.
    + cbn. split; [intros H; injection H as -> ->; right; repeat split; lia|]. intros [H|(_ & -> & ->)]; [discriminate|reflexivity].
    + cbn. split; [destruct k; discriminate|]. intros [H|(-> & _)]; [discriminate|lia].
Qed.
Lemma winv_step w pe : winv w -> winv (pstep w pe).
Proof.
  intros (I & L). destruct pe as [p e]. unfold Model_Fork.pstep. destruct (nth_error (p_procs w) p) as [s|] eqn:N; [|split; assumption].
  destruct (to_bev X (length (p_calls w)) e) as [b|] eqn:B.
  - destruct (bstep s b) as [s'|] eqn:E; [|split; assumption]. destruct (I p s N) as [R IN].
    assert (CASE : (exists t x, e = POnEnd t x /\ b = ECall t (COnEnd (length (p_calls w), x))) \/ ((forall t x, e <> POnEnd t x) /\ (forall t x, b <> ECall t (COnEnd x)))).
    { destruct e; try discriminate B; injection B as <-; [right|left; eauto|right|right|right|right]; split; discriminate. }
    destruct CASE as [(t & x & -> & ->)|[NE NB]].
    + split; cbn [p_procs p_calls].
      * intros q s1 H. rewrite nth_put_proc in H. destruct (Nat.eqb_spec p q) as [<-|NQ].
        { rewrite N in H. cbn in H. injection H as <-. split; [eapply br_step; eassumption|]. eapply ninv_call; [exact IN|exact E| |].
          - intros y C. unfold called in C. assert (length (p_calls w) < length (p_calls w)) by (apply nth_error_Some; congruence). lia.
          - intros m y. unfold called. cbn [p_calls]. rewrite called_old. split; [intros [H|(-> & _ & ->)]; auto|]. intros [H|H]; [auto|]. injection H as -> ->. auto. }
        destruct (I q s1 H) as [R1 IN1]. split; [exact R1|]. eapply ninv_iff; [|exact IN1]. intros m y. unfold called. cbn [p_calls]. rewrite called_old. split; [auto|]. intros [H1|(_ & H1 & _)]; [exact H1|congruence].
      * intros q y H. rewrite put_proc_length. apply in_app_or in H. destruct H as [H|[H|[]]]; [eauto|]. injection H as -> ->. apply nth_error_Some. congruence.
    + assert (Z : (match e with POnEnd _ x => [(p, x)] | _ => [] end : list (nat * X)) = []) by (destruct e; try reflexivity; now destruct (NE t x)).
      rewrite Z, app_nil_r. split; cbn [p_procs p_calls].
      * intros q s1 H. rewrite nth_put_proc in H. destruct (Nat.eqb_spec p q) as [<-|NQ]; [|exact (I q s1 H)].
        rewrite N in H. cbn in H. injection H as <-. split; [eapply br_step; eassumption|]. exact (ninv_proc X cs maxq maxb _ s b s' IN E NB).
      * intros q y H. rewrite put_proc_length. eauto.
  - destruct e; try (split; assumption). destruct (in_no_call item (b_thr s t)); [|split; assumption]. split; cbn [p_procs p_calls].
    + intros q s1 H. destruct (Nat.lt_ge_cases q (length (p_procs w))) as [LT|GE].
      * rewrite nth_error_app1 in H by exact LT. exact (I q s1 H).
      * rewrite nth_error_app2 in H by exact GE. destruct (q - length (p_procs w)) as [|k] eqn:D; [|destruct k; discriminate]. cbn in H. injection H as <-.
        split; [apply br_fork, (I p s N)|]. apply ninv_fork. intros n x C. unfold called in C. cbn [p_calls] in C. apply nth_error_In in C. apply L in C. lia.
    + intros q y H. rewrite app_length. apply L in H. lia.
Qed.
Lemma prun_app es es' w : prun (es ++ es') w = prun es' (prun es w). Proof. apply fold_left_app. Qed.
Lemma winv_run es : forall w, winv w -> winv (prun es w).
Proof. induction es as [|e es IH]; intros w I; [exact I|]. apply IH. now apply winv_step. Qed.
Lemma winv_start es : winv (prun es (pworld_init X)). Proof. apply winv_run, winv_init. Qed.

Lemma NoDup_concat {A} (ls : list (list A)) : (forall i l, nth_error ls i = Some l -> NoDup l) ->
  (forall i j l k x, nth_error ls i = Some l -> nth_error ls j = Some k -> In x l -> In x k -> i = j) -> NoDup (concat ls).
Proof.
  induction ls as [|l ls IH]; intros N D; [constructor|]. cbn.
  assert (N1 : NoDup l) by exact (N 0 l eq_refl). assert (N2 : NoDup (concat ls)).
  { apply IH; [intros i k H; exact (N (S i) k H)|]. intros i j a b x Hi Hj Ia Ib. pose proof (D (S i) (S j) a b x Hi Hj Ia Ib). lia. }
  assert (DJ : forall x, In x l -> ~ In x (concat ls)).
  { intros x I J. apply in_concat in J. destruct J as (k & K & J). apply In_nth_error in K. destruct K as (i & K). pose proof (D 0 (S i) l k x eq_refl K I J). lia. }
  clear -N1 N2 DJ. induction l as [|y l IH]; [exact N2|]. cbn. inversion N1; subst. constructor.
  - rewrite in_app_iff. intros [J|J]; [contradiction|]. apply (DJ y); [now left|exact J].
  - apply IH; [assumption|]. intros x I. apply DJ. now right.
Qed.
Lemma exported_once w : winv w -> NoDup (map fst (all_exported w)).
Proof.
  intros (I & _). unfold all_exported. rewrite concat_map, map_map. apply NoDup_concat.
  - intros i l H. rewrite nth_error_map in H. destruct (nth_error (p_procs w) i) as [s|] eqn:E; [|discriminate]. cbn in H. injection H as <-. destruct (I i s E) as [R IN]. exact (handed_once X cs maxq maxb Q1 B1 _ s R IN).
  - intros i j l k n Hi Hj Il Ik. rewrite nth_error_map in Hi, Hj. destruct (nth_error (p_procs w) i) as [s|] eqn:Ei; [|discriminate]. destruct (nth_error (p_procs w) j) as [s'|] eqn:Ej; [|discriminate].
    cbn in Hi, Hj. injection Hi as <-. injection Hj as <-. apply in_map_iff in Il, Ik. destruct Il as ([n1 x] & E1 & Il), Ik as ([n2 y] & E2 & Ik). cbn in E1, E2. subst n1 n2.
    destruct (I i s Ei) as [R IN], (I j s' Ej) as [R' IN']. apply handed_acc with (item_sampled := cs) (maxq := maxq) (maxb := maxb) in Il; auto. apply handed_acc with (item_sampled := cs) (maxq := maxq) (maxb := maxb) in Ik; auto.
    pose proof (n_acc _ _ _ _ IN _ _ Il) as A. pose proof (n_acc _ _ _ _ IN' _ _ Ik) as A'. unfold called in A, A'. congruence.
Qed.
Lemma exported_where w p s n x : winv w -> nth_error (p_procs w) p = Some s -> In (n, x) (exported_by s) -> nth_error (p_calls w) n = Some (p, x) /\ sampled x = true.
Proof.
  intros (I & _) N J. destruct (I p s N) as [R IN]. apply handed_acc with (item_sampled := cs) (maxq := maxq) (maxb := maxb) in J; auto. split; [exact (n_acc _ _ _ _ IN _ _ J)|].
  destruct (c34_conservation item cs maxq maxb Q1 B1 s R) as (_ & _ & _ & S & _). exact (S _ J).
Qed.

(** One process as it goes on *)
Lemma run_projection p t es : makes_no_call p t es -> forall w s, nth_error (p_procs w) p = Some s ->
  exists bs, nth_error (p_procs (prun es w)) p = Some (brun bs s) /\ forall c, ~ In (ECall t c) bs.
Proof.
  induction es as [|[q e] es IH]; intros NC w s N; [exists []; split; [exact N|auto]|].
  assert (NC' : makes_no_call p t es) by (destruct NC as (A & B & C); split; [intros x H; apply (A x); now right|]; split; intros H; [apply B|apply C]; now right).
  change (prun ((q, e) :: es) w) with (prun es (pstep w (q, e))).
  assert (ST : exists bs, nth_error (p_procs (pstep w (q, e))) p = Some (brun bs s) /\ forall c, ~ In (ECall t c) bs).
  { unfold Model_Fork.pstep. destruct (nth_error (p_procs w) q) as [s1|] eqn:N1; [|exists []; auto]. destruct (to_bev X (length (p_calls w)) e) as [b|] eqn:B.
    - destruct (bstep s1 b) as [s2|] eqn:E; [|exists []; auto]. cbn [p_procs]. destruct (Nat.eq_dec q p) as [->|NQ].
      + assert (s1 = s) by congruence. subst s1. exists [b]. split; [rewrite nth_put_proc, Nat.eqb_refl, N; cbn [option_map bsp_run]; now rewrite E|]. intros c [->|[]].
        destruct e; try discriminate B; injection B as -> <-; destruct NC as (A1 & A2 & A3); [apply (A1 x)|apply A2|apply A3]; now left.
      + exists []. split; [|auto]. rewrite nth_put_proc. destruct (Nat.eqb_spec q p); [contradiction|exact N].
    - destruct e; try (exists []; auto; fail). destruct (in_no_call item (b_thr s1 t0)); [|exists []; auto]. exists []. split; [|auto]. cbn [p_procs]. rewrite nth_error_app1; [exact N|]. apply nth_error_Some. congruence. }
  destruct ST as (bs & N1 & NB). destruct (IH NC' _ _ N1) as (bs' & N2 & NB'). exists (bs ++ bs'). rewrite brun_app. split; [exact N2|]. intros c H. apply in_app_or in H. destruct H as [H|H]; [exact (NB c H)|exact (NB' c H)].
Qed.
Lemma run_procs es : forall w p s, nth_error (p_procs w) p = Some s -> exists bs, nth_error (p_procs (prun es w)) p = Some (brun bs s).
Proof.
  induction es as [|[q e] es IH]; intros w p s N; [exists []; exact N|]. change (prun ((q, e) :: es) w) with (prun es (pstep w (q, e))).
  assert (ST : exists bs, nth_error (p_procs (pstep w (q, e))) p = Some (brun bs s)).
  { unfold Model_Fork.pstep. destruct (nth_error (p_procs w) q) as [s1|] eqn:N1; [|exists []; auto]. destruct (to_bev X (length (p_calls w)) e) as [b|] eqn:B.
    - destruct (bstep s1 b) as [s2|] eqn:E; [|exists []; auto]. cbn [p_procs]. rewrite nth_put_proc. destruct (Nat.eqb_spec q p) as [->|NQ]; [|exists []; exact N].
      assert (s1 = s) by congruence. subst s1. exists [b]. rewrite N. cbn [option_map bsp_run]. now rewrite E.
    - destruct e; try (exists []; auto; fail). destruct (in_no_call item (b_thr s1 t)); [|exists []; auto]. exists []. cbn [p_procs]. rewrite nth_error_app1; [exact N|]. apply nth_error_Some. congruence. }
  destruct ST as (bs & N1). destruct (IH _ _ _ N1) as (bs' & N2). exists (bs ++ bs'). now rewrite brun_app.
Qed.
Lemma ninv_nodup P s : ninv X cs P s -> NoDup (b_acc s).
Proof. intros I. eapply NoDup_map_inv. apply (n_once _ _ _ _ I). Qed.
(** Calls of force_flush and shutdown settle what has come past the queue of their process. *)
Lemma call_exports before later p t s0 s e : nth_error (p_procs (prun before (pworld_init X))) p = Some s0 -> in_no_call item (b_thr s0 t) = true -> b_done s0 = false ->
  makes_no_call p t later -> nth_error (p_procs (prun (before ++ (p, e) :: later) (pworld_init X))) p = Some s ->
  (e = PFlush t /\ (exists n0, b_thr s t = TFlushRet n0 false true)) \/ (e = PShutdown t /\ (exists n0 f, b_thr s t = TShutRet n0 f)) ->
  forall n x, nth_error (p_calls (prun before (pworld_init X))) n = Some (p, x) -> sampled x = true -> ~ on_its_way s0 (n, x) ->
  (In (n, x) (exported_by s) \/ dropped_by s (n, x)) /\ (length (b_acc s) <= maxq -> In (n, x) (exported_by s)).
Proof.
  intros N0 NC D MN N1 CASE n x C SM NW. set (w0 := prun before (pworld_init X)) in *. destruct (winv_start before) as (I0 & _). fold w0 in I0. destruct (I0 p s0 N0) as [R0 IN0].
  assert (A0 : In (n, x) (b_acc s0)).
  { destruct (n_all _ _ _ _ IN0 n x C SM) as [A|[(t' & A)|A]]; [exact A| |congruence]. exfalso. apply NW. exists t'. unfold carried in A. destruct (b_thr s0 t'); try discriminate A; injection A as ->; auto. }
  rewrite prun_app in N1. fold w0 in N1. change (prun ((p, e) :: later) w0) with (prun later (pstep w0 (p, e))) in N1.
  assert (B : exists b, (e = PFlush t /\ b = ECall t CFlush \/ e = PShutdown t /\ b = ECall t CShutdown) /\ nth_error (p_procs (pstep w0 (p, e))) p = Some (brun [b] s0)).
  { destruct CASE as [[-> _]|[-> _]]; [exists (ECall t CFlush)|exists (ECall t CShutdown)]; (split; [auto|]); unfold Model_Fork.pstep; rewrite N0; cbn [to_bev bsp_run bsp_step]; rewrite NC; cbn [p_procs]; rewrite nth_put_proc, Nat.eqb_refl, N0; reflexivity. }
  destruct B as (b & CB & N2). destruct (run_projection p t later MN _ _ N2) as (bs & N3 & NB). assert (ES : s = brun (b :: bs) s0) by (cbn [bsp_run] in N3 |- *; congruence).
  destruct (winv_start (before ++ (p, e) :: later)) as (I1 & _). rewrite prun_app in I1. fold w0 in I1. destruct (I1 p s N1) as [R1 IN1].
  destruct (call_settles item cs maxq maxb Q1 B1 s0 t bs R0 NC NB s) as (_ & l & AL & ST).
  { destruct CASE as [[-> T]|[-> T]]; destruct CB as [[E1 ->]|[E1 ->]]; try discriminate E1; [left|right]; auto. }
  assert (OR : In (n, x) (handed_over (b_log s)) \/ In ((n, x), Evicted) (b_gone s)) by (eapply settled_item with (item_sampled := cs) (maxq := maxq) (maxb := maxb); eauto using ninv_nodup).
  split; [exact OR|]. intros LE. destruct OR as [OR|OR]; [exact OR|]. exfalso. pose proof (evicted_full item cs maxq maxb Q1 B1 s R1 _ OR). lia.
Qed.
Lemma process_progress es p s t : nth_error (p_procs (prun es (pworld_init X))) p = Some s -> in_no_call item (b_thr s t) = false ->
  exists s', bstep s EWork = Some s' \/ bstep s (EStep t) = Some s' \/ bstep s (ETimeout t) = Some s'.
Proof. intros N C. destruct (winv_start es) as (I & _). destruct (I p s N) as [R _]. now apply (progress item cs maxq maxb Q1 B1 s t R). Qed.
Lemma fork_child w p s t : nth_error (p_procs w) p = Some s -> in_no_call item (b_thr s t) = true ->
  pstep w (p, PFork t) = PW (p_procs w ++ [bsp_fork item s]) (p_calls w).
Proof. intros N C. unfold Model_Fork.pstep. rewrite N. cbn [to_bev]. now rewrite C. Qed.
End Fork.
