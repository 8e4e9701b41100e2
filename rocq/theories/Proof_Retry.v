(** Proofs for C54. *)
From Verif Require Import Spec_Retry.
From Coq Require Import Lia.
Local Open Scope Z_scope.

(** ** HTTP *)
Lemma backoff64 i : Z.eqb (backoff 64 i) 64 = true <-> (6 <= i)%nat.
Proof.
  unfold backoff. change (Z.eqb 64 0) with false. cbn [negb]. cbv iota. rewrite Z.eqb_eq. split.
  - intros H. destruct (le_lt_dec 6 i) as [L|L]; [exact L|]. exfalso.
    assert (2 ^ Z.of_nat i <= 2 ^ 5) by (apply Z.pow_le_mono_r; lia). change (2 ^ 5) with 32 in *. lia.
  - intros H. assert (2 ^ 6 <= 2 ^ Z.of_nat i) by (apply Z.pow_le_mono_r; lia). change (2 ^ 6) with 64 in *. lia.
Qed.
Lemma backoff_small i : (i < 6)%nat -> backoff 64 i = 2 ^ Z.of_nat i.
Proof.
  intros H. unfold backoff. change (Z.eqb 64 0) with false. cbv iota.
  assert (2 ^ Z.of_nat i <= 2 ^ 5) by (apply Z.pow_le_mono_r; lia). change (2 ^ 5) with 32 in *. lia.
Qed.
Lemma retryable_ok code : retryable code = true <-> code = 408 \/ 500 <= code <= 599.
Proof. unfold retryable. rewrite orb_true_iff, andb_true_iff, Z.eqb_eq, Z.geb_le, Z.leb_le. lia. Qed.
Lemma resp_ok_ok code : resp_ok code = true <-> ~ 400 <= code <= 599.
Proof. unfold resp_ok. rewrite negb_true_iff, andb_false_iff, Z.leb_gt, Z.ltb_ge. lia. Qed.
Lemma firstn_seconds i : (i < 6)%nat -> firstn i seconds ++ [2 ^ Z.of_nat i] = firstn (S i) seconds.
Proof. intros H. do 6 (destruct i as [|i]; [reflexivity|]). lia. Qed.
Lemma http_loop_ok answers : forall fuel i, (i <= 6)%nat -> (7 <= fuel + i)%nat -> (forall j, (j < i)%nat -> http_again (answers j)) ->
  exists c, http_loop answers fuel i (firstn i seconds) = Some c /\ retried answers c.
Proof.
  induction fuel as [|fuel IH]; intros i Hi Hf Ha; [lia|]. cbn [http_loop]. unfold MAX_RETRY_TIMEOUT.
  destruct (Z.eqb (backoff 64 i) 64) eqn:E.
  - apply backoff64 in E. assert (i = 6)%nat by lia. subst i. eexists. split; [reflexivity|]. right. cbn. auto.
  - assert (i < 6)%nat by (destruct (le_lt_dec 6 i) as [L|L]; [apply backoff64 in L; congruence|exact L]).
    destruct (answers i) as [code|] eqn:A.
    + destruct (resp_ok code) eqn:R.
      * eexists. split; [reflexivity|]. left. exists i. apply resp_ok_ok in R. split; [lia|]. split; [exact Ha|]. rewrite A. split.
        { intros (c & Q & D). injection Q as <-. lia. }
        split; [|cbn; auto]. left. split; [|reflexivity]. exists code. split; [reflexivity|lia].
      * destruct (retryable code) eqn:T.
        { apply retryable_ok in T. rewrite (backoff_small i) by lia. rewrite firstn_seconds by lia. apply IH; try lia.
          intros j Hj. destruct (Nat.eq_dec j i) as [->|N]; [rewrite A; exists code; auto|]. apply Ha. lia. }
        eexists. split; [reflexivity|]. left. exists i. split; [lia|]. split; [exact Ha|]. rewrite A.
        assert (NT : ~ (code = 408 \/ 500 <= code <= 599)) by (intros Q; apply retryable_ok in Q; congruence).
        assert (NR : ~ ~ 400 <= code <= 599) by (intros Q; apply resp_ok_ok in Q; congruence). split.
        { intros (c & Q & D). injection Q as <-. lia. }
        split; [|cbn; auto]. right. left. split; [|reflexivity]. exists code. split; [reflexivity|lia].
    + eexists. split; [reflexivity|]. left. exists i. split; [lia|]. split; [exact Ha|]. rewrite A. split; [intros (c & Q & _); discriminate|].
      split; [|cbn; auto]. right. right. auto.
Qed.

(** ** gRPC *)
Lemma transient_ok code : transient code = true <-> passing code.
Proof.
  unfold transient, passing. rewrite existsb_exists. split.
  - intros (x & I & E). apply Z.eqb_eq in E. subst x. cbn in I. intuition.
  - intros D. exists code. split; [cbn; intuition|apply Z.eqb_refl].
Qed.
Lemma can_sleep_ok d : can_sleep d = true <-> 0 <= d < 2 ^ 63.
Proof. unfold can_sleep. rewrite andb_true_iff, Z.leb_le, Z.ltb_lt. reflexivity. Qed.
Lemma delay_usable delay info : (exists d, grpc_delay delay info = Some d /\ d = match info with Some (Some d) => d | _ => delay * 1000000000 end /\ usable info)
  \/ (grpc_delay delay info = None /\ ~ usable info).
Proof.
  unfold grpc_delay, usable. destruct info as [[d|]|].
  - destruct (can_sleep d) eqn:C.
    + left. exists d. apply can_sleep_ok in C. eauto 6.
    + right. split; [reflexivity|]. intros [Q|(d' & Q & R)]; [discriminate|]. injection Q as <-. apply can_sleep_ok in R. congruence.
  - right. split; [reflexivity|]. intros [Q|(d' & Q & _)]; discriminate.
  - left. eexists. eauto 6.
Qed.
Lemma nth_set_same {A} n (x : A) l : (n < length l)%nat -> nth_error (set_nth n x l) n = Some x.
Proof. revert n. induction l as [|y l IH]; intros [|n] H; cbn in *; try lia; [reflexivity|]. apply IH. lia. Qed.
Lemma nth_set_other {A} n m (x : A) l : n <> m -> nth_error (set_nth n x l) m = nth_error l m.
Proof. revert n m. induction l as [|y l IH]; intros [|n] [|m] H; cbn; try reflexivity; try congruence. apply IH. congruence. Qed.

(** What holds of a thread's place, its answers and its sleeps *)
Definition pinv (p : xpc) (ans : list grpc_answer) (sl : list Z) : Prop :=
  match p with
  | XCheck => ans = [] /\ sl = []
  | XLoop i | XLeave i None => length ans = i /\ (i <= 6)%nat /\ Forall grpc_again ans /\ sl = waits_after 1 ans
  | XWant i | XIn i => length ans = i /\ (i < 6)%nat /\ Forall grpc_again ans /\ sl = waits_after 1 ans
  | XSleep i d => length ans = i /\ (i <= 6)%nat /\ Forall grpc_again ans /\ sl ++ [d] = waits_after 1 ans
  | XLeave i (Some e) =>
      length ans = i /\ (i <= 6)%nat /\ exists before last, ans = before ++ [last] /\ Forall grpc_again before /\ ~ grpc_again last
        /\ grpc_verdict last e /\ sl = waits_after 1 before
  | XDone i e =>
      length ans = i /\ (i <= 6)%nat /\
      ((Forall grpc_again ans /\ (e = Returned FAILURE \/ e = Raised) /\ sl = waits_after 1 ans)
       \/ exists before last e', ans = before ++ [last] /\ Forall grpc_again before /\ ~ grpc_again last
            /\ grpc_verdict last e' /\ (e = e' \/ e = Raised) /\ sl = waits_after 1 before)
  | _ => ans = [] /\ sl = []
  end.
Lemma waits_app l a : forall secs, waits_after secs (l ++ [a]) = waits_after secs l ++ [match a with GError _ (Some (Some d)) => d | _ => secs * 2 ^ Z.of_nat (length l) * 1000000000 end].
Proof.
  induction l as [|b l IH]; intros secs; cbn [waits_after app length].
  - cbn [Z.of_nat]. rewrite Z.pow_0_r, Z.mul_1_r. reflexivity.
  - rewrite IH. f_equal. f_equal. rewrite Nat2Z.inj_succ, Z.pow_succ_r by lia. replace (2 * secs * 2 ^ Z.of_nat (length l)) with (secs * (2 * 2 ^ Z.of_nat (length l))) by lia. reflexivity.
Qed.
Lemma attempts_app t a b : attempts_of t (a ++ b) = attempts_of t a ++ attempts_of t b.
Proof. unfold attempts_of. apply flat_map_app. Qed.
Lemma sleeps_app t a b : sleeps_of t (a ++ b) = sleeps_of t a ++ sleeps_of t b.
Proof. unfold sleeps_of. apply flat_map_app. Qed.
Lemma pinv_step t p c shut lock p' shut' lock' ev ans sl : pinv p ans sl -> pc_step t p c shut lock = (p', shut', lock', ev) ->
  pinv p' (ans ++ attempts_of t ev) (sl ++ sleeps_of t ev).
Proof.
  intros H E. destruct p; cbn [pc_step] in E.
  - destruct H as [-> ->]. destruct shut; injection E as <- <- <- <-; cbn.
    + split; [reflexivity|]. split; [lia|]. left. auto.
    + split; [reflexivity|]. split; [lia|]. auto.
  - destruct H as (L & B & F & SW). destruct (Z.eqb (backoff 64 i) 64 || shut) eqn:Q; injection E as <- <- <- <-; cbn; rewrite !app_nil_r.
    + split; [exact L|]. split; [exact B|]. left. auto.
    + apply orb_false_iff in Q. destruct Q as [Q _]. split; [exact L|]. split; [|auto].
      destruct (le_lt_dec 6 i) as [L2|L2]; [apply backoff64 in L2; congruence|exact L2].
  - destruct lock; injection E as <- <- <- <-; cbn; rewrite !app_nil_r; exact H.
  - destruct H as (L & B & F & SW). injection E as E <- <- <-. assert (QA : attempts_of t [EAttempt t (gc_answer c)] = [gc_answer c]) by (cbn; now rewrite Nat.eqb_refl). rewrite QA. clear QA. change (sleeps_of t [EAttempt t (gc_answer c)]) with (@nil Z). rewrite app_nil_r.
    assert (Len : length (ans ++ [gc_answer c]) = S i) by (rewrite app_length; cbn; lia).
    destruct (gc_answer c) as [|code info|] eqn:A.
    + subst p'. cbn. split; [exact Len|]. split; [lia|]. exists ans, GOk. split; [reflexivity|]. split; [exact F|]. split; [intros (x & y & Q & _); discriminate|].
      split; [left; split; [left; reflexivity|reflexivity]|exact SW].
    + destruct (transient code) eqn:T.
      * apply transient_ok in T. destruct (delay_usable (backoff 64 i) info) as [(d & D & Dd & U)|[D U]]; rewrite D in E; subst p'.
        { cbn [pinv]. split; [exact Len|]. split; [lia|]. split.
          { apply Forall_app. split; [exact F|]. constructor; [|constructor]. exists code, info. auto. }
          rewrite waits_app, SW, L. rewrite (backoff_small i) in Dd by lia. rewrite Dd. destruct info as [[d'|]|]; now rewrite ?Z.mul_1_l. }
        cbn. split; [exact Len|]. split; [lia|]. eexists; eexists; split; [reflexivity|]; split; [exact F|].
        split; [intros (x & y & Q & _ & Y); injection Q as -> ->; contradiction|]. split; [|exact SW]. right. right. left. eauto 6.
      * assert (NP : ~ passing code) by (intros Q; apply transient_ok in Q; congruence).
        assert (NA : ~ grpc_again (GError code info)) by (intros (x & y & Q & X & _); injection Q as -> ->; contradiction).
        destruct (Z.eqb_spec code 0) as [->|N]; subst p'; cbn; (split; [exact Len|]; split; [lia|]; eexists; eexists; split; [reflexivity|]; split; [exact F|]; split; [exact NA|]; split; [|exact SW]).
        -- left. split; [right; eauto|reflexivity].
        -- right. right. right. split; [eauto|]. split; [|reflexivity]. intros [Q|[i' Q]]; [discriminate|]. injection Q as Q _. congruence.
    + subst p'. cbn. split; [exact Len|]. split; [lia|]. exists ans, GException. split; [reflexivity|]. split; [exact F|]. split; [intros (x & y & Q & _); discriminate|].
      split; [right; left; auto|exact SW].
  - destruct H as (L & B & F & SW). injection E as <- <- <- <-. cbn. rewrite Nat.eqb_refl, app_nil_r. cbn. auto.
  - destruct lock.
    + destruct next as [e|]; injection E as <- <- <- <-; cbn; rewrite !app_nil_r.
      * destruct H as (L & B & before & last & -> & F & N & V & SW). split; [exact L|]. split; [exact B|]. right. exists before, last, e. auto 8.
      * exact H.
    + injection E as <- <- <- <-. cbn. rewrite !app_nil_r. destruct next as [e|]; destruct H as (L & B & H).
      * destruct H as (before & last & -> & F & N & V & SW). split; [exact L|]. split; [exact B|]. right. exists before, last, e. auto 8.
      * destruct H as (F & SW). split; [exact L|]. split; [exact B|]. left. auto.
  - injection E as <- <- <- <-. cbn. rewrite !app_nil_r. exact H.
  - destruct shut; injection E as <- <- <- <-; cbn; rewrite !app_nil_r; exact H.
  - destruct lock; [destruct (gc_timeout c)|]; injection E as <- <- <- <-; cbn; rewrite !app_nil_r; exact H.
  - injection E as <- <- <- <-. cbn. rewrite !app_nil_r; exact H.
  - destruct lock; injection E as <- <- <- <-; cbn; rewrite !app_nil_r; exact H.
  - injection E as <- <- <- <-. cbn. rewrite !app_nil_r; exact H.
  - injection E as <- <- <- <-. cbn. rewrite !app_nil_r; exact H.
Qed.
Lemma other_events t t' p c shut lock p' shut' lock' ev : t' <> t -> pc_step t' p c shut lock = (p', shut', lock', ev) -> attempts_of t ev = [] /\ sleeps_of t ev = [].
Proof.
  intros N E. apply Nat.eqb_neq in N. destruct p; cbn in E;
    repeat match type of E with context [if ?b then _ else _] => destruct b | context [match ?n with None => _ | Some _ => _ end] => destruct n end;
    injection E as <- <- <- <-; cbn; rewrite ?N; auto.
Qed.
Lemma g_step_thread s c s' ev t p : g_step s c = (s', ev) -> nth_error (g_threads s) t = Some p ->
  (gc_thread c = t /\ exists p' , pc_step t p c (g_shut s) (g_lock s) = (p', g_shut s', g_lock s', ev) /\ nth_error (g_threads s') t = Some p')
  \/ (gc_thread c <> t /\ nth_error (g_threads s') t = Some p /\ attempts_of t ev = [] /\ sleeps_of t ev = []).
Proof.
  unfold g_step. intros E P. destruct (Nat.eq_dec (gc_thread c) t) as [<-|N].
  - left. split; [reflexivity|]. rewrite P in E. destruct (pc_step (gc_thread c) p c (g_shut s) (g_lock s)) as [[[p' sh] lo] ev'] eqn:Q.
    injection E as <- <-. cbn. exists p'. split; [reflexivity|]. apply nth_set_same. apply nth_error_Some. congruence.
  - right. split; [exact N|]. destruct (nth_error (g_threads s) (gc_thread c)) as [q|] eqn:Q; [|injection E as <- <-; auto].
    destruct (pc_step (gc_thread c) q c (g_shut s) (g_lock s)) as [[[p' sh] lo] ev'] eqn:R. injection E as <- <-. cbn.
    rewrite nth_set_other by congruence. split; [exact P|]. eapply other_events; eauto.
Qed.
Lemma pinv_run cs : forall s t p ans sl s' ev, nth_error (g_threads s) t = Some p -> pinv p ans sl -> g_run s cs = (s', ev) ->
  exists p', nth_error (g_threads s') t = Some p' /\ pinv p' (ans ++ attempts_of t ev) (sl ++ sleeps_of t ev).
Proof.
  induction cs as [|c cs IH]; intros s t p ans sl s' ev P I E; cbn in E.
  - injection E as <- <-. cbn. rewrite !app_nil_r. eauto.
  - destruct (g_step s c) as [s1 e1] eqn:S1. destruct (g_run s1 cs) as [s2 e2] eqn:S2. injection E as <- <-.
    rewrite attempts_app, sleeps_app, !app_assoc.
    destruct (g_step_thread _ _ _ _ _ _ S1 P) as [[<- (p' & Q & P')]|[N (P' & A & B)]].
    + eapply IH; [exact P'| |exact S2]. eapply pinv_step; eauto.
    + rewrite A, B, !app_nil_r. eapply IH; eauto.
Qed.
Lemma start_pinv calls t p : nth_error (g_threads (g_start calls)) t = Some p -> pinv p [] [].
Proof.
  cbn. intros H. apply nth_error_In, in_map_iff in H. destruct H as [[|] [<- _]]; cbn; auto.
Qed.

(** After the flag is set a thread makes at most one more request. *)
Definition pot (p : xpc) : nat := match p with XWant _ | XIn _ => 1 | _ => 0 end.
Lemma pot_step t p c lock p' shut' lock' ev : pc_step t p c true lock = (p', shut', lock', ev) ->
  shut' = true /\ (length (attempts_of t ev) + pot p' <= pot p)%nat.
Proof.
  intros E. destruct p; cbn [pc_step] in E; rewrite ?orb_true_r in E;
    repeat match type of E with context [if ?b then _ else _] => destruct b | context [match ?n with None => _ | Some _ => _ end] => destruct n end;
    try (injection E as <- <- <- <-; cbn; rewrite ?Nat.eqb_refl; cbn; auto; fail).
  injection E as <- <- <- <-. split; [reflexivity|].
  destruct (gc_answer c); [|destruct (transient code); [destruct (grpc_delay _ _)|destruct (Z.eqb code 0)]|]; cbn; rewrite Nat.eqb_refl; cbn; lia.
Qed.
Lemma shut_mono s c s' ev : g_step s c = (s', ev) -> g_shut s = true -> g_shut s' = true.
Proof.
  unfold g_step. destruct (nth_error (g_threads s) (gc_thread c)) as [p|]; [|intros E; injection E as <- <-; auto].
  intros E H. rewrite H in E. destruct (pc_step (gc_thread c) p c true (g_lock s)) as [[[p' sh] lo] ev'] eqn:R. apply pot_step in R. injection E as <- <-. apply R.
Qed.
Lemma pot_run cs : forall s t p s' ev, g_shut s = true -> nth_error (g_threads s) t = Some p -> g_run s cs = (s', ev) -> (length (attempts_of t ev) <= pot p)%nat.
Proof.
  induction cs as [|c cs IH]; intros s t p s' ev H P E; cbn in E; [injection E as <- <-; cbn; lia|].
  destruct (g_step s c) as [s1 e1] eqn:S1. destruct (g_run s1 cs) as [s2 e2] eqn:S2. injection E as <- <-. rewrite attempts_app, app_length.
  pose proof (shut_mono _ _ _ _ S1 H) as H1.
  destruct (g_step_thread _ _ _ _ _ _ S1 P) as [[<- (p' & Q & P')]|[N (P' & A & B)]].
  - rewrite H in Q. apply pot_step in Q. specialize (IH _ _ _ _ _ H1 P' S2). lia.
  - rewrite A. cbn. eapply IH; eauto.
Qed.

(** ** The lock *)
Definition lock_inv (s : gstate) : Prop := length (filter inside (g_threads s)) = (if g_lock s then 1 else 0)%nat.
Definition no_error (p : xpc) : Prop := match p with SRaised => False | _ => True end.
Lemma filter_set_nth (f : xpc -> bool) n p p' l : nth_error l n = Some p ->
  (length (filter f (set_nth n p' l)) + (if f p then 1 else 0) = length (filter f l) + (if f p' then 1 else 0))%nat.
Proof.
  revert n. induction l as [|q l IH]; intros [|n] H; cbn in *; try discriminate.
  - injection H as ->. destruct (f p), (f p'); cbn; lia.
  - specialize (IH n H). destruct (f q); cbn; lia.
Qed.
Lemma inside_one s n p : lock_inv s -> nth_error (g_threads s) n = Some p -> inside p = true -> g_lock s = true.
Proof.
  unfold lock_inv. intros L H I. destruct (g_lock s); [reflexivity|]. exfalso.
  assert (In p (filter inside (g_threads s))) by (apply filter_In; split; [eapply nth_error_In; eauto|exact I]).
  destruct (filter inside (g_threads s)); [contradiction|discriminate].
Qed.
Lemma lock_pc t p c shut lock p' shut' lock' ev : gc_timeout c = false -> (inside p = true -> lock = true) -> pc_step t p c shut lock = (p', shut', lock', ev) ->
  ((if lock then 1 else 0) + (if inside p' then 1 else 0) = (if lock' then 1 else 0) + (if inside p then 1 else 0))%nat.
Proof.
  intros T I E. destruct p; cbn [pc_step] in E; cbn in I; try rewrite T in E;
    try (specialize (I eq_refl); subst lock);
    repeat match type of E with context [if ?b then _ else _] => destruct b | context [match ?n with None => _ | Some _ => _ end] => destruct n end;
    try (injection E as <- <- <- <-; cbn; lia).
  injection E as <- <- <- <-. destruct (gc_answer c); [|destruct (transient code); [destruct (grpc_delay _ _)|destruct (Z.eqb code 0)]|]; reflexivity.
Qed.
Lemma lock_step s c s' ev : gc_timeout c = false -> lock_inv s -> g_step s c = (s', ev) -> lock_inv s'.
Proof.
  intros T L E. unfold g_step in E. destruct (nth_error (g_threads s) (gc_thread c)) as [p|] eqn:P; [|injection E as <- <-; exact L].
  destruct (pc_step (gc_thread c) p c (g_shut s) (g_lock s)) as [[[p' sh] lo] ev'] eqn:R. injection E as <- <-.
  apply lock_pc in R; [|exact T|eapply inside_one; eauto]. unfold lock_inv in *. cbn [g_threads g_lock].
  pose proof (filter_set_nth inside _ _ p' _ P). lia.
Qed.
(** Without timeouts, what a thread ended with is the verdict. *)
Definition exact (p : xpc) (ans : list grpc_answer) : Prop :=
  match p with
  | XDone _ e => (Forall grpc_again ans /\ e = Returned FAILURE) \/ (exists before last, ans = before ++ [last] /\ ~ grpc_again last /\ grpc_verdict last e)
  | SRaised => False
  | _ => True
  end.
Lemma exact_step t p c shut lock p' shut' lock' ev ans sl : pinv p ans sl -> exact p ans -> (inside p = true -> lock = true) ->
  pc_step t p c shut lock = (p', shut', lock', ev) -> exact p' (ans ++ attempts_of t ev).
Proof.
  intros H X I E. destruct p; cbn [pc_step] in E.
  - destruct H as [-> _]. destruct shut; injection E as <- <- <- <-; cbn; auto.
  - destruct H as (_ & _ & F & _). destruct (_ || _); injection E as <- <- <- <-; cbn; rewrite ?app_nil_r; auto.
  - destruct lock; injection E as <- <- <- <-; exact Logic.I.
  - injection E as E <- <- <-. destruct (gc_answer c); [|destruct (transient code); [destruct (grpc_delay _ _)|destruct (Z.eqb code 0)]|]; subst p'; exact Logic.I.
  - injection E as <- <- <- <-. exact Logic.I.
  - rewrite (I eq_refl) in E. destruct next as [e|]; injection E as <- <- <- <-; cbn; [|exact Logic.I]. rewrite app_nil_r.
    destruct H as (_ & _ & before & last & -> & _ & N & V & _). right. eauto.
  - injection E as <- <- <- <-. cbn. rewrite app_nil_r. exact X.
  - destruct shut; injection E as <- <- <- <-; exact Logic.I.
  - destruct lock; [destruct (gc_timeout c)|]; injection E as <- <- <- <-; exact Logic.I.
  - injection E as <- <- <- <-. exact Logic.I.
  - rewrite (I eq_refl) in E. injection E as <- <- <- <-. exact Logic.I.
  - injection E as <- <- <- <-. exact Logic.I.
  - destruct X.
Qed.
Lemma exact_run cs : no_timeouts cs -> forall s t p ans sl s' ev, lock_inv s -> nth_error (g_threads s) t = Some p -> pinv p ans sl -> exact p ans -> g_run s cs = (s', ev) ->
  lock_inv s' /\ exists p', nth_error (g_threads s') t = Some p' /\ pinv p' (ans ++ attempts_of t ev) (sl ++ sleeps_of t ev) /\ exact p' (ans ++ attempts_of t ev).
Proof.
  induction 1 as [|c cs Hc Hcs IH]; intros s t p ans sl s' ev L P I X E; cbn in E.
  - injection E as <- <-. cbn. rewrite !app_nil_r. eauto.
  - destruct (g_step s c) as [s1 e1] eqn:S1. destruct (g_run s1 cs) as [s2 e2] eqn:S2. injection E as <- <-.
    rewrite attempts_app, sleeps_app, !app_assoc. pose proof (lock_step _ _ _ _ Hc L S1) as L1.
    destruct (g_step_thread _ _ _ _ _ _ S1 P) as [[<- (p' & Q & P')]|[N (P' & A & B)]].
    + eapply IH; [exact L1|exact P'| | |exact S2]; [eapply pinv_step; eauto|]. eapply exact_step; [exact I|exact X| |exact Q]. intros Hi. eapply inside_one; eauto.
    + rewrite A, B, !app_nil_r. eapply IH; eauto.
Qed.
Lemma start_lock calls : lock_inv (g_start calls).
Proof. unfold lock_inv. cbn. induction calls as [|[|] l IH]; cbn; auto. Qed.
Lemma start_exact calls t p : nth_error (g_threads (g_start calls)) t = Some p -> exact p [].
Proof. cbn. intros H. apply nth_error_In, in_map_iff in H. destruct H as [[|] [<- _]]; cbn; auto. Qed.
Lemma set_nth_length {A} n (x : A) l : length (set_nth n x l) = length l.
Proof. revert n. induction l as [|y l IH]; intros [|n]; cbn; [reflexivity|reflexivity|reflexivity|]. f_equal. apply IH. Qed.
Lemma run_length cs : forall s s' ev, g_run s cs = (s', ev) -> length (g_threads s') = length (g_threads s).
Proof.
  induction cs as [|c cs IH]; intros s s' ev E; cbn in E; [now injection E as <- <-|].
  destruct (g_step s c) as [s1 e1] eqn:S1. destruct (g_run s1 cs) as [s2 e2] eqn:S2. injection E as <- <-. rewrite (IH _ _ _ S2).
  unfold g_step in S1. destruct (nth_error (g_threads s) (gc_thread c)); [|now injection S1 as <- <-].
  destruct (pc_step _ _ _ _ _) as [[[p' sh] lo] ev']. injection S1 as <- <-. cbn [g_threads]. apply set_nth_length.
Qed.
Lemma had_thread calls cs s ev t p : g_run (g_start calls) cs = (s, ev) -> nth_error (g_threads s) t = Some p -> exists p0, nth_error (g_threads (g_start calls)) t = Some p0.
Proof.
  intros R D. destruct (nth_error (g_threads (g_start calls)) t) eqn:E; [eauto|]. exfalso. apply run_length in R. apply nth_error_None in E.
  assert (t < length (g_threads s))%nat by (apply nth_error_Some; congruence). lia.
Qed.
Lemma run_lock cs : no_timeouts cs -> forall s0 s ev, lock_inv s0 -> g_run s0 cs = (s, ev) -> lock_inv s.
Proof.
  induction 1 as [|c cs Hc Hcs IH]; intros s0 s ev L E; cbn in E; [now injection E as <- <-|].
  destruct (g_step s0 c) as [s1 e1] eqn:S1. destruct (g_run s1 cs) as [s2 e2] eqn:S2. injection E as <- <-.
  eapply IH; [|exact S2]. eapply lock_step; eauto.
Qed.
Lemma no_thread cs : forall s s' ev t, g_run s cs = (s', ev) -> nth_error (g_threads s) t = None -> attempts_of t ev = [].
Proof.
  induction cs as [|c cs IH]; intros s s' ev t E P; cbn in E; [now injection E as <- <-|].
  destruct (g_step s c) as [s1 e1] eqn:S1. destruct (g_run s1 cs) as [s2 e2] eqn:S2. injection E as <- <-. rewrite attempts_app.
  unfold g_step in S1. destruct (nth_error (g_threads s) (gc_thread c)) as [q|] eqn:G.
  - destruct (pc_step (gc_thread c) q c (g_shut s) (g_lock s)) as [[[p' sh] lo] ev'] eqn:Q. injection S1 as <- <-.
    assert (N : gc_thread c <> t) by congruence. rewrite (proj1 (other_events _ _ _ _ _ _ _ _ _ _ N Q)). cbn. eapply IH; [exact S2|]. cbn [g_threads].
    rewrite nth_set_other by exact N. exact P.
  - injection S1 as <- <-. cbn. eapply IH; eauto.
Qed.
