(** C136: the concurrent multi processors.  [Work], [Call], [step], [reaches]: the model; [tasks_of], [outcomes], [stuck], [flat], [quiet]:
    Spec_Pool.v. *)
From Verif Require Import Spec_Pool Proof_Pool.
From Coq Require Import Lia.

(** Whatever the threads of the program and of the pool do in between: a call that has ended was submitted to all processors, once each and
    in order; if it returned, all of them have finished and none raised, and if it raised then one of them had. *)
Theorem C136_calls : forall k programs s a p c raised, reaches k (start programs) s -> program_of programs s a = Some p ->
  nth_error (outcomes s a) c = Some raised ->
  exists l ws, nth_error p c = Some (Call l ws) /\ map t_work (tasks_of a c s) = ws
    /\ (raised = false -> Forall (fun t => finished t /\ w_raises (t_work t) = false) (tasks_of a c s))
    /\ (raised = true -> Exists (fun t => finished t /\ w_raises (t_work t) = true) (tasks_of a c s)).
Proof.
  intros k programs s a p c raised R P O. pose proof (inv_reach programs k _ _ R (inv_start programs)) as I. unfold outcomes in O.
  destruct (frame_of s a) as [f|] eqn:F; [|destruct c; discriminate]. destruct (proj1 I a f F) as (p' & P' & A & _). rewrite P in P'. injection P' as <-.
  destruct (A c) as (l & ws & E & W & X); [apply nth_error_Some; congruence|]. exists l, ws. split; [exact E|]. split; [now rewrite works_tasks|]. rewrite O in X. split; intros ->.
  - apply Forall_forall. intros t It. apply task_in in It. destruct It as (i & J & Et). rewrite Forall_forall in X. apply X in J. apply done_spec in J. destruct J as (u & Eu & Pu & Ru).
    rewrite Et in Eu. injection Eu as <-. auto.
  - apply Exists_exists in X. destruct X as (i & J & D). apply done_spec in D. destruct D as (t & Et & Pt & Rt). apply Exists_exists. exists t. split; [eapply in_task; eauto|]. split; auto.
Qed.
Print Assumptions C136_calls.
(** The processors hear of one thread's calls in order: where a task of a later call is there, those of the earlier ones have finished,
    unless that call raised. *)
Theorem C136_order : forall k programs s n c c' t t', reaches k (start programs) s -> In t (tasks_of (User n) c s) -> In t' (tasks_of (User n) c' s) ->
  c < c' -> finished t \/ nth_error (outcomes s (User n)) c = Some true.
Proof.
  intros k programs s n c c' t t' R It It' L. pose proof (inv_reach programs k _ _ R (inv_start programs)) as I.
  destruct (frame_of s (User n)) as [f|] eqn:F.
  - destruct (proj1 I _ f F) as (p & P & A & B & _). apply task_in in It'. destruct It' as (j & J & _).
    assert (c < length (f_out f)).
    { destruct (le_lt_dec c' (length (f_out f))) as [G|G]; [lia|]. rewrite (B c' G) in J. destruct J. }
    destruct (nth_error (outcomes s (User n)) c) as [[|]|] eqn:O; [auto| |unfold outcomes in O; rewrite F in O; apply nth_error_None in O; lia].
    left. destruct (C136_calls k programs s (User n) p c false R P O) as (l & ws & _ & _ & X & _). specialize (X eq_refl). rewrite Forall_forall in X. apply X, It.
  - exfalso. apply task_in in It. destruct It as (i & J & Et). apply ids_in in J. destruct J as (x & Ex & M). apply mine_true in M. unfold K_of in Ex. rewrite nth_error_map, Et in Ex. injection Ex as <-.
    cbn in M. destruct I as (_ & Bt & _). destruct (Bt i t Et) as [_ X]. rewrite (proj1 M) in X. cbn in F. apply nth_error_None in F. lia.
Qed.
Print Assumptions C136_order.
(** However the calls interleave, there is an end to them. *)
Theorem C136_ends : forall k programs, exists N, forall n s, reaches_in k n (start programs) s -> n <= N.
Proof.
  intros k programs. exists (size (start programs)). intros n s H.
  assert (X : size s + n <= size (start programs) /\ inv programs s).
  { remember (start programs) as s0 eqn:E. induction H; subst; [split; [lia|apply inv_start]|]. destruct (IHreaches_in eq_refl) as [L I]. split; [|eapply inv_step; eauto].
    assert (size s2 < size s1); [|lia]. eapply step_size; [|eassumption]. intros i t Et Ht. destruct I as (_ & B & _). now apply (B i t Et). }
  lia.
Qed.
Print Assumptions C136_ends.
(** If the processors make no calls themselves, the end is that all calls have returned or raised and all processors have been called: with
    C136_ends, no call of the program waits for ever. *)
Theorem C136_no_deadlock : forall k programs s, flat programs -> 0 < k -> reaches k (start programs) s -> stuck k s ->
  all_returned s /\ Forall finished (s_tasks s).
Proof.
  intros k programs s F K R St. pose proof (inv_reach programs k _ _ R (inv_start programs)) as I.
  assert (W : Forall (fun x => w_inner (snd x) = []) (K_of s)).
  { eapply (works_reach (fun w => w_inner w = [])); eauto. intros w E. rewrite E. constructor. }
  apply (stuck_done programs k s I); [| |exact St].
  - eapply (works_reach quiet programs k); [exact quiet_her|now apply flat_quiet|exact R].
  - replace (nesting s) with 0; [exact K|]. unfold nesting. unfold K_of in W. rewrite Forall_map in W. clear -W.
    induction W as [|t l E W IH]; cbn in *; [reflexivity|]. rewrite E, andb_false_r. exact IH.
Qed.
Print Assumptions C136_no_deadlock.
(** If they make calls, but do not log, it is as long as not all threads of the pool run processors that make calls.
    Missing: processors that log (C136_logging_refuted), and pools that are full of such processors (C136_nested_refuted). *)
Theorem C136_nested_partial : forall k programs s, all_quiet programs -> reaches k (start programs) s -> nesting s < k -> stuck k s ->
  all_returned s /\ Forall finished (s_tasks s).
Proof.
  intros k programs s Q R N St. pose proof (inv_reach programs k _ _ R (inv_start programs)) as I. apply (stuck_done programs k s I); [|exact N|exact St]. exact (works_reach quiet programs k s quiet_her Q R).
Qed.
Print Assumptions C136_nested_partial.

(** Refuted: with as many processors that start a span when a span starts as the pool has threads, two by default, the first span can keep
    the program waiting for ever. *)
Theorem C136_nested_refuted : forall k, 0 < k -> exists programs s, all_quiet programs /\ length programs = 1 /\ reaches k (start programs) s
  /\ stuck k s /\ ~ all_returned s.
Proof.
  intros k K. destruct (full_stuck k K) as (s & R & St & N). exists (programs k), s. split; [|auto]. repeat constructor. apply Forall_forall. intros w I. apply repeat_spec in I. subst. cbn. auto.
Qed.
Print Assumptions C136_nested_refuted.
(** Refuted: with the SDK's handler on the root logger and one processor that logs, as the simple processor does if the exporter fails, the
    program waits for ever in its call of the logger, however many threads the pool has. *)
Theorem C136_logging_refuted : forall k, 0 < k -> exists s, reaches k (start [[Call true [Work false [Call true [Work false []]]]]]) s
  /\ stuck k s /\ ~ all_returned s.
Proof.
  intros k K. set (w := Work false [Call true [Work false []]]).
  pose (s1 := St [Frame [] (Some (Doing true [w] [])) []] [] 0 (Some (User 0))).
  pose (s2 := St [Frame [] (Some (Doing true [] [0])) []] [TaskOf (User 0) 0 w Queued] 0 (Some (User 0))).
  pose (s3 := St [Frame [] (Some (Doing true [] [0])) []] [TaskOf (User 0) 0 w (Running (begin_frame (w_inner w)))] 1 (Some (User 0))).
  exists s3. split; [|split].
  - apply re_step with (s1 := s2); [apply re_step with (s1 := s1); [apply re_step with (s1 := start [[Call true [w]]]); [apply re_here|]|]|].
    + apply (p_begin k (start [[Call true [w]]]) (User 0) true [w] [] []); reflexivity.
    + apply (p_submit k s1 (User 0) true w [] [] [] []). reflexivity.
    + apply (p_take k s2 (TaskOf (User 0) 0 w Queued)); [reflexivity|exact K].
  - intros s' S. inversion S as [s a l ws r o F Lk|s a l v ws is r o F|s a l i is r o F D|s a l i is r o F D|s a l r o F|s t E A|s i o F]; subst.
    + destruct a as [[|[|n]]|[|[|i]]]; try discriminate. cbn in F. injection F as <- <- <- <-. specialize (Lk eq_refl). discriminate.
    + destruct a as [[|[|n]]|[|[|i]]]; discriminate.
    + destruct a as [[|[|n]]|[|[|j]]]; try discriminate. cbn in F. injection F as <- <- <- <- <-. discriminate.
    + destruct a as [[|[|n]]|[|[|j]]]; try discriminate. cbn in F. injection F as <- <- <- <- <-. discriminate.
    + destruct a as [[|[|n]]|[|[|i]]]; discriminate.
    + discriminate.
    + destruct i as [|[|i]]; discriminate.
  - intros A. inversion A as [|x l [_ X] _]. discriminate X.
Qed.
Print Assumptions C136_logging_refuted.

(** Two threads, two processors, one of which raises in the second thread's call: a run to its end *)
Example C136_example : exists s, flat [[Call false [Work false []; Work false []]]; [Call true [Work true []; Work false []]]]
  /\ reaches 1 (start [[Call false [Work false []; Work false []]]; [Call true [Work true []; Work false []]]]) s
  /\ all_returned s /\ outcomes s (User 0) = [false] /\ outcomes s (User 1) = [true] /\ length (tasks_of (User 1) 0 s) = 2.
Proof.
  set (p := [_; _]).
  pose (a := Work false []). pose (b := Work true []).
  eexists. split; [repeat constructor|]. split.
  - eapply re_step. { eapply re_step. { eapply re_step. { eapply re_step. { eapply re_step. { eapply re_step. { eapply re_step. { eapply re_step. { eapply re_step. { eapply re_step. {
    eapply re_step. { eapply re_step. { eapply re_step. { eapply re_step. { eapply re_step. { eapply re_step. { eapply re_step. { eapply re_step. {
    apply re_here. }
    apply (p_begin 1 _ (User 0) false [a; a] [] []); [reflexivity|discriminate]. }
    apply (p_begin 1 _ (User 1) true [b; a] [] []); reflexivity. }
    cbn. apply (p_submit 1 _ (User 1) true b [a] [] [] []); reflexivity. }
    cbn. apply (p_submit 1 _ (User 0) false a [a] [] [] []); reflexivity. }
    cbn. apply (p_submit 1 _ (User 0) false a [] [1] [] []); reflexivity. }
    cbn. apply (p_submit 1 _ (User 1) true a [] [0] [] []); reflexivity. }
    cbn. eapply (p_take 1); [reflexivity|apply Nat.leb_le; reflexivity]. }
    cbn. apply (p_finish 1 _ 0 []); reflexivity. }
    cbn. apply (p_raise 1 _ (User 1) true 0 [3] [] []); reflexivity. }
    cbn. eapply (p_take 1); [reflexivity|apply Nat.leb_le; reflexivity]. }
    cbn. apply (p_finish 1 _ 1 []); reflexivity. }
    cbn. apply (p_await 1 _ (User 0) false 1 [2] [] []); reflexivity. }
    cbn. eapply (p_take 1); [reflexivity|apply Nat.leb_le; reflexivity]. }
    cbn. apply (p_finish 1 _ 2 []); reflexivity. }
    cbn. apply (p_await 1 _ (User 0) false 2 [] [] []); reflexivity. }
    cbn. apply (p_return 1 _ (User 0) false [] []); reflexivity. }
    cbn. eapply (p_take 1); [reflexivity|apply Nat.leb_le; reflexivity]. }
    cbn. apply (p_finish 1 _ 3 []); reflexivity.
  - cbn. split; [repeat constructor|]. split; [reflexivity|]. split; reflexivity.
Qed.
(** One thread makes two calls; the processor makes a call itself in the first. *)
Example C136_nested_example : exists s, all_quiet [[Call false [Work false [Call false [Work false []]]]; Call false [Work false []]]]
  /\ reaches 2 (start [[Call false [Work false [Call false [Work false []]]]; Call false [Work false []]]]) s
  /\ nesting s = 1 /\ (exists t, tasks_of (User 0) 0 s = [t] /\ t_place t <> Done) /\ length (tasks_of (Task 0) 0 s) = 1
  /\ exists s', reaches 2 s s' /\ all_returned s' /\ nesting s' = 0 /\ length (tasks_of (User 0) 0 s') = 1 /\ length (tasks_of (User 0) 1 s') = 1.
Proof.
  pose (a := Work false []). pose (b := Work false [Call false [a]]).
  eexists. split; [repeat constructor|]. split; [|split; [|split; [|split]]].
  - eapply re_step. { eapply re_step. { eapply re_step. { eapply re_step. { eapply re_step. { apply re_here. }
    apply (p_begin 2 _ (User 0) false [b] [Call false [a]] []); [reflexivity|discriminate]. }
    cbn. apply (p_submit 2 _ (User 0) false b [] [] [Call false [a]] []); reflexivity. }
    cbn. eapply (p_take 2); [reflexivity|apply Nat.leb_le; reflexivity]. }
    cbn. apply (p_begin 2 _ (Task 0) false [a] [] []); [reflexivity|discriminate]. }
    cbn. apply (p_submit 2 _ (Task 0) false a [] [] [] []); reflexivity.
  - reflexivity.
  - eexists. split; [reflexivity|discriminate].
  - reflexivity.
  - eexists. split; [|split; [|split; [|split]]].
    + eapply re_step. { eapply re_step. { eapply re_step. { eapply re_step. { eapply re_step. { eapply re_step. { eapply re_step. { eapply re_step. { eapply re_step. {
      eapply re_step. { eapply re_step. { eapply re_step. { eapply re_step. { apply re_here. }
      cbn. eapply (p_take 2); [reflexivity|apply Nat.leb_le; reflexivity]. }
      cbn. apply (p_finish 2 _ 1 []); reflexivity. }
      cbn. apply (p_await 2 _ (Task 0) false 1 [] [] []); reflexivity. }
      cbn. apply (p_return 2 _ (Task 0) false [] []); reflexivity. }
      cbn. apply (p_finish 2 _ 0 [false]); reflexivity. }
      cbn. apply (p_await 2 _ (User 0) false 0 [] [Call false [a]] []); reflexivity. }
      cbn. apply (p_return 2 _ (User 0) false [Call false [a]] []); reflexivity. }
      cbn. apply (p_begin 2 _ (User 0) false [a] [] [false]); [reflexivity|discriminate]. }
      cbn. apply (p_submit 2 _ (User 0) false a [] [] [] [false]); reflexivity. }
      cbn. eapply (p_take 2); [reflexivity|apply Nat.leb_le; reflexivity]. }
      cbn. apply (p_finish 2 _ 2 []); reflexivity. }
      cbn. apply (p_await 2 _ (User 0) false 2 [] [] [false]); reflexivity. }
      cbn. apply (p_return 2 _ (User 0) false [] [false]); reflexivity.
    + cbn. repeat constructor.
    + reflexivity.
    + reflexivity.
    + reflexivity.
Qed.
