(** The periodic metric reader (C82, C83): every schedule of its ticker, of any number of program threads calling
    [collect], [force_flush] and [shutdown], and of recordings. *)
From Verif Require Import Model_Reader Spec_Reader Proof_Reader.
From Coq Require Import Permutation Lia.

(** The state of a reader after a schedule. *)
Notation after ticking n l := (rrun (rs_init ticking n) l).

(** ** C82: what is recorded is exported, once, by calls that do not overlap *)

(** The exporter's export is never called while another call of it runs. *)
Theorem C82_serial : forall (M : Type) ticking n (l : list (ract M)),
  exports_serial None (rs_trace (after ticking n l)) <> None.
Proof. intros M ticking n l. destruct (reach_lock M ticking n l) as [E _]. unfold reach in E. rewrite E. discriminate. Qed.
Print Assumptions C82_serial.

(** What reaches the exporter was recorded, and each recording reaches it at most once. *)
Theorem C82_at_most_once : forall (M : Type) ticking n (l : list (ract M)),
  let tr := rs_trace (after ticking n l) in
  exists waiting, Permutation (recorded tr) (exported tr ++ lost tr ++ waiting).
Proof.
  intros M ticking n l tr. destruct (reach_cons M ticking n l) as [_ (taken & A & B)]. unfold reach in *.
  exists (holding M (rs_threads (after ticking n l)) ++ rs_pending (after ticking n l)). unfold tr. rewrite A.
  rewrite B. rewrite <- !app_assoc. apply Permutation_app_head. rewrite !app_assoc. apply Permutation_app_tail, Permutation_app_comm.
Qed.
Print Assumptions C82_at_most_once.

(** Once a collect or force_flush has returned, everything recorded before it was called has been exported, if nothing
    was lost to a raising collection and no other thread is on its way to the exporter. *)
Theorem C82_flush_partial : forall (M : Type) ticking n (l : list (ract M)) t op before,
  let s := after ticking n l in
  op = OpCollect \/ op = OpFlush -> call_returned t op before (rs_trace s) ->
  nobody_holds_a_batch s -> lost (rs_trace s) = [] ->
  exists rest, Permutation (recorded before ++ rest) (exported (rs_trace s)).
Proof.
  intros M ticking n l t op before s Op R N L. destruct (reach_ret M ticking n l) as [[Co _] I]. unfold reach in *. fold s in Co, I.
  assert (G : gone M s before). { apply (I t op before); [destruct Op; subst; discriminate|exact R]. }
  destruct R as (since & E & _). destruct (gone_perm M s before _ _ Co E G) as [rest P]. exists rest. rewrite P, L, app_nil_r.
  rewrite holding_nil; [now rewrite app_nil_r|]. intros t' th H. specialize (N t' th H). destruct (th_pc th); try reflexivity; contradiction.
Qed.
Print Assumptions C82_flush_partial.

(** Without that condition it is false: while one thread is between its collection and its export, the force_flush of
    another returns True although the measurement recorded before has not been exported. *)
Definition quiet : choice nat := Ch (CollOk [] true) XOk false.
Theorem C82_flush_refuted : exists n (l : list (ract nat)) before,
  let s := after true n l in
  call_returned 2 OpFlush before (rs_trace s) /\ clean (rs_trace s) /\ recorded before = [7%nat] /\ exported (rs_trace s) = [].
Proof.
  exists 2%nat, [ARegister; ARec 7%nat; ACall 1 OpFlush; ARun 1 quiet; ACall 2 OpFlush; ARun 2 quiet; ARun 2 quiet].
  exists [ERec 7%nat; ECall 1 OpFlush]. cbv zeta.
  split; [|split; [|split]].
  - exists [EXFlush 2; ERet 2 OpFlush true]. split; [vm_compute; reflexivity|]. split.
    + intros op' [A|[A|[]]]; discriminate.
    + right. left. reflexivity.
  - vm_compute. repeat constructor.
  - reflexivity.
  - vm_compute. reflexivity.
Qed.
Print Assumptions C82_flush_refuted.

(** While the ticker alone collects, measurements are exported in the order they were recorded. *)
Theorem C82_order_partial : forall (M : Type) ticking n (l : list (ract M)),
  let tr := rs_trace (after ticking n l) in
  only_ticker_collects tr -> lost tr = [] -> exists rest, recorded tr = exported tr ++ rest.
Proof.
  intros M ticking n l tr O L. destruct (reach_order M ticking n l) as (_ & _ & I). unfold reach in I.
  destruct (I O) as [_ B]. eexists. exact (B L).
Qed.
Print Assumptions C82_order_partial.

(** With force_flush calls it can be reversed: a collection that came later overtakes an earlier one on the way to the
    lock, so a cumulative series goes backwards at the exporter. *)
Theorem C82_order_refuted : exists n (l : list (ract nat)),
  let tr := rs_trace (after true n l) in
  clean tr /\ recorded tr = [1; 2]%nat /\ exported tr = [2; 1]%nat.
Proof.
  exists 1%nat, [ARegister; ARec 1%nat; ARun 0 quiet; ARun 0 quiet; ARec 2%nat; ACall 1 OpFlush; ARun 1 quiet; ARun 1 quiet; ARun 1 quiet;
    ARun 1 quiet; ARun 0 quiet; ARun 0 quiet; ARun 0 quiet].
  cbv zeta. split; [|split]; [vm_compute; repeat constructor|vm_compute; reflexivity|vm_compute; reflexivity].
Qed.
Print Assumptions C82_order_refuted.

(** As long as no collection failed and shutdown was not called, the ticker can always bring everything recorded so
    far to the exporter. *)
Theorem C82_periodic_partial : forall (M : Type) n (l : list (ract M)),
  let s := after true n l in
  rs_reg s = true -> clean (rs_trace s) -> no_collect_call (rs_trace s) -> (forall t, ~ In (ECall t OpShutdown) (rs_trace s)) ->
  exists l', only_runs l' /\ let s' := rrun s l' in
    recorded (rs_trace s') = recorded (rs_trace s) /\ Permutation (recorded (rs_trace s)) (exported (rs_trace s')).
Proof.
  intros M n l s Rg Cl Nc Ns.
  destruct (ticker_progress M true s (reach_shut M true n l) (reach_lock M true n l) (reach_call M true n l) (reach_called M true n l)
    eq_refl (reach_zero M true n l) Rg Cl Nc Ns) as [k (P & Hh & Lo & Re)].
  exists (repeat (ARun 0%nat (smooth M)) k). split.
  - apply Forall_forall. intros a Ha. apply repeat_spec in Ha. subst a. exact Logic.I.
  - cbv zeta. split; [exact Re|]. rewrite <- Re.
    assert (Co : inv_cons M (rrun s (repeat (ARun 0%nat (smooth M)) k))) by (apply (run_inv M _ (inv_cons_ind M)), (reach_cons M true n l)).
    destruct Co as [_ (taken & A & B)]. rewrite P, app_nil_r in A. rewrite A, B, Hh, Lo, !app_nil_r. apply Permutation_refl.
Qed.
Print Assumptions C82_periodic_partial.

(** But a single collection that raises anything but MetricsTimeoutError ends the ticker: nothing is exported
    periodically any more, however often the reader's threads are run, although shutdown was never called. *)
Theorem C82_periodic_refuted : exists n (l : list (ract nat)),
  let s := after true n l in
  rs_reg s = true /\ recorded (rs_trace s) = [1; 2]%nat /\ lost (rs_trace s) = [1%nat] /\ (forall t, ~ In (ECall t OpShutdown) (rs_trace s)) /\
  forall l', only_runs l' -> exported (rs_trace (rrun s l')) = [].
Proof.
  exists 1%nat, [ARegister; ARec 1%nat; ARun 0 quiet; ARun 0 (Ch (CollRaise []) XOk false); ARec 2%nat].
  cbv zeta.
  match goal with |- context [rrun ?a ?b] => remember (rrun a b) as s eqn:E end. vm_compute in E. rewrite E.
  split; [reflexivity|]. split; [reflexivity|]. split; [reflexivity|]. split.
  - intros t Hi. cbn in Hi. repeat (destruct Hi as [Hi|Hi]; [discriminate|]). destruct Hi.
  - intros l' H. rewrite <- E. assert (Q : rrun s l' = s).
    { rewrite E. clear s E. induction H as [|a l' Ha H IH]; [reflexivity|]. destruct a as [| | |t c]; try contradiction.
      cbn [rrun fold_left]. unfold rrun in IH.
      match goal with |- fold_left rstep l' ?x = ?y => assert (Ex : x = y); [|rewrite Ex; exact IH] end.
      destruct t as [|[|t]]; try reflexivity. cbn [rstep]. unfold run, get_pc. cbn [rs_threads nth_error]. destruct t; reflexivity. }
    rewrite Q, E. reflexivity.
Qed.
Print Assumptions C82_periodic_refuted.

(** Every export runs with instrumentation suppressed; a thread outside exports has the context it started with,
    unless the exporter raised a BaseException in it. *)
Theorem C82_suppressed : forall (M : Type) ticking n (l : list (ract M)) t b sup,
  In (EXBegin t b sup) (rs_trace (after ticking n l)) -> sup = true.
Proof. intros M ticking n l t b sup. exact (proj1 (reach_ctx M ticking n l) t b sup). Qed.
Theorem C82_context : forall (M : Type) ticking n (l : list (ract M)) t th,
  let s := after ticking n l in
  nth_error (rs_threads s) t = Some th -> (forall b, ~ In (EXEnd t b XBase) (rs_trace s)) ->
  th_pc th = PIdle \/ th_pc th = PWait -> th_sup th = false.
Proof.
  intros M ticking n l t th s H N P. destruct (proj2 (reach_ctx M ticking n l) t th H) as [_ B]. specialize (B N).
  destruct P as [P|P]; rewrite P in B; exact B.
Qed.
Print Assumptions C82_suppressed.
Print Assumptions C82_context.

(** ** C83: shutdown *)

(** The exporter is shut down at most once, however many threads call shutdown. *)
Theorem C83_once : forall (M : Type) ticking n (l : list (ract M)), (exporter_shutdowns (rs_trace (after ticking n l)) <= 1)%nat.
Proof. intros M ticking n l. exact (is_once _ _ _ (reach_shut M ticking n l)). Qed.
Print Assumptions C83_once.

(** When a shutdown shuts the exporter down, everything recorded before it was called has been exported: if the reader
    has a ticker, nothing failed or timed out, and no program thread is in collect or force_flush. *)
Theorem C83_shutdown_partial : forall (M : Type) n (l : list (ract M)) t before since,
  let s := after true n l in
  rs_trace s = before ++ ECall t OpShutdown :: since -> In (EXShut t) since ->
  clean (rs_trace s) -> no_collect_call (rs_trace s) ->
  exists rest, Permutation (recorded before ++ rest) (exported (rs_trace s)).
Proof.
  intros M n l t before since s E Hi Cl Nc. assert (I := reach_shut M true n l). unfold reach in I. fold s in I.
  destruct (is_done _ _ _ I eq_refl Cl t before since OpShutdown E Hi) as [G D].
  destruct (gone_perm M s before _ _ (is_cons _ _ _ I) E G) as [rest P]. exists rest. rewrite P.
  rewrite (clean_lost M _ Cl), app_nil_r. rewrite holding_nil; [now rewrite app_nil_r|].
  intros t' th H. destruct (Nat.eq_dec t' 0) as [->|N]; [now rewrite (D th H)|].
  exact (proj1 (held_client M s t' th (reach_call M true n l) Nc N H)).
Qed.
Print Assumptions C83_shutdown_partial.

(** If moreover the program calls nothing but shutdown, they were exported in order: what was exported begins with all
    that was recorded before. *)
Theorem C83_shutdown_order_partial : forall (M : Type) n (l : list (ract M)) t before since,
  let s := after true n l in
  rs_trace s = before ++ ECall t OpShutdown :: since -> In (EXShut t) since ->
  clean (rs_trace s) -> only_ticker_collects (rs_trace s) ->
  exists rest, exported (rs_trace s) = recorded before ++ rest.
Proof.
  intros M n l t before since s E Hi Cl O. assert (I := reach_shut M true n l). unfold reach in I. fold s in I.
  destruct (is_done _ _ _ I eq_refl Cl t before since OpShutdown E Hi) as [G D].
  destruct (reach_order M true n l) as (_ & _ & B). unfold reach in B. fold s in B. destruct (B O) as [_ B']. clear B.
  specialize (B' (clean_lost M _ Cl)). destruct (reach_zero M true n l) as [th0 H0]. unfold reach in H0. fold s in H0.
  specialize (D _ H0). assert (Hh : held0 M (rs_threads s) = []).
  { destruct (rs_threads s) as [|x r]; [discriminate|]. cbn in H0. injection H0 as ->. cbn. rewrite D. reflexivity. }
  rewrite Hh in B'. cbn [app] in B'. unfold gone in G. rewrite B', app_length in G.
  exists (skipn (length (recorded before)) (exported (rs_trace s))).
  assert (Q : recorded before = firstn (length (recorded before)) (exported (rs_trace s))).
  { rewrite E, recorded_app in B'. apply (f_equal (firstn (length (recorded before)))) in B'. rewrite <- E in B'.
    rewrite firstn_app, Nat.sub_diag, firstn_all, firstn_O, app_nil_r in B'. rewrite B' at 1. rewrite firstn_app.
    replace (length (recorded before) - length (exported (rs_trace s)))%nat with 0%nat by lia. now rewrite firstn_O, app_nil_r. }
  rewrite Q at 1. symmetry. apply firstn_skipn.
Qed.
Print Assumptions C83_shutdown_order_partial.

(** The conditions are met by an ordinary run. *)
Example C83_case : exists (l : list (ract nat)) before since,
  let s := after true 1 l in
  rs_trace s = before ++ ECall 1 OpShutdown :: since /\ In (EXShut 1) since /\ clean (rs_trace s) /\ no_collect_call (rs_trace s) /\
  only_ticker_collects (rs_trace s) /\ recorded before = [1; 2]%nat /\ exported (rs_trace s) = [1; 2]%nat.
Proof.
  exists ([ARegister; ARec 1%nat; ARun 0 quiet; ARun 0 quiet; ARun 0 quiet; ARun 0 quiet; ARun 0 quiet; ARun 0 quiet; ARec 2%nat; ACall 1 OpShutdown;
    ARun 1 quiet; ARun 1 quiet; ARun 1 quiet; ARun 1 quiet] ++ repeat (ARun 0 quiet) 6 ++ [ARun 1 quiet; ARun 1 quiet]).
  exists [ERec 1%nat; EXBegin 0 [1%nat] true; EXEnd 0 [1%nat] XOk; ERec 2%nat],
    [EXBegin 0 [2%nat] true; EXEnd 0 [2%nat] XOk; EXShut 1; ERet 1 OpShutdown true].
  cbv zeta. match goal with |- context [rrun ?a ?b] => remember (rrun a b) as s eqn:E end. vm_compute in E. rewrite E. clear E s.
  cbn [rs_trace]. split; [reflexivity|]. split; [cbn; auto|]. split; [repeat constructor|]. split; [|split; [|split; reflexivity]].
  - intros t. cbn. destruct (Nat.eqb t 1); split; discriminate.
  - intros t. split; intros Hi; cbn in Hi; repeat (destruct Hi as [Hi|Hi]; [discriminate|]); destruct Hi.
Qed.

(** A reader with an infinite (or NaN) interval has no ticker: its shutdown exports nothing. *)
Theorem C83_no_ticker_refuted : exists i ticking (l : list (ract nat)) before since,
  start_ticker i = Some ticking /\ let s := after ticking 1 l in
  rs_trace s = before ++ ECall 1 OpShutdown :: since /\ In (EXShut 1) since /\ In (ERet 1 OpShutdown true) since /\
  clean (rs_trace s) /\ recorded before = [1%nat] /\ exported (rs_trace s) = [].
Proof.
  exists IInf, false, ([ARegister; ARec 1%nat; ACall 1 OpShutdown] ++ repeat (ARun 1 quiet) 5), [ERec 1%nat], [EXShut 1; ERet 1 OpShutdown true].
  split; [reflexivity|]. cbv zeta. match goal with |- context [rrun ?a ?b] => remember (rrun a b) as s eqn:E end. vm_compute in E. rewrite E. clear E s.
  split; [reflexivity|]. split; [cbn; auto|]. split; [cbn; auto|]. split; [repeat constructor|split; reflexivity].
Qed.
Print Assumptions C83_no_ticker_refuted.

(** A reader cannot be made with an interval that is not positive, and it has a ticker exactly if its interval is a finite number. *)
Theorem C83_interval : forall i,
  (start_ticker i = None <-> exists z, i = IFin z /\ (z <= 0)%Z) /\
  (start_ticker i = Some true <-> exists z, i = IFin z /\ (1 <= z)%Z).
Proof.
  intros [z| |]; cbn [start_ticker]; [|split; (split; [discriminate|intros (z & E & _); discriminate])..].
  destruct (Z.ltb_spec 0 z) as [L|L]; split; (split; [try discriminate|intros (y & [= <-] & ?)]); try reflexivity; try (exfalso; lia);
    intros _; exists z; (split; [reflexivity|lia]).
Qed.
Print Assumptions C83_interval.
Example C83_interval_case : start_ticker (IFin 60000) = Some true /\ start_ticker (IFin 0) = None.
Proof. now split. Qed.

(** A second shutdown, called while the first one is still waiting, returns at once: nothing has been exported yet. *)
Theorem C83_second_refuted : exists (l : list (ract nat)) before,
  let s := after true 2 l in
  call_returned 2 OpShutdown before (rs_trace s) /\ clean (rs_trace s) /\ recorded before = [1%nat] /\ exported (rs_trace s) = [].
Proof.
  exists [ARegister; ARec 1%nat; ACall 1 OpShutdown; ARun 1 quiet; ARun 1 quiet; ACall 2 OpShutdown; ARun 2 quiet], [ERec 1%nat; ECall 1 OpShutdown].
  cbv zeta. match goal with |- context [rrun ?a ?b] => remember (rrun a b) as s eqn:E end. vm_compute in E. rewrite E. clear E s.
  split; [|split; [repeat constructor|split; reflexivity]].
  exists [ERet 2 OpShutdown true]. split; [reflexivity|]. split; [|left; reflexivity]. intros op' [A|[]]; discriminate.
Qed.
Print Assumptions C83_second_refuted.

(** The reader goes on after its shutdown: collect and force_flush still call the exporter that was shut down. *)
Theorem C83_after_refuted : exists (l : list (ract nat)) tr1 tr2,
  rs_trace (after true 1 l) = tr1 ++ EXShut 1 :: tr2 /\ clean (tr1 ++ EXShut 1 :: tr2) /\ exported tr2 = [5%nat].
Proof.
  exists ([ARegister; ACall 1 OpShutdown] ++ repeat (ARun 1 quiet) 3 ++ repeat (ARun 0 quiet) 2 ++ repeat (ARun 1 quiet) 2
    ++ [ARec 5%nat; ACall 1 OpFlush] ++ repeat (ARun 1 quiet) 6).
  exists [ECall 1 OpShutdown], [ERet 1 OpShutdown true; ERec 5%nat; ECall 1 OpFlush; EXBegin 1 [5%nat] true; EXEnd 1 [5%nat] XOk; EXFlush 1; ERet 1 OpFlush true].
  split; [vm_compute; reflexivity|]. split; [repeat constructor|reflexivity].
Qed.
Print Assumptions C83_after_refuted.

Example C82_flush_case : exists (l : list (ract nat)) before,
  let s := after true 1 l in
  call_returned 1 OpFlush before (rs_trace s) /\ nobody_holds_a_batch s /\ lost (rs_trace s) = [] /\ recorded before = [3%nat] /\ exported (rs_trace s) = [3%nat].
Proof.
  exists ([ARegister; ARec 3%nat; ACall 1 OpFlush] ++ repeat (ARun 1 quiet) 6), [ERec 3%nat].
  cbv zeta. match goal with |- context [rrun ?a ?b] => remember (rrun a b) as s eqn:E end. vm_compute in E. rewrite E. clear E s.
  split; [|split; [|split; [reflexivity|split; reflexivity]]].
  - exists [EXBegin 1 [3%nat] true; EXEnd 1 [3%nat] XOk; EXFlush 1; ERet 1 OpFlush true]. split; [reflexivity|]. split; [|cbn; auto].
    intros op' Hi. cbn in Hi. repeat (destruct Hi as [Hi|Hi]; [discriminate|]). destruct Hi.
  - intros t th H. destruct t as [|[|t]]; cbn in H; [injection H as <-; exact Logic.I|injection H as <-; exact Logic.I|destruct t; discriminate].
Qed.
