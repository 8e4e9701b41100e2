(** C134: what the SDK logs itself does not keep the program from logging, nor the SDK from coming to rest.
    The handler of the SDK is on Python's root logger, so all that the processors and the exporters log comes back to them. *)
From Verif Require Import Spec_SelfLog Proof_SelfLog.
From Coq Require Import Lia.

(** With batch processors, whatever their exporters do, and with processors that export at once whose exporters neither log nor raise, a
    logging call returns, with any limit of the interpreter, and leaves the context as it was: each live queue gets the record and each
    other live processor exports it once. *)
Theorem C134_call : forall exporter limit m w, calm exporter w ->
  log_call exporter (S limit) m w = (Returned, World (map (given m) (procs w)) (out w ++ at_once m 0 (procs w)) (attached w)).
Proof. intros. now apply calm_call. Qed.
Print Assumptions C134_call.

(** If the exporters of the processors that export at once fail or log in the first [k] exports at most, and none of these processors is
    shut down, a logging call still returns, if the interpreter allows for more than [k] levels, and leaves the context as it was. *)
Theorem C134_recovers : forall exporter limit k m w,
  (forall i down, nth_error (procs w) i = Some (Simple down) ->
     down = false /\ forall h b, k <= length h -> exporter i h b = ([], false)) ->
  k < limit -> exists w', log_call exporter limit m w = (Returned, w') /\ attached w' = attached w.
Proof.
  intros exporter limit k m w H L.
  assert (R : fst (log_call exporter limit m w) = Returned).
  { apply (recovers exporter k); try lia.
    - intros i p E ->. destruct (H _ _ E). discriminate.
    - intros i h b Hi Lh. assert (E : exists dn, nth_error (procs w) i = Some (Simple dn)).
      { unfold kinds in Hi. revert i Hi. clear. induction (procs w) as [|p ps IH]; intros [|i] Hi; cbn in *; try tauto; auto.
        destruct Hi as [Hi|[]]. destruct p; cbn in Hi; try discriminate. eauto. }
      destruct E as (dn&E). now apply (H _ _ E). }
  destruct (log_call exporter limit m w) as [r w'] eqn:E. cbn in R. subst r. exists w'. split; auto.
  apply keeps_log in E. now apply E.
Qed.
Print Assumptions C134_recovers.

(** After the shutdown of a processor that exports at once every logging call of the program raises, whatever the limit. *)
Theorem C134_shutdown_refuted : forall exporter limit m w, In (Simple true) (procs w) ->
  fst (log_call exporter limit m w) = RecursionError.
Proof. intros exporter limit m w H. apply In_nth_error in H as (i&H). eapply down_raises; eauto. Qed.
Print Assumptions C134_shutdown_refuted.

(** So it does while an exporter of a processor that exports at once raises; and with that processor only, and an exporter that logs nothing,
    the exporter is called as often as the limit allows, and the thread is left with instrumentation suppressed. *)
Theorem C134_failing_refuted : forall exporter i, (forall h b, snd (exporter i h b) = true) ->
  (forall limit m w, nth_error (procs w) i = Some (Simple false) -> fst (log_call exporter limit m w) = RecursionError) /\
  (i = 0 -> (forall h b, fst (exporter i h b) = []) -> forall limit m,
   log_call exporter (S limit) m (World [Simple false] [] 0)
   = (RecursionError, World [Simple false] ((0, [m]) :: repeat (0, [Failed]) limit) (S limit))).
Proof.
  intros exporter i R. split; [intros; eapply fail_raises; eauto|]. intros -> S limit m. apply (fail_alone exporter limit).
  intros h b. rewrite (surjective_pairing (exporter 0 h b)). now rewrite S, R.
Qed.
Print Assumptions C134_failing_refuted.

(** A flush ends, whatever the exporter of the processor does: the worker exports at most as many batches as there were records. *)
Theorem C134_flush : forall exporter limit i w down size cap q, calm exporter w -> nth_error (procs w) i = Some (Batch down size cap q) ->
  0 < size -> q <> [] ->
  exists n w', flushes exporter (S limit) i (length q) w n Returned w' /\ n <= length q /\ attached w' = attached w.
Proof. intros. eapply flush_ends; eauto. destruct q; cbn; [congruence|lia]. Qed.
Print Assumptions C134_flush.

(** If the exporter logs at most one message for each record it is given, the flush exports all the records that were there first. *)
Theorem C134_flushed : forall exporter limit i w down size cap q, calm exporter w -> nth_error (procs w) i = Some (Batch down size cap q) ->
  0 < size -> q <> [] -> length q <= cap -> terse exporter i ->
  exists n w' calls more, flushes exporter (S limit) i (length q) w n Returned w' /\ out w' = out w ++ calls /\
    concat (exports_of i calls) = q ++ more.
Proof.
  intros exporter limit i w down size cap q C H S0 N L T.
  destruct (flush_all exporter limit i (length q) T w down size cap q) as (n&w'&new&k&F&O&Lk&E&Fk); auto.
  { destruct q; cbn; [congruence|lia]. }
  exists n, w', new, (skipn (length q) k). split; auto. split; auto. rewrite E, <- (firstn_skipn (length q) k) at 1.
  now rewrite Fk, firstn_all.
Qed.
Print Assumptions C134_flushed.

(** Otherwise what the exporter logs can push the program's records out of the queue. *)
Theorem C134_flushed_refuted : exists exporter w w' n, calm exporter w /\ queue 0 w = [User 0; User 1] /\
  (forall limit, flushes exporter (S limit) 0 2 w n Returned w') /\ ~ In (User 1) (queue 0 w' ++ concat (exports_of 0 (out w'))).
Proof.
  exists (fun _ _ _ => ([Said 0], true)), (World [Batch false 1 2 [User 0; User 1]] [] 0),
    (World [Batch false 1 2 [Said 0; Failed]] [(0, [User 0]); (0, [Said 0])] 0), 2.
  split; [|split; [reflexivity|split]].
  - intros [|[|i]] dn H; cbn in H; try discriminate.
  - intro limit. eapply fl_more with (k := 1); [discriminate|reflexivity|lia|].
    eapply fl_last with (k := 1); [discriminate|reflexivity|lia].
  - cbn. intros [H|[H|[H|[H|[]]]]]; discriminate.
Qed.
Print Assumptions C134_flushed_refuted.

(** Shutting a batch processor down ends and exports each record in its queue exactly once, in order, whatever its exporter does. *)
Theorem C134_drain : forall exporter limit i w size cap q, calm exporter w -> nth_error (procs w) i = Some (Batch true size cap q) ->
  0 < size ->
  exists n w' calls, drains exporter (S limit) i w n Returned w' /\ n <= length q /\ queue i w' = [] /\ out w' = out w ++ calls /\
    concat (exports_of i calls) = q /\ attached w' = attached w.
Proof. intros. eapply drain_ends; eauto. Qed.
Print Assumptions C134_drain.

(** With an exporter that neither logs nor raises the worker comes to rest: all records are exported once, in order. *)
Theorem C134_rest : forall exporter limit i w down size cap q, calm exporter w -> nth_error (procs w) i = Some (Batch down size cap q) ->
  0 < size -> (forall h b, exporter i h b = ([], false)) -> forall n, length q <= n ->
  exists w' calls, turns exporter n (S limit) i w = (Returned, w') /\ queue i w' = [] /\ out w' = out w ++ calls /\
    concat (exports_of i calls) = q /\ attached w' = attached w.
Proof. intros. eapply quiet_turns; eauto. Qed.
Print Assumptions C134_rest.

(** With an exporter that fails, by raising or by logging, it never does, although the program logs nothing more: each export that fails
    is the cause of the next. *)
Theorem C134_rest_refuted : forall exporter limit i w size cap q, calm exporter w -> nth_error (procs w) i = Some (Batch false size cap q) ->
  0 < size -> 0 < cap -> q <> [] -> (forall h b, snd (exporter i h b) = true \/ fst (exporter i h b) <> []) -> forall n,
  exists w' calls, turns exporter n (S limit) i w = (Returned, w') /\ queue i w' <> [] /\ out w' = out w ++ calls /\
    length (exports_of i calls) = n.
Proof. intros exporter limit i w size cap q C H S0 C0 N R n. exact (feeding exporter limit i R n w size cap q S0 C0 C H N). Qed.
Print Assumptions C134_rest_refuted.

(** A provider with both kinds of processors, and one whose exporter raises in its first two exports *)
Example C134_example :
  log_call (fun _ _ _ => ([], false)) 1 (User 2) (World [Simple false; Batch false 2 2 [User 0; User 1]; Batch true 2 2 []] [] 0)
    = (Returned, World [Simple false; Batch false 2 2 [User 1; User 2]; Batch true 2 2 []] [(0, [User 2])] 0) /\
  (let flaky := fun (_ : nat) (h : list (nat * list msg)) (_ : list msg) => ([] : list msg, length h <? 2) in
   log_call flaky 3 (User 0) (World [Simple false] [] 0)
     = (Returned, World [Simple false] [(0, [User 0]); (0, [Failed]); (0, [Failed])] 0) /\
   fst (log_call flaky 2 (User 0) (World [Simple false] [] 0)) = RecursionError) /\
  (let failing := fun (_ : nat) (_ : list (nat * list msg)) (b : list msg) => (match b with [_] => [] | _ => [Said 7] end, true) in
   calm failing (World [Batch false 2 3 [User 0; User 1; User 2]] [] 0) /\ terse failing 0 /\
   exists w', flushes failing 1 0 3 (World [Batch false 2 3 [User 0; User 1; User 2]] [] 0) 2 Returned w' /\
     exports_of 0 (out w') = [[User 0; User 1]; [User 2; Said 7]]).
Proof.
  split; [reflexivity|]. split; [split; reflexivity|]. cbv zeta. split; [intros [|[|i]] dn H; cbn in H; discriminate|]. split.
  - intros h [|a [|b l]] N; cbn; try congruence; lia.
  - exists (World [Batch false 2 3 [Failed; Said 7; Failed]] [(0, [User 0; User 1]); (0, [User 2; Said 7])] 0). split; [|reflexivity].
    apply (fl_more _ _ _ _ _ 2 (World [Batch false 2 3 [User 2; Said 7; Failed]] [(0, [User 0; User 1])] 0));
      [discriminate|vm_compute; reflexivity|lia|].
    apply (fl_last _ _ _ _ _ 2); [discriminate|vm_compute; reflexivity|lia].
Qed.
