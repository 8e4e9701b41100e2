(** C54: exporters retry a bounded number of times and stop at the first conclusive answer. *)
From Verif Require Import Spec_Retry Proof_Retry.
From Coq Require Import Lia.
Local Open Scope Z_scope.

(** ** HTTP *)
(** Whatever the server answers, a call that is not refused asks until the first conclusive answer, at most six times,
    and ends as that answer says. *)
Theorem C54_http : forall answers fuel, (7 <= fuel)%nat ->
  (exists c, http_export false answers fuel = Some c /\ retried answers c)
  /\ (exists c, http_metric_export false answers fuel = Some c /\ retried answers c).
Proof.
  intros answers fuel F. split; (destruct (http_loop_ok answers fuel 0) as (c & E & R); [lia|lia|intros j Hj; lia|]; exists c; split; [exact E|exact R]).
Qed.
Print Assumptions C54_http.
Example C54_http_example :
  http_export false (fun i => if Nat.eqb i 2 then HStatus 200 else HStatus 503) 7 = Some (Call (Returned SUCCESS) 3 [1; 2])
  /\ http_export false (fun _ => HStatus 503) 7 = Some (Call (Returned FAILURE) 6 [1; 2; 4; 8; 16; 32])
  /\ http_export false (fun _ => HStatus 429) 7 = Some (Call (Returned FAILURE) 1 [])
  /\ http_export false (fun i => if Nat.eqb i 1 then HException else HStatus 408) 7 = Some (Call Raised 2 [1]).
Proof. repeat split. Qed.

(** In every sequence of calls, those of the trace and the log exporter before the first [shutdown] do that, and those
    after it send nothing and return FAILURE.  Missing: the metric exporter (C54_http_metric_shutdown_refuted). *)
Theorem C54_http_shutdown_partial : forall fuel before after, (7 <= fuel)%nat -> ~ In HShutdown before ->
  exists calls, http_history http_export fuel false (before ++ HShutdown :: after)
    = map Some calls ++ repeat (Some (Call (Returned FAILURE) 0 [])) (length (filter (fun o => match o with HExport _ => true | HShutdown => false end) after))
    /\ Forall2 (fun o c => exists answers, o = HExport answers /\ retried answers c) before calls.
Proof.
  intros fuel before after F. induction before as [|o before IH]; intros N; cbn.
  - exists []. split; [|constructor]. cbn. clear. induction after as [|[a|] after IH]; cbn; [reflexivity|f_equal; exact IH|exact IH].
  - destruct o as [answers|]; [|exfalso; apply N; now left]. destruct IH as (calls & E & R); [intros Q; apply N; now right|].
    destruct (proj1 (C54_http answers fuel F)) as (c & Ec & Rc). cbn. exists (c :: calls). split; [cbn; rewrite E; f_equal; exact Ec|].
    constructor; [eauto|exact R].
Qed.
Print Assumptions C54_http_shutdown_partial.
Example C54_http_shutdown_example :
  http_history http_export 7 false [HExport (fun _ => HStatus 200); HShutdown; HExport (fun _ => HStatus 200); HShutdown]
  = [Some (Call (Returned SUCCESS) 1 []); Some (Call (Returned FAILURE) 0 [])].
Proof. reflexivity. Qed.
(** The metric exporter sends after [shutdown]. *)
Theorem C54_http_metric_shutdown_refuted :
  ~ forall fuel before after c, In (Some c) (skipn (length before) (http_history http_metric_export fuel false (before ++ HShutdown :: after))) -> c_attempts c = 0%nat.
Proof. intros H. specialize (H 7%nat [] [HExport (fun _ => HStatus 200)] _ (or_introl eq_refl)). discriminate H. Qed.
Print Assumptions C54_http_metric_shutdown_refuted.

(** ** gRPC: any number of threads that export through one exporter and shut it down, in every schedule *)
(** An export that ended made at most six requests; all but the last were answered with a transient error (one without a hint
    when to try again, or with a usable one); after each of those it slept for as long as the server asked or for 1, 2, 4, ... seconds; it returned SUCCESS only if the last
    request succeeded, and it made no request after a conclusive answer. *)
Theorem C54_grpc : forall calls cs s ev t n e,
  g_run (g_start calls) cs = (s, ev) -> nth_error (g_threads s) t = Some (XDone n e) ->
  let asked := attempts_of t ev in
  length asked = n /\ (n <= 6)%nat
  /\ ((Forall grpc_again asked /\ sleeps_of t ev = waits_after 1 asked /\ (e = Returned FAILURE \/ e = Raised))
      \/ exists before last, asked = before ++ [last] /\ Forall grpc_again before /\ sleeps_of t ev = waits_after 1 before
           /\ ~ grpc_again last /\ (grpc_verdict last e \/ e = Raised)).
Proof.
  intros calls cs s ev t n e R D. cbn zeta.
  destruct (had_thread _ _ _ _ _ _ R D) as [p P].
  destruct (pinv_run _ _ _ _ _ _ _ _ P (start_pinv _ _ _ P) R) as (p' & P' & I). rewrite D in P'. injection P' as <-.
  cbn in I. destruct I as (L & B & [I|I]); (split; [exact L|]; split; [exact B|]).
  - left. intuition.
  - right. destruct I as (before & last & e' & A & F & N & V & Q & W). exists before, last. repeat (split; [assumption|]). destruct Q as [->| ->]; auto.
Qed.
Print Assumptions C54_grpc.

(** If no wait for the lock in [shutdown] times out then requests exclude each other, [shutdown] does not raise, and an
    export ends as its last answer says: SUCCESS if and only if that succeeded.
    Missing: waits that time out (C54_grpc_timeout_refuted). *)
Theorem C54_grpc_result_partial : forall calls cs s ev, no_timeouts cs -> g_run (g_start calls) cs = (s, ev) ->
  (length (filter inside (g_threads s)) <= 1)%nat
  /\ ~ In SRaised (g_threads s)
  /\ forall t n e, nth_error (g_threads s) t = Some (XDone n e) ->
       (Forall grpc_again (attempts_of t ev) /\ e = Returned FAILURE)
       \/ exists before last, attempts_of t ev = before ++ [last] /\ ~ grpc_again last /\ grpc_verdict last e.
Proof.
  intros calls cs s ev T R.
  assert (X : lock_inv s /\ forall t p', nth_error (g_threads s) t = Some p' -> exact p' (attempts_of t ev)).
  { split; [eapply run_lock; [exact T|apply start_lock|exact R]|]. intros t p' P'. destruct (had_thread _ _ _ _ _ _ R P') as [p P].
    destruct (exact_run _ T _ _ _ _ _ _ _ (start_lock calls) P (start_pinv _ _ _ P) (start_exact _ _ _ P) R) as (_ & q & Q & _ & Y).
    rewrite P' in Q. injection Q as <-. exact Y. }
  destruct X as [LI X]. split; [unfold lock_inv in LI; destruct (g_lock s); lia|]. split.
  - intros I. apply In_nth_error in I. destruct I as [t I]. apply (X _ _ I).
  - intros t n e D. apply (X _ _ D).
Qed.
Print Assumptions C54_grpc_result_partial.

(** What the server says about when to try again is not checked: an export that was answered nothing but errors that pass
    can raise, and its pauses have no limit but that of the clock, 2^63 nanoseconds, although its time-out is ten seconds. *)
Theorem C54_grpc_hint_refuted :
  (exists cs s ev n code info, no_timeouts cs /\ g_run (g_start [true]) cs = (s, ev) /\ attempts_of 0 ev = [GError code info] /\ passing code
     /\ nth_error (g_threads s) 0 = Some (XDone n Raised))
  /\ forall d, 0 <= d < 2 ^ 63 -> exists cs s ev n, no_timeouts cs /\ g_run (g_start [true]) cs = (s, ev) /\ sleeps_of 0 ev = [d]
     /\ nth_error (g_threads s) 0 = Some (XDone n (Returned SUCCESS)).
Proof.
  split.
  - exists (repeat (GC 0 (GError 14 (Some (Some (-1)))) false) 5). do 2 eexists. exists 1%nat, 14, (Some (Some (-1))).
    split; [repeat constructor|]. split; [reflexivity|]. split; [reflexivity|]. split; [unfold passing; lia|reflexivity].
  - intros d D. apply can_sleep_ok in D.
    exists (repeat (GC 0 (GError 14 (Some (Some d))) false) 5 ++ repeat (GC 0 GOk false) 5), (GS false false [XDone 2 (Returned SUCCESS)]),
      [EAttempt 0 (GError 14 (Some (Some d))); ESleep 0 d; EAttempt 0 GOk; EReturn 0], 2%nat.
    split; [repeat constructor|]. split; [|split; reflexivity].
    unfold g_run, g_start, g_step, pc_step, grpc_delay; cbn -[can_sleep]. rewrite D. reflexivity.
Qed.
Print Assumptions C54_grpc_hint_refuted.

Definition ok (t : nat) : gchoice := GC t GOk false.
Definition err (t : nat) (code : Z) (info : option (option Z)) : gchoice := GC t (GError code info) false.
(** Two exports and a shutdown: the first export is retried once, with a pause the server asked for. *)
Example C54_grpc_example :
  let cs := [ok 0; ok 0; ok 0; err 0 14 (Some (Some 5)); ok 1; ok 1; ok 1; ok 0; ok 0; ok 1; ok 1; ok 1; ok 0; ok 0; ok 0; ok 0; ok 2; ok 2; ok 2; ok 2] in
  no_timeouts cs /\ g_run (g_start [true; true; false]) cs
  = (GS true false [XDone 2 (Returned SUCCESS); XDone 1 (Returned SUCCESS); SDone],
     [EAttempt 0 (GError 14 (Some (Some 5))); ESleep 0 5; EAttempt 1 GOk; EReturn 1; EAttempt 0 GOk; EReturn 0; EShut 2; EReturn 2]).
Proof. split; [repeat constructor|reflexivity]. Qed.

(** Once the exporter is shut down a call that has not begun sends nothing, and one that is in progress sends at most
    one more request.  Missing: that it sends none (C54_grpc_late_request_refuted). *)
Theorem C54_grpc_shutdown_partial : forall s cs s' ev t, g_shut s = true -> g_run s cs = (s', ev) ->
  (length (attempts_of t ev) <= 1)%nat /\ (not_begun s t -> attempts_of t ev = []).
Proof.
  intros s cs s' ev t H R. destruct (nth_error (g_threads s) t) as [p|] eqn:P.
  - pose proof (pot_run _ _ _ _ _ _ H P R) as B. split; [destruct p; cbn in B; lia|]. unfold not_begun. rewrite P. intros Q. injection Q as ->.
    cbn in B. destruct (attempts_of t ev); [reflexivity|cbn in B; lia].
  - pose proof (no_thread _ _ _ _ _ R P) as Z0.
    rewrite Z0. split; [cbn; lia|auto].
Qed.
Print Assumptions C54_grpc_shutdown_partial.
Example C54_grpc_shutdown_example :
  attempts_of 0 (snd (g_run (GS true false [XIn 0; XCheck]) [err 0 14 None; ok 0; ok 0; ok 0; ok 1])) = [GError 14 None].
Proof. reflexivity. Qed.

(** That last request can come after [shutdown] has returned. *)
Theorem C54_grpc_late_request_refuted :
  ~ forall calls cs s ev before after t a, no_timeouts cs -> g_run (g_start calls) cs = (s, ev) ->
      ev = before ++ EShut t :: EReturn t :: after -> forall t', ~ In (EAttempt t' a) after.
Proof.
  intros H. refine (H [true; false] [ok 0; ok 0; ok 1; ok 1; ok 1; ok 1; ok 0; ok 0] _ _ [] [EAttempt 0 GOk] 1%nat GOk _ eq_refl eq_refl 0%nat (or_introl eq_refl)).
  repeat constructor.
Qed.
Print Assumptions C54_grpc_late_request_refuted.

(** If the wait in [shutdown] times out, it releases the lock of the export that is running: that export raises
    although its request succeeded. *)
Theorem C54_grpc_timeout_refuted :
  ~ forall calls cs s ev t n e, g_run (g_start calls) cs = (s, ev) -> nth_error (g_threads s) t = Some (XDone n e) ->
      attempts_of t ev = [GOk] -> e = Returned SUCCESS.
Proof.
  intros H. specialize (H [true; false] [ok 0; ok 0; ok 0; ok 0; ok 1; GC 1 GOk true; ok 1; ok 1; ok 0] _ _ 0%nat _ _ eq_refl eq_refl eq_refl).
  discriminate H.
Qed.
Print Assumptions C54_grpc_timeout_refuted.
