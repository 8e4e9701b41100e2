(** C121: spans in coroutines, generators and decorated functions. *)
From Verif Require Import Spec_Frames Proof_Frames.
From Coq Require Import Lia.
Local Open Scope nat_scope.

(** If the blocks are nested in each task, then in every task the current span is that of the innermost open block, or that in which the task
    was made; a new span is its child; and what is ended is what is left.
    Missing: schedules in which a generator or a coroutine is suspended inside a block and another block of the same task is left meanwhile, which
    is refuted below. *)
Theorem C121_nested_partial : forall sc l p, nested_run no_places l p -> (forall n, n < length (pl_parents p) -> sc_is_valid (sc n) = true) ->
  let w := grun sc l gw_init in
  gw_parents w = map (option_map sc) (pl_parents p) /\ gw_ended w = pl_ended p
  /\ forall u, gcurrent u w = match innermost p u with Some n => sc n | None => SC 0 0 false 0 [] end.
Proof.
  intros sc l p H V w. destruct (agrees_run sc l _ _ _ (agrees_init sc) H V) as [_ C _ P E _ _ _ _ _ _ _].
  split; [exact P|]. split; [exact E|]. intro u. unfold gcurrent, w. rewrite C. apply ctxt_current.
Qed.
Print Assumptions C121_nested_partial.

(** If every frame has its own task, every schedule is nested. *)
Theorem C121_tasks : forall l, own_tasks l -> exists p, nested_run no_places l p.
Proof. exact own_nested. Qed.
Print Assumptions C121_tasks.

(** In every schedule: leaving a block in the task in which it was entered makes current what was current before it was entered; in another task
    it changes nothing there. *)
Theorem C121_leave : forall sc l1 u f l2 u', Forall (idle f) l2 ->
  let w := grun sc l1 gw_init in
  let w2 := grun sc (GEnter u f :: l2) w in
  get_current u' (gw_rt (gstep sc w2 (GLeave u' f))) = if Nat.eqb u u' then get_current u (gw_rt w) else get_current u' (gw_rt w2).
Proof. intros sc l1 u f l2 u' Id. exact (proj2 (proj2 (around sc (grun sc l1 gw_init) u f l2 u' (ok_run sc l1) Id))). Qed.
Print Assumptions C121_leave.

(** A decorated function or coroutine function: when its body starts the new span is current, has not ended, and has the span that was current as
    its parent; it has not ended when the body is through; then it ends, and what was current before is so again.  [f] is the frame of the wrapper. *)
Theorem C121_decorated : forall sc k l1 u f body,
  k = KFunction \/ k = KCoroutine -> Forall (idle f) body ->
  let w := grun sc l1 gw_init in
  let n := length (gw_parents w) in
  let starts := grun sc (fst (wrap k u f)) w in
  let through := grun sc body starts in
  let returned := grun sc (snd (wrap k u f)) through in
  gcurrent u starts = sc n
  /\ nth_error (gw_parents starts) n = Some (if sc_is_valid (gcurrent u w) then Some (gcurrent u w) else None)
  /\ ~ In n (gw_ended starts) /\ ~ In n (gw_ended through)
  /\ In n (gw_ended returned) /\ get_current u (gw_rt returned) = get_current u (gw_rt w).
Proof.
  intros sc k l1 u f body Hk Id. cbv zeta. destruct (enter_facts sc (grun sc l1 gw_init) u f (ok_run sc l1)) as (_ & X & C & P).
  destruct (around sc (grun sc l1 gw_init) u f body u (ok_run sc l1) Id) as (A & B & D). rewrite Nat.eqb_refl in D.
  destruct Hk as [-> | ->]; cbn [wrap fst snd grun fold_left]; (split; [exact C|]; split; [exact P|]; split; [exact X|]; split; [exact A|]; split; [exact B|exact D]).
Qed.
Print Assumptions C121_decorated.

(** A decorated generator function, asynchronous generator function, or function that returns something to be awaited: its body starts when the
    span has already ended, and the span is not current. *)
Theorem C121_generators_refuted : forall sc k l1 u f,
  k = KGenerator \/ k = KAsyncGenerator \/ k = KAwaitable ->
  let w := grun sc l1 gw_init in
  let starts := grun sc (fst (wrap k u f)) w in
  In (length (gw_parents w)) (gw_ended starts) /\ get_current u (gw_rt starts) = get_current u (gw_rt w).
Proof.
  intros sc k l1 u f Hk. cbv zeta. destruct (around sc (grun sc l1 gw_init) u f [] u (ok_run sc l1) (Forall_nil _)) as (_ & B & D). rewrite Nat.eqb_refl in D.
  destruct Hk as [-> | [-> | ->]]; (split; [exact B|exact D]).
Qed.
Print Assumptions C121_generators_refuted.

Definition ex_sc (n : nat) : span_context := SC 1 (Z.of_nat (S n)) false 1 [].

(** A generator that is suspended inside a block: the consumer, which is in no block, starts a child of the generator's span. *)
Theorem C121_suspended_refuted : forall sc, sc_is_valid (sc 0) = true ->
  gw_parents (grun sc [GEnter 0 1; GEnter 0 2] gw_init) = [None; Some (sc 0)] /\ gw_ended (grun sc [GEnter 0 1; GEnter 0 2] gw_init) = [].
Proof. intros sc V. cbn. unfold gcurrent, current_span_context. cbn. now rewrite V. Qed.
Print Assumptions C121_suspended_refuted.

(** If the generator leaves its block while the consumer is in one, then after both are left, with no block open, the generator's span, which has
    ended, is current for good: the next span is its child. *)
Theorem C121_stale_refuted : forall sc, sc_is_valid (sc 0) = true ->
  let w := grun sc [GEnter 0 1; GEnter 0 2; GLeave 0 1; GLeave 0 2] gw_init in
  (forall f, gw_frames w f = []) /\ gw_ended w = [0; 1] /\ gcurrent 0 w = sc 0
  /\ nth_error (gw_parents (gstep sc w (GEnter 0 3))) 2 = Some (Some (sc 0)).
Proof.
  intros sc V. cbv zeta. split; [|split; [reflexivity|split; [reflexivity|]]].
  - intro f. cbn. unfold set_frame. destruct (Nat.eqb f 2) eqn:A, (Nat.eqb f 1) eqn:B; reflexivity.
  - cbn. now rewrite V.
Qed.
Print Assumptions C121_stale_refuted.

(** If a block is left in another task (an asynchronous generator that is closed there), its span stays current in the first one, although it has
    ended. *)
Theorem C121_other_task_refuted : forall sc,
  let w := grun sc [GEnter 0 1; GTask 0 1; GLeave 1 1] gw_init in
  (forall f, gw_frames w f = []) /\ gw_ended w = [0] /\ gcurrent 0 w = sc 0 /\ gcurrent 1 w = sc 0.
Proof.
  intros sc. cbv zeta. split; [|now repeat split]. intro f. cbn. unfold set_frame. now destruct (Nat.eqb f 1).
Qed.
Print Assumptions C121_other_task_refuted.

(** Cases *)
Definition ex_schedule : list gev :=
  [GEnter 0 0; GTask 0 1; GTask 0 2; GEnter 1 1; GEnter 2 2; GLeave 0 0; GEnter 1 1; GLeave 2 2; GLeave 1 1; GEnter 2 2; GLeave 1 1; GLeave 1 1].
Example C121_case_tasks : own_tasks ex_schedule.
Proof.
  split; [repeat (constructor; [try reflexivity; exact I|]); constructor|].
  intros pre u v post f E. unfold ex_schedule in E.
  repeat (destruct pre as [|? pre]; cbn [app] in E;
    [first [discriminate E | injection E; clear E; intros; subst; cbn; intuition discriminate]|first [discriminate E | injection E; clear E; intros E ?; subst]]).
Qed.
Example C121_case : gw_parents (grun ex_sc ex_schedule gw_init) = [None; Some (ex_sc 0); Some (ex_sc 0); Some (ex_sc 1); Some (ex_sc 0)]
  /\ gw_ended (grun ex_sc ex_schedule gw_init) = [0; 2; 3; 1].
Proof. vm_compute. now split. Qed.
Example C121_case_nested : exists p, nested_run no_places [GEnter 0 0; GEnter 0 1; GLeave 0 1; GEnter 0 1; GLeave 0 1; GLeave 0 0] p
  /\ length (pl_parents p) = 3 /\ forall n, n < 3 -> sc_is_valid (ex_sc n) = true.
Proof.
  assert (St : forall p u f n r, pl_open p u = (f, n) :: r -> (forall v, v <> u -> pl_open p v = []) -> (forall m, In (f, m) r -> m <= n) ->
    nests p (GLeave u f) (Pl (upd u r (pl_open p)) (pl_from p) (pl_parents p) (pl_ended p ++ [n]))).
  { intros p u f n r E N R. apply nests_leave; [exact E|]. intros v m I. destruct (Nat.eq_dec v u) as [->|NE]; [|rewrite N in I by exact NE; destruct I].
    rewrite E in I. destruct I as [[= <-]|I]; [lia|now apply R]. }
  eexists. split.
  - do 2 (eapply nr_cons; [apply nests_enter|]).
    eapply nr_cons; [eapply St; [reflexivity|intros [|v] H; [congruence|reflexivity]|intros m [[= ? ?]|[]]]|].
    eapply nr_cons; [apply nests_enter|].
    do 2 (eapply nr_cons; [eapply St; [reflexivity|intros [|v] H; [congruence|reflexivity]|intros m I; cbn in I; destruct I as [[= ? ?]|[]] || destruct I]|]).
    apply nr_nil.
  - split; [reflexivity|]. intros n L. destruct n as [|[|[|n]]]; [reflexivity..|lia].
Qed.
