(** C123: what was recorded until the program ends is exported when it ends. *)
From Verif Require Export Proof_Exit.
Local Open Scope nat_scope.

(** A provider with the default multi processor, which is shut down at exit, and a batch processor q that it gets; what the program does before and
    after is arbitrary, but that it does not shut the provider down and that no exporter of this provider raises in [shutdown].  When the interpreter exits,
    with the workers exporting as they like, q's exporter is given every span of the provider that ended after q was added, in order: those that ended
    before the exit, and those that ended in callbacks that the program registered after it made the provider (which run in the reverse order of
    registration), each once; then it is shut down, exactly once.
    Missing: providers with the concurrent multi processor, exporters that raise in [shutdown], callbacks that are registered before the provider is made;
    for these the claim is false, see below. *)
Theorem C123_exit_partial : forall (A : Type) (work : nat -> list (nat * nat)) (h0 h1 h2 : list (xev A)),
  let p := providers h0 in
  let q := processors (h0 ++ XProvider false true :: h1) in
  let h := h0 ++ XProvider false true :: h1 ++ XAdd p false :: h2 in
  ~ In (XShutdown p) (h1 ++ h2) -> ~ In (XAdd p true) (h1 ++ h2) -> plain_callbacks h ->
  exists b, nth_error (x_procs (exit work (xrun h x_init))) q = Some b
    /\ bp_sent b = ended_on p h2 ++ flat_map (ended_in p) (rev (registered (h1 ++ h2)))
    /\ bp_queue b = [] /\ bp_closed b = 1.
Proof. intros A work h0 h1 h2. apply exit_exports. Qed.
Print Assumptions C123_exit_partial.

(** The hypotheses hold of a program with two providers, two processors and two callbacks. *)
Definition ex_work (n : nat) : list (nat * nat) := [(0, n); (1, 1)].
Definition ex_h0 : list (xev nat) := [XProvider true true; XRegister [UEnd 1 50]].
Definition ex_h1 : list (xev nat) := [XAdd 1 false; XEnd 1 7; XRegister [UEnd 1 20; UEnd 1 21]].
Definition ex_h2 : list (xev nat) := [XEnd 1 8; XWork 1 1; XEnd 0 99; XShutdown 0; XRegister [UEnd 1 30]; XEnd 1 9].
Example C123_exit_case : let p := providers ex_h0 in let h := ex_h0 ++ XProvider false true :: ex_h1 ++ XAdd p false :: ex_h2 in
  ~ In (XShutdown p) (ex_h1 ++ ex_h2) /\ ~ In (XAdd p true) (ex_h1 ++ ex_h2) /\ plain_callbacks h
  /\ map bp_sent (x_procs (exit ex_work (xrun h x_init))) = [[7; 8; 9; 30; 20; 21]; [8; 9; 30; 20; 21]].
Proof.
  cbv zeta. split; [|split; [|split]].
  - cbn. intuition discriminate.
  - cbn. intuition discriminate.
  - assert (Z : ~ concurrent 1 (ex_h0 ++ XProvider false true :: ex_h1 ++ XAdd (providers ex_h0) false :: ex_h2)).
    { intros C. apply concurrent_flag in C. vm_compute in C. discriminate. }
    intros b e Hb He. cbn in Hb. decompose [or] Hb; subst; try contradiction; cbn in He; decompose [or] He; subst; try contradiction; eexists 1, _; (split; [reflexivity|exact Z]).
  - vm_compute. reflexivity.
Qed.

(** A program that shuts the provider down itself: q's exporter has then been given every span that ended between the adding of q and the shutdown, it is
    given nothing later, and its shutdown is called once for every call of the program: the exit adds none. *)
Theorem C123_shutdown : forall (A : Type) (work : nat -> list (nat * nat)) (h0 h1 h2 h3 : list (xev A)),
  let p := providers h0 in
  let q := processors (h0 ++ XProvider false true :: h1) in
  let h := h0 ++ XProvider false true :: h1 ++ XAdd p false :: h2 ++ XShutdown p :: h3 in
  ~ In (XShutdown p) (h1 ++ h2) -> ~ In (XAdd p true) (h1 ++ h2 ++ h3) -> (forall b, In b (registered h) -> ~ In (UShutdown p) b) ->
  forall w, w = xrun h x_init \/ w = exit work (xrun h x_init) ->
  exists b, nth_error (x_procs w) q = Some b /\ bp_sent b = ended_on p h2 /\ bp_queue b = [] /\ bp_closed b = 1 + shutdowns p h3.
Proof. intros A work h0 h1 h2 h3. apply shutdown_exports. Qed.
Print Assumptions C123_shutdown.
Example C123_shutdown_case : map (fun b => (bp_sent b, bp_closed b)) (x_procs (exit ex_work (xrun (ex_h0 ++ XProvider false true :: ex_h1 ++ XAdd 1 false :: [XEnd 1 8] ++ XShutdown 1 :: [XEnd 1 9]) x_init)))
  = [([7; 8], 1); ([8], 1)].
Proof. vm_compute. reflexivity. Qed.

(** With the concurrent multi processor, what is queued when the program ends can be lost, and the exporter is not shut down: the thread pool takes no work
    any more when the provider's callback runs.  (A program that shuts the provider down before it ends loses nothing.) *)
Theorem C123_concurrent_refuted :
  ~ (forall (A : Type) (work : nat -> list (nat * nat)) (h0 h1 h2 : list (xev A)) (is_concurrent : bool),
       let p := providers h0 in
       let q := processors (h0 ++ XProvider is_concurrent true :: h1) in
       let h := h0 ++ XProvider is_concurrent true :: h1 ++ XAdd p false :: h2 in
       ~ In (XShutdown p) (h1 ++ h2) -> ~ In (XAdd p true) (h1 ++ h2) -> registered h = [] ->
       exists b, nth_error (x_procs (exit work (xrun h x_init))) q = Some b /\ (bp_sent b = ended_on p h2 \/ bp_closed b = 1)).
Proof.
  intros H. destruct (H nat (fun _ => []) [] [] [XEnd 0 5] true) as (b & E & C).
  - cbn. intuition discriminate.
  - cbn. intuition discriminate.
  - reflexivity.
  - vm_compute in E. injection E as <-. destruct C; discriminate.
Qed.
Print Assumptions C123_concurrent_refuted.
Example C123_concurrent_case : x_procs (exit (fun _ => []) (xrun [XProvider true true; XAdd 0 false; XEnd 0 5] x_init)) = [BP [5] [] false 0 false]
  /\ x_procs (exit (fun _ => []) (xrun [XProvider true true; XAdd 0 false; XEnd 0 5; XShutdown 0] x_init)) = [BP [] [5] true 1 false].
Proof. vm_compute. auto. Qed.

(** If an exporter raises in [shutdown], the processors behind it are not shut down, and what they hold can be lost. *)
Theorem C123_raising_refuted :
  ~ (forall (A : Type) (work : nat -> list (nat * nat)) (h0 h1 h2 : list (xev A)),
       let p := providers h0 in
       let q := processors (h0 ++ XProvider false true :: h1) in
       let h := h0 ++ XProvider false true :: h1 ++ XAdd p false :: h2 in
       ~ In (XShutdown p) (h1 ++ h2) -> registered h = [] ->
       exists b, nth_error (x_procs (exit work (xrun h x_init))) q = Some b /\ (bp_sent b = ended_on p h2 \/ bp_closed b = 1)).
Proof.
  intros H. destruct (H nat (fun _ => []) [] [XAdd 0 true] [XEnd 0 5]) as (b & E & C).
  - cbn. intuition discriminate.
  - reflexivity.
  - vm_compute in E. injection E as <-. destruct C; discriminate.
Qed.
Print Assumptions C123_raising_refuted.

(** Spans that end in a callback that was registered before the provider was made are lost: the provider is shut down before. *)
Theorem C123_early_callback_refuted :
  ~ (forall (A : Type) (work : nat -> list (nat * nat)) (h0 h1 h2 : list (xev A)),
       let p := providers h0 in
       let q := processors (h0 ++ XProvider false true :: h1) in
       let h := h0 ++ XProvider false true :: h1 ++ XAdd p false :: h2 in
       ~ In (XShutdown p) (h1 ++ h2) -> ~ In (XAdd p true) (h1 ++ h2) -> plain_callbacks h ->
       exists b, nth_error (x_procs (exit work (xrun h x_init))) q = Some b
         /\ forall a, In a (flat_map (ended_in p) (registered h)) -> In a (bp_sent b)).
Proof.
  intros H. destruct (H nat (fun _ => []) [XRegister [UEnd 0 5]] [] []) as (b & E & C).
  - cbn. intuition discriminate.
  - cbn. intuition discriminate.
  - intros b e [<-|[]] [<-|[]]. exists 0, 5. split; [reflexivity|]. intros C. apply concurrent_flag in C. discriminate.
  - vm_compute in E. injection E as <-. destruct (C 5). now left.
Qed.
Print Assumptions C123_early_callback_refuted.
