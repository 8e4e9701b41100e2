(** C124: the global provider. *)
From Verif Require Export Proof_Global.
Local Open Scope nat_scope.

(** C124.  Any number of threads set and get the global provider, in any interleaving, with the environment naming a provider or not.
    If no proxy hook raises (for traces, logs and events there is none): all gets that return a provider return the same one, which was passed
    to a set or loaded from the environment; if a set returns without a warning, it is the provider of that set; at most one set returns
    without a warning; no get returns None.  Missing: meter providers with which connecting the proxies raises ([raises]), for which it is false
    (C124_raising_hook_refuted). *)
Theorem C124_one_provider_partial : forall raises, (forall p, raises p = false) -> forall h, let l := g_log (grun raises h g_init) in
  (forall t p u q, In (RProvider t p) l -> In (RProvider u q) l -> p = q) /\
  (forall t p, In (RProvider t p) l -> offered p l) /\
  (forall t p u q, In (RSet t p true) l -> In (RProvider u q) l -> p = q) /\
  (length (filter (fun r => match r with RSet _ _ did => did | _ => false end) l) <= 1) /\
  (forall t, ~ In (RNone t) l).
Proof. exact agree. Qed.
Print Assumptions C124_one_provider_partial.

(** C124.  A set ends normally.  A get returns a provider, or, only if no call had shown before it began that one is installed, the proxy
    or an exception.  Missing: as above. *)
Theorem C124_calls_partial : forall raises, (forall p, raises p = false) -> forall h before t c r, answered (g_log (grun raises h g_init)) before t c r ->
  match c with
  | CSet p => exists did, r = RSet t p did
  | CGet => (exists q, r = RProvider t q) \/ (existsb shows_installed before = false /\ (r = RProxy t \/ r = RRaised t))
  end.
Proof. exact results. Qed.
Print Assumptions C124_calls_partial.

(** C124.  When the environment names a provider that loads, every get returns a provider.  Missing: as above. *)
Theorem C124_environment_partial : forall raises, (forall p, raises p = false) -> forall h before t c r, Forall env_loads h -> answered (g_log (grun raises h g_init)) before t c r ->
  match c with CSet p => exists did, r = RSet t p did | CGet => exists q, r = RProvider t q end.
Proof. exact env_results. Qed.
Print Assumptions C124_environment_partial.

(** C124.  There is no deadlock: as long as a thread is within a call, some thread within a call comes nearer to its end with its next step,
    and a call has at most ten steps.  This holds also for hooks that raise. *)
Theorem C124_progress : forall raises h t, let w := grun raises h g_init in busy w t ->
  exists u, busy w u /\ forall present loads, steps_left (g_pc (gstep raises w (EStep u present loads)) u) < steps_left (g_pc w u).
Proof. exact progress. Qed.
Print Assumptions C124_progress.

(** Two threads: thread 1 sets provider 7 while thread 2 gets, finds nothing, and loads provider 8 from the environment, which is thrown away. *)
Definition steps (t n : nat) : list gev := repeat (EStep t true (Some 8)) n.
Definition race : list gev :=
  [ECall 2 CGet] ++ steps 2 2 ++ [ECall 1 (CSet 7)] ++ steps 1 3 ++ steps 2 3 ++ steps 1 3 ++ steps 2 3 ++ [ECall 1 (CSet 9)] ++ steps 1 1 ++ [ECall 3 CGet] ++ steps 3 2.
Example C124_example : g_log (grun (fun _ => false) race g_init) =
  [RStart 2 CGet; RStart 1 (CSet 7); RLoaded 2 8; RSet 1 7 true; RProvider 2 7; RStart 1 (CSet 9); RSet 1 9 false; RStart 3 CGet; RProvider 3 7] /\
  answered (g_log (grun (fun _ => false) race g_init)) [RStart 2 CGet; RStart 1 (CSet 7); RLoaded 2 8; RSet 1 7 true; RProvider 2 7; RStart 1 (CSet 9); RSet 1 9 false]
    3 CGet (RProvider 3 7) /\ Forall env_loads race.
Proof.
  split; [vm_compute; reflexivity|]. split; [exists [], []; split; [vm_compute; reflexivity|split; reflexivity]|].
  unfold race, steps. cbn. repeat (apply Forall_cons; [first [exact I|split; [reflexivity|discriminate]]|]). apply Forall_nil.
Qed.
(** Within it, thread 2 waits for thread 1. *)
Example C124_waiting : let w := grun (fun _ => false) ([ECall 2 CGet] ++ steps 2 2 ++ [ECall 1 (CSet 7)] ++ steps 1 2 ++ steps 2 2) g_init in
  busy w 2 /\ g_pc w 2 = SWait 8 false /\ g_lock w = Some 1 /\ g_pc (gstep (fun _ => false) w (EStep 2 true (Some 8))) 2 = SWait 8 false.
Proof. split; [vm_compute; discriminate|]. repeat split; vm_compute; reflexivity. Qed.

(** C124, refuted: the class named by the environment is instantiated at most once.  Two threads that get at the same time load it both;
    one of the two providers is thrown away (with its processors and exporters, and without a shutdown). *)
Theorem C124_loaded_once_refuted : ~ (forall h t p u q, In (RLoaded t p) (g_log (grun (fun _ => false) h g_init)) ->
  In (RLoaded u q) (g_log (grun (fun _ => false) h g_init)) -> p = q).
Proof.
  intros H. specialize (H ([ECall 1 CGet; ECall 2 CGet] ++ repeat (EStep 1 true (Some 5)) 3 ++ repeat (EStep 2 true (Some 6)) 3) 1 5 2 6).
  assert (5 = 6); [|discriminate]. apply H; vm_compute; auto.
Qed.
Print Assumptions C124_loaded_once_refuted.

(** C124, refuted for meter providers whose [get_meter] raises for an instrument that the proxy has to make: the provider is installed although
    its set raised, gets return it, and a later set replaces it. *)
Theorem C124_raising_hook_refuted : ~ (forall raises h t p u q, In (RProvider t p) (g_log (grun raises h g_init)) ->
  In (RProvider u q) (g_log (grun raises h g_init)) -> p = q).
Proof.
  intros H. specialize (H (fun p => Nat.eqb p 3) ([ECall 1 (CSet 3)] ++ steps 1 5 ++ [ECall 2 CGet] ++ steps 2 2 ++ [ECall 1 (CSet 4)] ++ steps 1 6 ++ [ECall 2 CGet] ++ steps 2 2) 2 3 2 4).
  assert (3 = 4); [|discriminate]. apply H; vm_compute; auto 10.
Qed.
Print Assumptions C124_raising_hook_refuted.
