(** C77, C78: tracers, loggers, meters and instruments obtained before a provider is set. *)
From Verif Require Import Proof_Proxy.

(** C77.  Whatever other threads do in between, a call on a tracer (or logger) that starts after a provider was set
    reaches the tracer this provider gives for the arguments the caller's get_tracer had, even if get_tracer was
    called long before; and a call never reaches any other tracer: it is that one, or a no-op. *)
Theorem C77_tracer_calls : forall (A X : Type) (l1 l2 : list (pop A X)) h x a r,
  nth_error (gets l1) h = Some a ->
  result_of (prun (l1 ++ PCall h x :: l2)) (calls_started l1) = Some r ->
  (forall p, first_set l1 = Some p -> r = Some (p, a))
  /\ (r = None \/ exists p, first_set (l1 ++ l2) = Some p /\ r = Some (p, a)).
Proof. intros A X l1 l2 h x a r. exact (tracer_calls l1 h x l2 a r). Qed.
Print Assumptions C77_tracer_calls.

(** C77.  Such a call never waits: three steps of its thread finish it, whatever the others do. *)
Theorem C77_tracer_progress : forall (A X : Type) (l1 l2 : list (pop A X)) h x a,
  nth_error (gets l1) h = Some a -> (steps_of (calls_started l1) l2 >= 3)%nat ->
  exists r, result_of (prun (l1 ++ PCall h x :: l2)) (calls_started l1) = Some r.
Proof. intros A X l1 l2 h x a. exact (tracer_progress l1 h x l2 a). Qed.
Print Assumptions C77_tracer_progress.

(** Tracer "a" and a call on it before the provider; the provider is set while the call runs; a second call and a
    second set after. *)
Example C77_example :
  let l1 := [PGet (lit "a"); PGet (lit "b"); PCall 0%nat tt; PRun 0%nat; PSet 7%nat; PSet 8%nat] in
  let l2 := [PRun 1%nat; PRun 0%nat; PRun 1%nat; PRun 1%nat; PRun 0%nat] in
  nth_error (gets l1) 1 = Some (lit "b") /\ first_set l1 = Some 7%nat
  /\ result_of (prun (l1 ++ PCall 1%nat tt :: l2)) 1 = Some (Some (7%nat, lit "b"))
  /\ result_of (prun (l1 ++ PCall 1%nat tt :: l2)) 0 = Some (Some (7%nat, lit "a"))
  /\ result_of (prun [PGet (lit "a"); PCall 0%nat tt; PRun 0%nat; PRun 0%nat; PSet 7%nat; PRun 0%nat]) 0 = Some None.
Proof. vm_compute. repeat split. Qed.

(** C78.  At every moment, a measurement on an instrument created through the API with arguments [i] on a meter of
    name, version and schema url [m] either is dropped or reaches, as one call, the real instrument of the same [m]
    and [i]; once set_meter_provider has returned it is not dropped.  (The attributes of the meter: see below.) *)
Theorem C78_measurements_partial : forall (M T I X : Type) (bad : I -> bool) (l : list (mop M T I X)) h m t i,
  nth_error (ms_iasked (mrun bad l)) h = Some (m, t, i) ->
  dropped bad (mrun bad l) h /\ ms_pc (mrun bad l) <> SDone
  \/ exists t', (t' = t \/ t' = None) /\ reaches bad (mrun bad l) h (m, t') i.
Proof. intros M T I X bad l h m t i. exact (meters_destination bad l h m t i). Qed.
Print Assumptions C78_measurements_partial.

(** C78.  The real provider is asked for each instrument created through the API at most once, and, once
    set_meter_provider has returned, exactly once. *)
Theorem C78_created_once : forall (M T I X : Type) (bad : I -> bool) (l : list (mop M T I X)),
  exists missing,
    Permutation (created (ms_log (mrun bad l)) ++ missing) (map (fun a => (fst (fst a), snd a)) (ms_iasked (mrun bad l)))
    /\ (ms_pc (mrun bad l) = SDone -> missing = []).
Proof. intros M T I X bad l. exact (meters_created bad l). Qed.
Print Assumptions C78_created_once.

(** C78.  If no instrument has a name or unit the SDK rejects, set_meter_provider returns normally: from every
    reachable state enough steps of its thread finish it, and it is never left by an exception. *)
Theorem C78_set_returns : forall (M T I X : Type) (bad : I -> bool) (l : list (mop M T I X)),
  (forall h i, In (MCreate h i) l -> bad i = false) ->
  (forall j k, ms_pc (mrun bad l) <> SRaised j k) /\ exists n, ms_pc (mrun bad (l ++ repeat MSet n)) = SDone.
Proof. intros M T I X bad l H. split; [exact (never_raised bad l H)|exact (set_finishes bad l H)]. Qed.
Print Assumptions C78_set_returns.

(** Two meters, three instruments, one of them created while the provider is being set. *)
Definition proxy_ops : list (mop str unit str Z) :=
  [MGet (lit "m") None; MGetProxy (lit "n") None; MCreate 0%nat (lit "a"); MCreate 1%nat (lit "b"); MMeasure 0%nat 1%Z;
   MSet; MSet; MSet; MCreate 0%nat (lit "c"); MSet; MCreate 0%nat (lit "blocked"); MSet; MSet; MSet; MMeasure 0%nat 2%Z].
Example C78_example :
  ms_iasked (mrun (fun _ => false) proxy_ops)
    = [(lit "m", None, lit "a"); (lit "n", None, lit "b"); (lit "m", None, lit "c")]
  /\ ms_log (mrun (fun _ => false) proxy_ops)
    = [ECreate (lit "m", None) (lit "a"); ECreate (lit "m", None) (lit "c"); EMeasure (lit "m", None) (lit "a") 2%Z]
  /\ ms_pc (mrun (fun _ => false) (proxy_ops ++ repeat MSet 5)) = SDone
  /\ created (ms_log (mrun (fun _ => false) (proxy_ops ++ repeat MSet 5)))
    = [(lit "m", lit "a"); (lit "m", lit "c"); (lit "n", lit "b")].
Proof. vm_compute. repeat split. Qed.

(** C78.  The attributes given to get_meter before the provider is set are lost. *)
Theorem C78_attributes_refuted :
  ~ forall (l : list (mop str N str Z)) h m t i, nth_error (ms_iasked (mrun (fun _ => false) l)) h = Some (m, t, i) ->
      ms_pc (mrun (fun _ => false) l) = SDone -> reaches (fun _ => false) (mrun (fun _ => false) l) h (m, t) i.
Proof.
  intros H.
  pose proof (H ([MGet (lit "m") (Some 5%N); MCreate 0%nat (lit "a")] ++ repeat MSet 7) 0%nat (lit "m") (Some 5%N) (lit "a") eq_refl eq_refl 1%Z) as K.
  vm_compute in K. discriminate K.
Qed.
Print Assumptions C78_attributes_refuted.

(** C78.  One badly named instrument created before the provider is set makes set_meter_provider raise, and leaves
    the meters after it without a real one, although get_meter_provider now returns the real provider. *)
Theorem C78_bad_name_refuted : exists (l : list (mop str N str Z)) (bad : str -> bool) m i,
  nth_error (ms_iasked (mrun bad l)) 1 = Some (m, None, i) /\ bad i = false
  /\ ms_pc (mrun bad l) = SRaised 0 0 /\ ms_global (mrun bad l) = true
  /\ forall n, dropped bad (mrun bad (l ++ repeat MSet n)) 1.
Proof.
  exists ([MGet (lit "m") None; MGet (lit "n") None; MCreate 0%nat (lit "!"); MCreate 1%nat (lit "b")] ++ repeat MSet 5),
    (str_eqb (lit "!")), (lit "n"), (lit "b").
  split; [vm_compute; reflexivity|]. split; [vm_compute; reflexivity|]. split; [vm_compute; reflexivity|]. split; [vm_compute; reflexivity|].
  intros n. set (l := _ ++ repeat MSet 5).
  assert (E : mrun (str_eqb (lit "!")) (l ++ repeat MSet n) = mrun (str_eqb (lit "!")) l).
  { induction n as [|n IH]; [rewrite app_nil_r; reflexivity|]. replace (S n) with (n + 1)%nat by lia.
    rewrite repeat_app, app_assoc. cbn [repeat]. rewrite mrun_snoc, IH.
    assert (P : ms_pc (mrun (str_eqb (lit "!")) l) = SRaised 0 0) by (vm_compute; reflexivity).
    generalize dependent (mrun (str_eqb (lit "!")) l). intros st _ P. unfold mstep, set_step. rewrite P. reflexivity. }
  rewrite E. clear E. intros x. vm_compute. reflexivity.
Qed.
Print Assumptions C78_bad_name_refuted.
