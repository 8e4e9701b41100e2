(** C127: installing and uninstalling the OpenCensus shim. *)
From Verif Require Import Proof_OcPatch.
From Coq Require Import Lia.

(** C127: while the shim is installed every tracer, made before or after, reads as a shim tracer with the tracer's span context of now and the OpenTelemetry
    tracer of the last installation; otherwise it reads as what was last assigned while no shim was installed. *)
Theorem C127_reads : forall l i c, context_of i l c ->
  (forall t, installed l t -> exists id, patch_read l i = Some (ShimRead id c t))
  /\ (not_installed l -> exists a, assigned_to i l a /\ patch_read l i = Some (match a with Some v => Assigned v | None => NoAttribute end)).
Proof. exact reads. Qed.
Print Assumptions C127_reads.
Theorem C127_assigned_once : forall i l a b, assigned_to i l a -> assigned_to i l b -> a = b.
Proof. exact assigned_det. Qed.
Print Assumptions C127_assigned_once.
(** C127: tracers with the same span context read as the same shim tracer, as long as the installation lasts and fewer than 128 other contexts
    were read in between. *)
Theorem C127_same_partial : forall l t i c id m j cs, installed l t -> context_of i l c -> patch_read l i = Some (ShimRead id c t) ->
  Forall keeps m -> reads_among (l ++ [ORead i]) m (c :: cs) -> length cs <= 127 -> context_of j ((l ++ [ORead i]) ++ m) c ->
  patch_read ((l ++ [ORead i]) ++ m) j = Some (ShimRead id c t).
Proof. exact same_object. Qed.
Print Assumptions C127_same_partial.
(* Missing: any number of other contexts; see C127_same_refuted. *)
(** C127: one shim tracer never stands for two span contexts or two OpenTelemetry tracers, however often the shim is installed. *)
Theorem C127_one_context : forall l i m j s c t c' t', patch_read l i = Some (ShimRead s c t) ->
  patch_read ((l ++ [ORead i]) ++ m) j = Some (ShimRead s c' t') -> c' = c /\ t' = t.
Proof. exact one_identity. Qed.
Print Assumptions C127_one_context.
Definition ops_ex : list patch_op := [ONew 1 10 7; OInstall 5; ONew 2 20 8; OContext 1 20; OAssign 1 9].
Example C127_example :
  (installed ops_ex 5 /\ context_of 1 ops_ex 20 /\ context_of 2 ops_ex 20 /\ assigned_to 1 ops_ex (Some 7) /\ assigned_to 2 ops_ex None)
  /\ patch_read ops_ex 1 = Some (ShimRead 0 20 5)
  /\ patch_read (ops_ex ++ [ORead 1]) 2 = Some (ShimRead 0 20 5)
  /\ patch_read (ops_ex ++ [ORead 1; OContext 2 30]) 2 = Some (ShimRead 1 30 5)
  /\ patch_read (ops_ex ++ [OUninstall]) 1 = Some (Assigned 7)
  /\ Forall keeps [OContext 2 30; ORead 2; OContext 2 20] /\ reads_among (ops_ex ++ [ORead 1]) [OContext 2 30; ORead 2; OContext 2 20] [20; 30]
  /\ context_of 2 ((ops_ex ++ [ORead 1]) ++ [OContext 2 30; ORead 2; OContext 2 20]) 20.
Proof.
  split.
  { split; [apply installed_iff; reflexivity|]. split; [apply context_iff; eexists; split; reflexivity|]. split; [apply context_iff; eexists; split; reflexivity|].
    split; apply assigned_iff; eexists; split; reflexivity. }
  repeat (split; [reflexivity|]). split; [repeat (constructor; [split; [intros ? X; discriminate X|discriminate]|]); constructor|]. split.
  - intros a i b c E C. destruct a as [|o a]; [discriminate|]. injection E as <- E. destruct a as [|o a].
    + injection E as <- <-. apply context_iff in C as (x & X & <-). vm_compute in X. injection X as <-. cbn. tauto.
    + injection E as <- E. destruct a as [|o a]; [discriminate|]. injection E as <- E. destruct a; discriminate.
  - apply context_iff. eexists. split; reflexivity.
Qed.
(** One might expect a tracer to be usable after the shim is uninstalled.  One made while it was installed has no attribute [tracer] then. *)
Theorem C127_uninstall_refuted : exists l i c, context_of i l c /\ not_installed l /\ patch_read l i = Some NoAttribute.
Proof.
  exists [OInstall 5; ONew 1 10 7; OUninstall], 1, 10. split; [apply context_iff; eexists; split; reflexivity|]. split; [apply not_installed_iff; reflexivity|reflexivity].
Qed.
Print Assumptions C127_uninstall_refuted.
(** One might expect the same span context to give the same shim tracer always.  After 128 others it is another object. *)
Theorem C127_same_refuted : exists l t i c id m id', installed l t /\ context_of i l c /\ patch_read l i = Some (ShimRead id c t) /\ Forall keeps m
  /\ context_of i ((l ++ [ORead i]) ++ m) c /\ patch_read ((l ++ [ORead i]) ++ m) i = Some (ShimRead id' c t) /\ id' <> id.
Proof.
  exists [OInstall 5; ONew 1 0 7; ONew 2 0 7], 5, 1, 0, 0, (flat_map (fun k => [OContext 2 k; ORead 2]) (seq 1 128)), 129.
  split; [apply installed_iff; reflexivity|]. split; [apply context_iff; eexists; split; reflexivity|]. split; [reflexivity|]. split.
  { apply Forall_forall. intros o I. apply in_flat_map in I as (k & _ & [<-|[<-|[]]]); split; [intros ? X; discriminate X|discriminate|intros ? X; discriminate X|discriminate]. }
  split; [apply context_iff; eexists; split; vm_compute; reflexivity|]. split; [vm_compute; reflexivity|discriminate].
Qed.
Print Assumptions C127_same_refuted.
