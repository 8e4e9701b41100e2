(** Specification for installing the OpenCensus shim, in terms of the history of operations; the newest operation is the last. *)
From Verif Require Export Model_OcPatch.

(** The history ends with the shim installed, for this OpenTelemetry tracer. *)
Inductive installed : list patch_op -> nat -> Prop :=
| in_here l t : installed (l ++ [OInstall t]) t
| in_before l o t : (forall t', o <> OInstall t') -> o <> OUninstall -> installed l t -> installed (l ++ [o]) t.
Definition not_installed (l : list patch_op) : Prop := forall t, ~ installed l t.
(** The tracer object [i] exists and has this span context. *)
Inductive context_of (i : nat) : list patch_op -> nat -> Prop :=
| co_new l c v : context_of i (l ++ [ONew i c v]) c
| co_set l c c' : context_of i l c' -> context_of i (l ++ [OContext i c]) c
| co_before l o c : (forall x v, o <> ONew i x v) -> (forall x, o <> OContext i x) -> context_of i l c -> context_of i (l ++ [o]) c.
(** The last value assigned to its attribute while the shim was not installed; none if there was no such assignment since it was made. *)
Inductive assigned_to (i : nat) : list patch_op -> option nat -> Prop :=
| at_new l c v : not_installed l -> assigned_to i (l ++ [ONew i c v]) (Some v)
| at_lost l c v t : installed l t -> assigned_to i (l ++ [ONew i c v]) None
| at_set l v a : not_installed l -> assigned_to i l a -> assigned_to i (l ++ [OAssign i v]) (Some v)
| at_ignored l v a t : installed l t -> assigned_to i l a -> assigned_to i (l ++ [OAssign i v]) a
| at_before l o a : (forall c v, o <> ONew i c v) -> (forall v, o <> OAssign i v) -> assigned_to i l a -> assigned_to i (l ++ [o]) a.
(** Operations that keep an installation; the contexts of the tracers read in them. *)
Definition keeps (o : patch_op) : Prop := (forall t, o <> OInstall t) /\ o <> OUninstall.
(** The reads among the operations [m] after [l] concern these contexts only. *)
Definition reads_among (l m : list patch_op) (cs : list nat) : Prop :=
  forall a i b c, m = a ++ ORead i :: b -> context_of i (l ++ a) c -> In c cs.
