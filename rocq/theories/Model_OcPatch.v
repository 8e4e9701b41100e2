(** Installing the OpenCensus shim.

    Source: shim/opentelemetry-opencensus-shim/src/opentelemetry/shim/opencensus/_patch.py.  Objects are numbers: instances of
    opencensus.trace.tracer.Tracer, their span contexts, the OpenTelemetry tracers and the ShimTracers.  Of OpenCensus: the constructor of
    [Tracer] assigns [self.span_context] and [self.tracer] (as the comments in lines 54-56 say), its class has no attribute [tracer] of its own, and span contexts are equal only
    to themselves.  One thread. *)
From Verif Require Export Model_Str.

(** [functools.lru_cache()]: at most 128 entries, the least recently used first; a hit makes an entry the last. *)
Definition LRU_MAXSIZE : N := 128.
Definition shim_cache : Type := list (nat * nat).
Fixpoint cache_find (c : nat) (l : shim_cache) : option nat :=
  match l with [] => None | (c', s) :: r => if Nat.eqb c c' then Some s else cache_find c r end.
Definition cache_remove (c : nat) (l : shim_cache) : shim_cache := filter (fun e => negb (Nat.eqb c (fst e))) l.
Definition cache_add (c s : nat) (l : shim_cache) : shim_cache :=
  (if N.leb LRU_MAXSIZE (N.of_nat (length l)) then tl l else l) ++ [(c, s)].

(** What reading [tracer] gives: the value assigned to the instance, a ShimTracer (its identity, its span context, its OpenTelemetry tracer), or
    AttributeError. *)
Inductive reading := Assigned (v : nat) | ShimRead (id context otel : nat) | NoAttribute.

(** An instance: its span context and what its dictionary has under "tracer". *)
Record oc_instance := OcInstance { oi_context : nat; oi_tracer : option nat }.
(** The class attribute that [install_shim] sets: a property whose functions close over the OpenTelemetry tracer and the cache. *)
Record shim_property := ShimProperty { sp_otel : nat; sp_cache : shim_cache }.
Record patch_world := PatchWorld {
  pw_property : option shim_property; pw_instances : list (nat * oc_instance); pw_next : nat }.
Definition patch_start : patch_world := PatchWorld None [] 0.

Inductive patch_op :=
| OInstall (otel : nat)              (* install_shim, with the tracer that the provider gave *)
| OUninstall                         (* uninstall_shim *)
| ONew (i c v : nat)                 (* Tracer(span_context=c), whose constructor assigns v to self.tracer *)
| OContext (i c : nat)               (* i.span_context = c *)
| OAssign (i v : nat)                (* i.tracer = v *)
| ORead (i : nat).                   (* i.tracer *)

Fixpoint instance_of (i : nat) (l : list (nat * oc_instance)) : option oc_instance :=
  match l with [] => None | (j, x) :: r => if Nat.eqb i j then Some x else instance_of i r end.
Definition set_instance (i : nat) (x : oc_instance) (w : patch_world) : patch_world :=
  PatchWorld (pw_property w) ((i, x) :: pw_instances w) (pw_next w).
(** Assigning [self.tracer]: a property on the class takes the assignment, 50-52 [fset_tracer] ignores it. *)
Definition assign_tracer (w : patch_world) (v : nat) (old : option nat) : option nat :=
  match pw_property w with Some _ => old | None => Some v end.
(** 37-48 [cached_shim_tracer], [fget_tracer] *)
Definition fget_tracer (p : shim_property) (next c : nat) : shim_property * nat * reading :=
  match cache_find c (sp_cache p) with
  | Some s => (ShimProperty (sp_otel p) (cache_remove c (sp_cache p) ++ [(c, s)]), next, ShimRead s c (sp_otel p))
  | None => (ShimProperty (sp_otel p) (cache_add c next (sp_cache p)), S next, ShimRead next c (sp_otel p))
  end.
(** 28-66; 69-71: uninstalling deletes the class attribute if there is one. *)
Definition patch_step (w : patch_world) (o : patch_op) : patch_world * option reading :=
  match o with
  | OInstall t => (PatchWorld (Some (ShimProperty t [])) (pw_instances w) (pw_next w), None)
  | OUninstall => (PatchWorld None (pw_instances w) (pw_next w), None)
  | ONew i c v => (set_instance i (OcInstance c (assign_tracer w v None)) w, None)
  | OContext i c =>
      (match instance_of i (pw_instances w) with Some x => set_instance i (OcInstance c (oi_tracer x)) w | None => w end, None)
  | OAssign i v =>
      (match instance_of i (pw_instances w) with
       | Some x => set_instance i (OcInstance (oi_context x) (assign_tracer w v (oi_tracer x))) w
       | None => w
       end, None)
  | ORead i =>
      match instance_of i (pw_instances w) with
      | None => (w, None)
      | Some x =>
          match pw_property w with
          | Some p => let '(p', next', r) := fget_tracer p (pw_next w) (oi_context x) in
                      (PatchWorld (Some p') (pw_instances w) next', Some r)
          | None => (w, Some (match oi_tracer x with Some v => Assigned v | None => NoAttribute end))
          end
      end
  end.
Fixpoint patch_run (w : patch_world) (l : list patch_op) : patch_world :=
  match l with [] => w | o :: r => patch_run (fst (patch_step w o)) r end.
(** What [i.tracer] reads as, after the operations. *)
Definition patch_read (l : list patch_op) (i : nat) : option reading := snd (patch_step (patch_run patch_start l) (ORead i)).
