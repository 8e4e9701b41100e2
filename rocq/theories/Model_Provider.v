(** MeterProvider: registration of readers, get_meter, force_flush and shutdown; and which temporality a reader uses.

    Sources: opentelemetry-sdk/src/opentelemetry/sdk/metrics/_internal/__init__.py ("metrics"),
    sdk/metrics/_internal/export/__init__.py ("export"),
    exporter/opentelemetry-exporter-otlp-proto-common/src/opentelemetry/exporter/otlp/proto/common/_internal/
    metrics_encoder/__init__.py ("encoder"). *)
From Verif Require Export Model_Logs Model_Metrics.

(** ** force_flush and shutdown *)

(** How a reader's force_flush or shutdown goes: returns, raises an Exception, raises another BaseException. *)
Inductive rans := ROk | RExc | RBase.
Section Flush.
Variable R : Type.
(** [clock i]: the i-th reading of time_ns in the loop; [answer r t]: reader [r] called with [t] nanoseconds left. *)
Variable clock : nat -> Z.
Variable answer : R -> Z -> rans.
(** The loop over the readers (metrics 471-485, 519-533), the same in both methods: the calls made, each with the time
    left, and the readers with an error, or [None] if a BaseException left the loop.  Simplification: times in
    nanoseconds; the code passes them on divided by 10**6. *)
Fixpoint for_readers (deadline : Z) (i : nat) (readers : list R) : list (R * Z) * option (list R) :=
  match readers with
  | [] => ([], Some [])
  | r :: rs =>
      let now := clock i in
      if Z.leb deadline now then
        let (calls, errs) := for_readers deadline (S i) rs in
        (calls, match errs with Some e => Some (r :: e) | None => None end)
      else match answer r (deadline - now)%Z with
           | RBase => ([(r, (deadline - now)%Z)], None)
           | ROk =>
               let (calls, errs) := for_readers deadline (S i) rs in ((r, (deadline - now)%Z) :: calls, errs)
           | RExc =>
               let (calls, errs) := for_readers deadline (S i) rs in
               ((r, (deadline - now)%Z) :: calls, match errs with Some e => Some (r :: e) | None => None end)
           end
  end.
(** What the caller gets: True, an Exception naming the readers, or the BaseException. *)
Inductive fresult := FTrue | FFailed (readers : list R) | FPassed.
(** metrics 466-500; the deadline is computed from the first reading of the clock. *)
Definition provider_flush (start timeout : Z) (readers : list R) : list (R * Z) * fresult :=
  let (calls, errs) := for_readers (start + timeout) 0 readers in
  (calls, match errs with Some [] => FTrue | Some e => FFailed e | None => FPassed end).
End Flush.
Arguments FTrue {R}. Arguments FFailed {R}. Arguments FPassed {R}.

(** ** Histories of a provider *)

Section Provider.
(** The integer that equals a float (as in Model_Otlp). *)
Variable float_int : Z -> option Z.

(** [mp_meters]: _meters, meters numbered by their position.  A meter keeps the scope it was created with. *)
Record mprovider := MProv { mp_disabled : bool; mp_shutdown : bool; mp_meters : list scope }.
Definition mp_new (disabled : bool) : mprovider := MProv disabled false [].

(** The position of the first key that is equal (InstrumentationScope.__eq__). *)
Fixpoint find_scope (s : scope) (l : list scope) (i : nat) : option nat :=
  match l with
  | [] => None
  | s' :: l' => if same_scope_key float_int (Some s) (Some s') then Some i else find_scope s l' (S i)
  end.
(** metrics 553-588 [get_meter]: [None] is a NoOpMeter.  The arguments are those of get_logger; a name None is the
    empty one here. *)
Definition get_meter (p : mprovider) (a : logger_args) : mprovider * option nat :=
  if mp_disabled p then (p, None)
  else if mp_shutdown p then (p, None)
  else if str_eqb (la_name a) [] then (p, None)
  else
    let info := scope_of_args a in
    match find_scope info (mp_meters p) 0 with
    | Some i => (p, Some i)
    | None => (MProv (mp_disabled p) (mp_shutdown p) (mp_meters p ++ [info]), Some (length (mp_meters p)))
    end.

(** A call on a provider: get_meter, or shutdown with its start, timeout, clock and answers. *)
Inductive mcall :=
| MGet (a : logger_args)
| MShutdown (start timeout : Z) (clock : nat -> Z) (answer : nat -> Z -> rans).
(** What it returned and the reader shutdowns it made. *)
Inductive mres := RMeter (m : option nat) | RShut (calls : list (nat * Z)) (r : fresult nat).
(** Readers are numbers.  metrics 502-551; [Once.do_once] makes the calls of several threads one history. *)
Definition mcall_step (readers : list nat) (p : mprovider) (c : mcall) : mprovider * mres :=
  match c with
  | MGet a => let (p', m) := get_meter p a in (p', RMeter m)
  | MShutdown start timeout clock answer =>
      if mp_shutdown p then (p, RShut [] FTrue)
      else let (calls, r) := provider_flush nat clock answer start timeout readers in
           (MProv (mp_disabled p) true (mp_meters p), RShut calls r)
  end.
Fixpoint mcalls (readers : list nat) (p : mprovider) (l : list mcall) : mprovider * list mres :=
  match l with
  | [] => (p, [])
  | c :: l' =>
      let (p1, r) := mcall_step readers p c in
      let (p2, rs) := mcalls readers p1 l' in (p2, r :: rs)
  end.
End Provider.

(** ** Registration of readers *)

(** _all_metric_readers (a weak set; readers are numbers that are not reused), the provider each reader's _collect
    belongs to, and the providers whose constructor returned. *)
Record registry := Reg { rg_all : list nat; rg_collect : list (nat * nat); rg_made : list (nat * list nat) }.
(** metrics 449-464: the readers of a new provider [p] are registered one after another, up to the first that is
    registered already. *)
Fixpoint register_readers (p : nat) (readers : list nat) (g : registry) : registry * bool :=
  match readers with
  | [] => (g, true)
  | r :: rs =>
      if existsb (Nat.eqb r) (rg_all g) then (g, false)
      else register_readers p rs (Reg (r :: rg_all g) ((r, p) :: rg_collect g) (rg_made g))
  end.
(** MeterProvider(metric_readers=readers): [false] is the exception. *)
Definition new_provider (g : registry) (c : nat * list nat) : registry * bool :=
  let (g1, ok) := register_readers (fst c) (snd c) g in
  (if ok then Reg (rg_all g1) (rg_collect g1) (rg_made g1 ++ [c]) else g1, ok).
Definition rg_empty : registry := Reg [] [] [].
Definition new_providers (l : list (nat * list nat)) : registry := fold_left (fun g c => fst (new_provider g c)) l rg_empty.

(** ** Preferred temporalities *)

(** A key of the dicts given by users: one of the SDK's seven instrument classes, or anything else. *)
Inductive iclass := CKind (k : ikind) | COther (n : nat).
Definition ikind_eq_dec (a b : ikind) : {a = b} + {a <> b}.
Proof. decide equality. Defined.
#[export] Instance EqDec_ikind : EqDec ikind := ikind_eq_dec.
#[export] Instance EqDec_iclass : EqDec iclass.
Proof. intros a b. destruct a as [k|n], b as [k'|n']; try (right; congruence).
  - destruct (ikind_eq_dec k k'); [left; congruence|right; congruence].
  - destruct (Nat.eq_dec n n'); [left; congruence|right; congruence].
Defined.
Definition all_kinds : list ikind :=
  [ICounter; IUpDownCounter; IHistogram; IGauge; IObservableCounter; IObservableUpDownCounter; IObservableGauge].
(** export 236-277: [None] is an exception; the values are looked at first, then the keys one by one. *)
Fixpoint set_classes (l : list (iclass * temporality)) (d : dict ikind temporality) : option (dict ikind temporality) :=
  match l with
  | [] => Some d
  | (CKind k, t) :: l' => set_classes l' (dset k t d)
  | (COther _, _) :: _ => None
  end.
Definition reader_temporality (preferred : option (dict iclass temporality)) : option (dict ikind temporality) :=
  let d0 := map (fun k => (k, CUMULATIVE)) all_kinds in
  match preferred with
  | None => Some d0
  | Some l =>
      if forallb (fun kt => match snd kt with UNSPECIFIED => false | _ => true end) l then set_classes l d0 else None
  end.
(** encoder 81-128 [_get_temporality]; [pyupper] is str.upper, [env] the value of
    OTEL_EXPORTER_OTLP_METRICS_TEMPORALITY_PREFERENCE. *)
Definition otlp_temporality (pyupper : str -> str) (env : option str) (preferred : option (dict iclass temporality)) : dict iclass temporality :=
  let v := strip py_space (pyupper (match env with Some s => s | None => lit "CUMULATIVE" end)) in
  let table :=
    if str_eqb v (lit "DELTA") then
      [(CKind ICounter, DELTA); (CKind IUpDownCounter, CUMULATIVE); (CKind IHistogram, DELTA);
       (CKind IObservableCounter, DELTA); (CKind IObservableUpDownCounter, CUMULATIVE); (CKind IObservableGauge, CUMULATIVE)]
    else if str_eqb v (lit "LOWMEMORY") then
      [(CKind ICounter, DELTA); (CKind IUpDownCounter, CUMULATIVE); (CKind IHistogram, DELTA);
       (CKind IObservableCounter, CUMULATIVE); (CKind IObservableUpDownCounter, CUMULATIVE); (CKind IObservableGauge, CUMULATIVE)]
    else
      [(CKind ICounter, CUMULATIVE); (CKind IUpDownCounter, CUMULATIVE); (CKind IHistogram, CUMULATIVE);
       (CKind IObservableCounter, CUMULATIVE); (CKind IObservableUpDownCounter, CUMULATIVE); (CKind IObservableGauge, CUMULATIVE)] in
  dupdate table (match preferred with Some l => l | None => [] end).
