(** The API's proxies: tracers, loggers, meters and instruments obtained before a provider is set.

    Sources: opentelemetry-api/src/opentelemetry/trace/__init__.py ("trace"), _logs/_internal/__init__.py ("logs"),
    _events/__init__.py (the same code again), metrics/_internal/__init__.py ("metrics"),
    metrics/_internal/instrument.py ("instrument"). *)
From Verif Require Export Model_Dict.

(** Replace the element at an index. *)
Fixpoint upd_nth {A} (i : nat) (f : A -> A) (l : list A) : list A :=
  match l, i with
  | [], _ => []
  | x :: l', O => f x :: l'
  | x :: l', S i' => x :: upd_nth i' f l'
  end.

(** ** Tracers and loggers *)

Section Tracers.
(** The arguments of get_tracer (name, version, schema url, attributes) and what a call on a tracer passes. *)
Variable A X : Type.

(** A real tracer is known by its provider and the arguments it was obtained with. *)
Definition real : Type := nat * A.
(** trace 415-430 [ProxyTracer.__init__], logs 116-130: the arguments and [_real_tracer] *)
Record proxy := Proxy { px_args : A; px_real : option real }.
(** What get_tracer returned *)
Inductive handle := HReal (r : real) | HProxy (i : nat).
(** A call of start_span / emit on a handle, in progress in some thread: at the first statement of [_tracer];
    [_real_tracer] was found unset; a provider was found set; done, with the real tracer the call was
    passed on to ([None]: the no-op tracer). *)
Inductive call_pc := CStart | CNoReal | CHave (p : nat) | CDone (r : option real).
Record call := Call { ca_handle : nat; ca_arg : X; ca_pc : call_pc }.

Record pstate := PState {
  ps_provider : option nat;      (* _TRACER_PROVIDER *)
  ps_proxies : list proxy;
  ps_handles : list handle;
  ps_calls : list call }.
Definition ps_init : pstate := PState None [] [] [].

Inductive pop := PGet (a : A) | PSet (p : nat) | PCall (h : nat) (x : X) | PRun (c : nat).

(** trace 432-444 and logs 131-147, the property [_tracer] and the call on what it returns, one access of shared
    state at a time.  (The truth value of a tracer or provider object is true.) *)
Definition call_step (s : pstate) (c : call) : pstate * call :=
  let to r := Call (ca_handle c) (ca_arg c) r in
  match nth_error (ps_handles s) (ca_handle c) with
  | None => (s, c)
  | Some (HReal r) => (s, match ca_pc c with CDone _ => c | _ => to (CDone (Some r)) end)
  | Some (HProxy i) =>
      match nth_error (ps_proxies s) i with
      | None => (s, c)
      | Some px =>
          match ca_pc c with
          | CStart => match px_real px with
                      | Some r => (s, to (CDone (Some r)))
                      | None => (s, to CNoReal)
                      end
          | CNoReal => match ps_provider s with
                       | Some p => (s, to (CHave p))
                       | None => (s, to (CDone None))
                       end
          | CHave p =>
              let r := (p, px_args px) in
              (PState (ps_provider s) (upd_nth i (fun px => Proxy (px_args px) (Some r)) (ps_proxies s))
                 (ps_handles s) (ps_calls s), to (CDone (Some r)))
          | CDone _ => (s, c)
          end
      end
  end.

(** One step of the process.  [PGet]: get_tracer through the global functions (trace 496-518, 543-557; 244-264;
    logs 207-228, 235-249, 277-297).  [PSet]: set_tracer_provider (trace 521-540), where Once runs the assignment
    at most once (C19).  [PCall] starts a call, [PRun] advances it. *)
Definition pstep (s : pstate) (o : pop) : pstate :=
  match o with
  | PGet a =>
      match ps_provider s with
      | Some p => PState (ps_provider s) (ps_proxies s) (ps_handles s ++ [HReal (p, a)]) (ps_calls s)
      | None => PState (ps_provider s) (ps_proxies s ++ [Proxy a None])
                  (ps_handles s ++ [HProxy (length (ps_proxies s))]) (ps_calls s)
      end
  | PSet p =>
      match ps_provider s with
      | Some _ => s
      | None => PState (Some p) (ps_proxies s) (ps_handles s) (ps_calls s)
      end
  | PCall h x => PState (ps_provider s) (ps_proxies s) (ps_handles s) (ps_calls s ++ [Call h x CStart])
  | PRun c =>
      match nth_error (ps_calls s) c with
      | None => s
      | Some cl =>
          let (s1, cl1) := call_step s cl in
          PState (ps_provider s1) (ps_proxies s1) (ps_handles s1) (upd_nth c (fun _ => cl1) (ps_calls s1))
      end
  end.
Definition prun (l : list pop) : pstate := fold_left pstep l ps_init.
End Tracers.
Arguments Proxy {A} _ _. Arguments px_args {A} _. Arguments px_real {A} _.
Arguments HReal {A} r. Arguments HProxy {A} i.
Arguments CStart {A}. Arguments CNoReal {A}. Arguments CHave {A} p. Arguments CDone {A} r.
Arguments Call {A X} _ _ _. Arguments ca_handle {A X} _. Arguments ca_arg {A X} _. Arguments ca_pc {A X} _.
Arguments PState {A X} _ _ _ _. Arguments ps_provider {A X} _. Arguments ps_proxies {A X} _.
Arguments ps_handles {A X} _. Arguments ps_calls {A X} _. Arguments ps_init {A X}.
Arguments PGet {A X} a. Arguments PSet {A X} p. Arguments PCall {A X} h x. Arguments PRun {A X} c.
Arguments call_step {A X} s c. Arguments pstep {A X} s o. Arguments prun {A X} l.

(** ** Meters and instruments *)

Section Meters.
(** Name, version and schema url of a meter; its attributes; kind, name, unit, description, advisory and callbacks
    of an instrument; a measurement. *)
Variable M T I X : Type.
(** Creating a real instrument with these arguments raises (C49: an invalid name or unit). *)
Variable bad : I -> bool.

(** A real meter is known by the arguments the provider's get_meter received. *)
Definition rmeter : Type := M * option T.
(** instrument 121-139 [_ProxyInstrument]: [pi_real] is [_real_instrument] with its meter. *)
Record pinstr := PInstr { pi_args : I; pi_real : option (rmeter * I) }.
(** metrics 502-512 [_ProxyMeter] *)
Record pmeter := PMeter { pm_args : M; pm_real : option rmeter; pm_instr : list pinstr }.
Inductive mhandle := MReal (m : rmeter) | MProxy (j : nat).
Inductive ihandle := IReal (m : rmeter) (i : I) | IProxy (j k : nat).
(** Calls that reach the real provider: creation of an instrument, a measurement. *)
Inductive mevent := ECreate (m : rmeter) (i : I) | EMeasure (m : rmeter) (i : I) (x : X).

(** Where the one running [set_mp] (metrics 854-859) is: before it; [_METER_PROVIDER] assigned; in
    [_ProxyMeterProvider.on_set_meter_provider] (177-181), holding its lock, at meter [j]; in
    [_ProxyMeter.on_set_meter_provider] (514-533) of meter [j] after get_meter; there, holding the lock of the
    meter, at instrument [k]; returned; left by the exception of
    instrument [k] of meter [j], both locks released. *)
Inductive set_pc := SIdle | SAssigned | SMeters (j : nat) | SMeter (j : nat) (m : rmeter) | SInstr (j k : nat)
  | SDone | SRaised (j k : nat).

Record mstate := MState {
  ms_global : bool;                    (* _METER_PROVIDER is set *)
  ms_set : bool;                       (* _PROXY_METER_PROVIDER._real_meter_provider is set *)
  ms_meters : list pmeter;             (* _PROXY_METER_PROVIDER._meters *)
  ms_pc : set_pc;
  ms_mh : list mhandle; ms_ih : list ihandle;      (* what get_meter and the create calls returned *)
  ms_log : list mevent;
  (* Not part of the program: the arguments of the calls that returned these handles. *)
  ms_masked : list (M * option T); ms_iasked : list (M * option T * I) }.
Definition ms_init : mstate := MState false false [] SIdle [] [] [] [] [].

(** The lock of the proxy provider is taken; the lock of meter [j] is taken. *)
Definition provider_locked (pc : set_pc) : bool :=
  match pc with SMeters _ | SMeter _ _ | SInstr _ _ => true | _ => false end.
Definition meter_locked (pc : set_pc) (j : nat) : bool :=
  match pc with SInstr j' _ => Nat.eqb j j' | _ => false end.

Inductive mop :=
| MGet (m : M) (t : option T)          (* metrics.get_meter(name, version, schema_url, attributes) *)
| MGetProxy (m : M) (t : option T)     (* the same, when get_meter_provider() had returned the proxy before *)
| MCreate (h : nat) (i : I)            (* a create_ call on meter handle h *)
| MMeasure (h : nat) (x : X)           (* add / record / set on instrument handle h *)
| MSet.                                (* the thread in set_meter_provider takes a step *)

Definition with_handle (s : mstate) (meters : list pmeter) (h : mhandle) (m : M) (t : option T) : mstate :=
  MState (ms_global s) (ms_set s) meters (ms_pc s) (ms_mh s ++ [h]) (ms_ih s) (ms_log s)
    (ms_masked s ++ [(m, t)]) (ms_iasked s).
(** metrics 160-175 [_ProxyMeterProvider.get_meter]; it drops the attributes.  A step that must wait for a lock
    changes nothing. *)
Definition proxy_get_meter (s : mstate) (m : M) (t : option T) : mstate :=
  if provider_locked (ms_pc s) then s
  else if ms_set s then with_handle s (ms_meters s) (MReal (m, None)) m t
  else with_handle s (ms_meters s ++ [PMeter m None []]) (MProxy (length (ms_meters s))) m t.

Definition with_instr (s : mstate) (meters : list pmeter) (h : ihandle) (log : list mevent)
    (asked : M * option T * I) : mstate :=
  MState (ms_global s) (ms_set s) meters (ms_pc s) (ms_mh s) (ms_ih s ++ [h]) log (ms_masked s) (ms_iasked s ++ [asked]).
(** metrics 535-640, the seven create_ methods of [_ProxyMeter], and those of a real meter.  A bad name raises
    for the caller when the real instrument is created, and not before. *)
Definition create_instr (s : mstate) (h : nat) (i : I) : mstate :=
  match nth_error (ms_mh s) h, nth_error (ms_masked s) h with
  | Some (MReal m), Some (ma, t) =>
      if bad i then s else with_instr s (ms_meters s) (IReal m i) (ms_log s ++ [ECreate m i]) (ma, t, i)
  | Some (MProxy j), Some (ma, t) =>
      match nth_error (ms_meters s) j with
      | None => s
      | Some pm =>
          if meter_locked (ms_pc s) j then s
          else match pm_real pm with
               | Some m => if bad i then s
                           else with_instr s (ms_meters s) (IReal m i) (ms_log s ++ [ECreate m i]) (ma, t, i)
               | None =>
                   with_instr s
                     (upd_nth j (fun pm => PMeter (pm_args pm) (pm_real pm) (pm_instr pm ++ [PInstr i None])) (ms_meters s))
                     (IProxy j (length (pm_instr pm))) (ms_log s) (ma, t, i)
               end
      end
  | _, _ => s
  end.

(** instrument 209-217 and the like: [if self._real_instrument: self._real_instrument.add(...)] *)
Definition measure (s : mstate) (h : nat) (x : X) : mstate :=
  let log e := MState (ms_global s) (ms_set s) (ms_meters s) (ms_pc s) (ms_mh s) (ms_ih s) (ms_log s ++ [e])
                 (ms_masked s) (ms_iasked s) in
  match nth_error (ms_ih s) h with
  | Some (IReal m i) => log (EMeasure m i x)
  | Some (IProxy j k) =>
      match nth_error (ms_meters s) j with
      | Some pm => match nth_error (pm_instr pm) k with
                   | Some (PInstr _ (Some (m, i))) => log (EMeasure m i x)
                   | _ => s
                   end
      | None => s
      end
  | None => s
  end.

(** metrics 852-862 with 177-181, 514-533, instrument 133-139 *)
Definition set_step (s : mstate) : mstate :=
  let to pc := MState (ms_global s) (ms_set s) (ms_meters s) pc (ms_mh s) (ms_ih s) (ms_log s) (ms_masked s) (ms_iasked s) in
  match ms_pc s with
  | SIdle => MState true (ms_set s) (ms_meters s) SAssigned (ms_mh s) (ms_ih s) (ms_log s) (ms_masked s) (ms_iasked s)
  | SAssigned => MState (ms_global s) true (ms_meters s) (SMeters 0) (ms_mh s) (ms_ih s) (ms_log s) (ms_masked s) (ms_iasked s)
  | SMeters j =>
      match nth_error (ms_meters s) j with
      | Some pm => to (SMeter j (pm_args pm, None))
      | None => to SDone
      end
  | SMeter j m =>
      MState (ms_global s) (ms_set s)
        (upd_nth j (fun pm => PMeter (pm_args pm) (Some m) (pm_instr pm)) (ms_meters s))
        (SInstr j 0) (ms_mh s) (ms_ih s) (ms_log s) (ms_masked s) (ms_iasked s)
  | SInstr j k =>
      match nth_error (ms_meters s) j with
      | Some (PMeter a (Some m) ins) =>
          match nth_error ins k with
          | Some (PInstr i _) =>
              if bad i then to (SRaised j k)
              else MState (ms_global s) (ms_set s)
                     (upd_nth j (fun pm => PMeter (pm_args pm) (pm_real pm)
                        (upd_nth k (fun p => PInstr (pi_args p) (Some (m, pi_args p))) (pm_instr pm))) (ms_meters s))
                     (SInstr j (S k)) (ms_mh s) (ms_ih s) (ms_log s ++ [ECreate m i]) (ms_masked s) (ms_iasked s)
          | None => to (SMeters (S j))
          end
      | _ => s
      end
  | SDone | SRaised _ _ => s
  end.

Definition mstep (s : mstate) (o : mop) : mstate :=
  match o with
  | MGet m t => if ms_global s then with_handle s (ms_meters s) (MReal (m, t)) m t else proxy_get_meter s m t
  | MGetProxy m t => proxy_get_meter s m t
  | MCreate h i => create_instr s h i
  | MMeasure h x => measure s h x
  | MSet => set_step s
  end.
Definition mrun (l : list mop) : mstate := fold_left mstep l ms_init.
End Meters.
Arguments PInstr {M T I} _ _. Arguments pi_args {M T I} _. Arguments pi_real {M T I} _.
Arguments PMeter {M T I} _ _ _. Arguments pm_args {M T I} _. Arguments pm_real {M T I} _. Arguments pm_instr {M T I} _.
Arguments MReal {M T} m. Arguments MProxy {M T} j. Arguments IReal {M T I} m i. Arguments IProxy {M T I} j k.
Arguments ECreate {M T I X} m i. Arguments EMeasure {M T I X} m i x.
Arguments SIdle {M T}. Arguments SAssigned {M T}. Arguments SMeters {M T} j. Arguments SMeter {M T} j m.
Arguments SInstr {M T} j k. Arguments SDone {M T}. Arguments SRaised {M T} j k.
Arguments MState {M T I X} _ _ _ _ _ _ _ _ _. Arguments ms_global {M T I X} _. Arguments ms_set {M T I X} _.
Arguments ms_meters {M T I X} _. Arguments ms_pc {M T I X} _. Arguments ms_mh {M T I X} _. Arguments ms_ih {M T I X} _.
Arguments ms_log {M T I X} _. Arguments ms_masked {M T I X} _. Arguments ms_iasked {M T I X} _. Arguments ms_init {M T I X}.
Arguments provider_locked {M T} pc. Arguments meter_locked {M T} pc j.
Arguments MGet {M T I X} m t. Arguments MGetProxy {M T I X} m t. Arguments MCreate {M T I X} h i.
Arguments MMeasure {M T I X} h x. Arguments MSet {M T I X}.
Arguments with_handle {M T I X} s meters h m t. Arguments proxy_get_meter {M T I X} s m t.
Arguments with_instr {M T I X} s meters h log asked. Arguments create_instr {M T I X} bad s h i.
Arguments measure {M T I X} s h x. Arguments set_step {M T I X} bad s. Arguments mstep {M T I X} bad s o.
Arguments mrun {M T I X} bad l.
