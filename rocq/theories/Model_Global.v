(** The global provider: setting it, getting it, and loading it from the environment, by any number of threads.

    Sources: opentelemetry-api/src/opentelemetry/trace/__init__.py 498-560 ("trace"); metrics/_internal/__init__.py 853-890 ("metrics");
    _logs/_internal/__init__.py 233-275; _events/__init__.py 166-210; util/_once.py 30-47 ("once"); util/_providers.py 30-54 ("providers").
    The four signals have the same code, but that the meter provider has a hook.  Every read and write of the two shared variables
    ([_TRACER_PROVIDER] and the Once's [_done]), and every acquisition of the Once's lock, is a step of its own. *)
From Verif Require Export Model_Str.
Local Open Scope nat_scope.

Section Global.
(** Providers are numbers.  [raises p]: [_PROXY_METER_PROVIDER.on_set_meter_provider] raises with provider p (metrics 859); the other signals
    have nothing there, so it is false for all. *)
Variable raises : nat -> bool.

(** Where a thread is.  The flag of the S-states: called by the program (log=True), or by a get (log=False). *)
Inductive gpc :=
| GIdle
| SFast (p : nat) (user : bool)       (* once 40: if self._done *)
| SWait (p : nat) (user : bool)       (* once 43: with self._lock *)
| SCheck (p : nat) (user : bool)      (* once 44 *)
| SAssign (p : nat) (user : bool)     (* trace 530; metrics 856 *)
| SHook (p : nat) (user : bool)       (* metrics 859 *)
| SMark (p : nat) (user : bool)       (* once 46 *)
| GTest                               (* trace 549: if _TRACER_PROVIDER is None *)
| GEnv                                (* trace 552 *)
| GLoad                               (* trace 555: providers 33-54 *)
| GLast.                              (* trace 560: return _TRACER_PROVIDER *)
Inductive gcall := CSet (p : nat) | CGet.
(** What is seen from outside, in order. *)
Inductive gres :=
| RStart (t : nat) (c : gcall)
| RSet (t : nat) (p : nat) (did : bool)   (* set_tracer_provider(p) returns; it warns unless did *)
| RLoaded (t : nat) (p : nat)             (* the class named by the environment is instantiated: provider p *)
| RProvider (t : nat) (p : nat)           (* get_tracer_provider() returns p *)
| RNone (t : nat)                         (* ... returns None *)
| RProxy (t : nat)                        (* ... returns the proxy *)
| RRaised (t : nat).                      (* the call raises *)
Record gworld := GW { g_done : bool; g_lock : option nat; g_glob : option nat; g_pc : nat -> gpc; g_log : list gres }.
Definition g_init : gworld := GW false None None (fun _ => GIdle) [].

(** What the environment is when a thread looks: whether the variable is set, and what loading gives (None: an exception) *)
Inductive gev := ECall (t : nat) (c : gcall) | EStep (t : nat) (present : bool) (loads : option nat).
Definition goto (t : nat) (c : gpc) (f : nat -> gpc) : nat -> gpc := fun u => if Nat.eqb u t then c else f u.
(** [do_once] returns: trace 532-535 and 558-560 *)
Definition after_once (t p : nat) (user did : bool) (w : gworld) : gworld :=
  if user then GW (g_done w) (g_lock w) (g_glob w) (goto t GIdle (g_pc w)) (g_log w ++ [RSet t p did])
  else GW (g_done w) (g_lock w) (g_glob w) (goto t GLast (g_pc w)) (g_log w).
Definition gstep (w : gworld) (e : gev) : gworld :=
  match e with
  | ECall t c =>
      match g_pc w t with
      | GIdle => GW (g_done w) (g_lock w) (g_glob w) (goto t (match c with CSet p => SFast p true | CGet => GTest end) (g_pc w)) (g_log w ++ [RStart t c])
      | _ => w
      end
  | EStep t present loads =>
      let at_ c := GW (g_done w) (g_lock w) (g_glob w) (goto t c (g_pc w)) (g_log w) in
      let ends r := GW (g_done w) (g_lock w) (g_glob w) (goto t GIdle (g_pc w)) (g_log w ++ [r]) in
      match g_pc w t with
      | GIdle => w
      | SFast p u => if g_done w then after_once t p u false w else at_ (SWait p u)
      | SWait p u => match g_lock w with None => GW (g_done w) (Some t) (g_glob w) (goto t (SCheck p u) (g_pc w)) (g_log w) | Some _ => w end
      | SCheck p u => if g_done w then after_once t p u false (GW (g_done w) None (g_glob w) (g_pc w) (g_log w)) else at_ (SAssign p u)
      | SAssign p u => GW (g_done w) (g_lock w) (Some p) (goto t (SHook p u) (g_pc w)) (g_log w)
      | SHook p u => if raises p then GW (g_done w) None (g_glob w) (goto t GIdle (g_pc w)) (g_log w ++ [RRaised t]) else at_ (SMark p u)
      | SMark p u => after_once t p u true (GW true None (g_glob w) (g_pc w) (g_log w))
      | GTest => match g_glob w with None => at_ GEnv | Some _ => at_ GLast end
      | GEnv => if present then at_ GLoad else ends (RProxy t)
      | GLoad =>
          match loads with
          | Some p => GW (g_done w) (g_lock w) (g_glob w) (goto t (SFast p false) (g_pc w)) (g_log w ++ [RLoaded t p])
          | None => ends (RRaised t)
          end
      | GLast => ends (match g_glob w with Some p => RProvider t p | None => RNone t end)
      end
  end.
Definition grun (h : list gev) (w : gworld) : gworld := fold_left gstep h w.
End Global.
