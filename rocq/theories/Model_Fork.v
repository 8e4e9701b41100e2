(** Processes that fork, each with its copy of a batch processor.

    Sources: opentelemetry-sdk/src/opentelemetry/sdk/trace/export/__init__.py 201-241,
    opentelemetry-sdk/src/opentelemetry/sdk/_logs/_internal/export/__init__.py 217-231.  [os.register_at_fork] is there (all systems that can
    fork), so the hook runs in the child before anything else does, and the test of the process id in on_end (217-218) never finds
    another one; that test and [_BSP_RESET_ONCE] are left out. *)
From Verif Require Export Model_Processor.
Local Open Scope nat_scope.

Section Fork.
Variable X : Type.
Variable sampled : X -> bool.
Variable maxq maxb : nat.

(** The calls of on_end are numbered over all processes, as an observation. *)
Definition call_sampled (i : nat * X) : bool := sampled (snd i).
Record pworld := PW {
  p_procs : list (bsp (nat * X));      (* the processes, in the order of their creation *)
  p_calls : list (nat * X)             (* the calls of on_end so far: process and span *)
}.
Definition pworld_init : pworld := PW [bsp_init (nat * X) false false] [].

(** What happens next in a process. *)
Inductive pev :=
| PWork                          (* its worker makes a step *)
| POnEnd (t : nat) (x : X)       (* thread t calls on_end *)
| PFlush (t : nat)
| PShutdown (t : nat)
| PStep (t : nat)                (* thread t makes a step in its call *)
| PTimeout (t : nat)
| PFork (t : nat).               (* thread t, in no call, forks *)

Definition to_bev (n : nat) (e : pev) : option (bev (nat * X)) :=
  match e with
  | PWork => Some EWork
  | POnEnd t x => Some (ECall t (COnEnd (n, x)))
  | PFlush t => Some (ECall t CFlush)
  | PShutdown t => Some (ECall t CShutdown)
  | PStep t => Some (EStep t)
  | PTimeout t => Some (ETimeout t)
  | PFork _ => None
  end.
Fixpoint put_proc (p : nat) (s : bsp (nat * X)) (l : list (bsp (nat * X))) : list (bsp (nat * X)) :=
  match p, l with
  | _, [] => []
  | O, _ :: l' => s :: l'
  | S p', y :: l' => y :: put_proc p' s l'
  end.
(** A step of process p; what cannot happen is skipped (so a process may also stop for ever, as when it is killed). *)
Definition pstep (w : pworld) (pe : nat * pev) : pworld :=
  let (p, e) := pe in
  match nth_error (p_procs w) p with
  | None => w
  | Some s =>
      match to_bev (length (p_calls w)) e with
      | Some b =>
          match bsp_step (nat * X) call_sampled maxq maxb s b with
          | Some s' => PW (put_proc p s' (p_procs w)) (p_calls w ++ match e with POnEnd _ x => [(p, x)] | _ => [] end)
          | None => w
          end
      | None =>
          match e with
          | PFork t => if in_no_call (nat * X) (b_thr s t) then PW (p_procs w ++ [bsp_fork (nat * X) s]) (p_calls w) else w
          | _ => w
          end
      end
  end.
Definition prun (es : list (nat * pev)) (w : pworld) : pworld := fold_left pstep es w.
End Fork.
Arguments PW {X}. Arguments p_procs {X}. Arguments p_calls {X}.
Arguments PWork {X}. Arguments POnEnd {X}. Arguments PFlush {X}. Arguments PShutdown {X}. Arguments PStep {X}. Arguments PTimeout {X}. Arguments PFork {X}.
