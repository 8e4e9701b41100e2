(** What is observed of a periodic reader, read off the trace of calls and answers. *)
From Verif Require Import Model_Reader.
From Coq Require Import Permutation.

Section Spec.
Variable M : Type.
Implicit Types tr : list (rev_ M).

(** The measurements recorded, in order. *)
Definition recorded tr : list M := flat_map (fun e => match e with ERec m => [m] | _ => [] end) tr.
(** The measurements handed to the exporter in calls of export that are over, in the order these ended. *)
Definition exported tr : list M := flat_map (fun e => match e with EXEnd _ b _ => b | _ => [] end) tr.
(** The measurements lost because a collection raised. *)
Definition lost tr : list M := flat_map (fun e => match e with EBroken _ b => b | _ => [] end) tr.

(** Calls of export never overlap: following the trace, no call begins while another one runs.  The result is the
    thread whose call is running at the end. *)
Fixpoint exports_serial (open : option nat) tr : option (option nat) :=
  match tr with
  | [] => Some open
  | EXBegin t _ _ :: tr' => match open with None => exports_serial (Some t) tr' | Some _ => None end
  | EXEnd t _ _ :: tr' =>
      match open with Some t' => if Nat.eqb t t' then exports_serial None tr' else None | None => None end
  | _ :: tr' => exports_serial open tr'
  end.

(** The call a thread is in. *)
Definition in_call (t : nat) tr : option rop :=
  fold_left (fun o e => match e with
    | ECall t' op => if Nat.eqb t t' then Some op else o
    | ERet t' _ _ => if Nat.eqb t t' then None else o
    | _ => o end) tr None.
(** No program thread is in collect or force_flush. *)
Definition no_collect_call tr : Prop :=
  forall t, in_call t tr <> Some OpCollect /\ in_call t tr <> Some OpFlush.
(** No thread, the ticker included, has taken measurements it has not finished exporting. *)
Definition nobody_holds_a_batch (s : rstate M) : Prop :=
  forall t th, nth_error (rs_threads s) t = Some th ->
    match th_pc th with PAttach _ _ | PLock _ _ | PExport _ _ => False | _ => True end.
(** How often the exporter was shut down. *)
Definition exporter_shutdowns tr : nat := length (filter (fun e => match e with EXShut _ => true | _ => false end) tr).
(** Threads are scheduled; nothing is called or recorded. *)
Definition only_runs (l : list (ract M)) : Prop := Forall (fun a => match a with ARun _ _ => True | _ => False end) l.
(** The program never calls collect or force_flush. *)
Definition only_ticker_collects tr : Prop := forall t, ~ In (ECall t OpCollect) tr /\ ~ In (ECall t OpFlush) tr.

(** Nothing went wrong: no collection raised or timed out, the exporter raised no BaseException, shutdown did not
    stop waiting. *)
Definition clean tr : Prop :=
  Forall (fun e => match e with EBroken _ _ | ETimeout _ | ELate _ | EXEnd _ _ XBase => False | _ => True end) tr.

(** [tr] ends with thread [t] in a call of [op] that began after [before] (and with no later call of [t]). *)
Definition call_began (t : nat) (op : rop) (before tr : list (rev_ M)) : Prop :=
  exists since, tr = before ++ ECall t op :: since /\ forall op', ~ In (ECall t op') since.
(** Thread [t] made a call of [op] after [before], and that call has returned normally (and is its latest one). *)
Definition call_returned (t : nat) (op : rop) (before tr : list (rev_ M)) : Prop :=
  exists since, tr = before ++ ECall t op :: since /\ (forall op', ~ In (ECall t op') since) /\ In (ERet t op true) since.
End Spec.
Arguments recorded {M}. Arguments exported {M}. Arguments lost {M}. Arguments exports_serial {M}.
Arguments in_call {M}. Arguments no_collect_call {M}. Arguments nobody_holds_a_batch {M}. Arguments exporter_shutdowns {M}. Arguments only_runs {M}. Arguments only_ticker_collects {M}. Arguments clean {M}.
Arguments call_began {M}. Arguments call_returned {M}.
