(** Programs that are instrumented with the API while no SDK is installed.

    Sources: opentelemetry-api/src/opentelemetry/trace/__init__.py 455-487 [NoOpTracer], 563-617 [use_span] ("api/trace");
    trace/span.py 513-575 [NonRecordingSpan]; propagate/__init__.py 84-120 [extract], [inject]. *)
From Verif Require Export Model_Runtime.
Local Open Scope nat_scope.

Inductive astmt :=
| AWith (body : list astmt)                            (* with tracer.start_as_current_span(...): body *)
| AUse (en re st : bool) (body : list astmt)           (* with use_span(tracer.start_span(...), en, re, st): body *)
| AReceived (c : carrier) (body : list astmt)          (* token = attach(extract(c, ...)); try: body; finally: detach(token) *)
| ABaggage (name : str) (v : obj) (body : list astmt)  (* the same with set_baggage(name, v) *)
| ACalls                                               (* methods of the spans that the tracer returned *)
| ASend (c : carrier)                                  (* inject(c), and c is sent *)
| AAsk                                                 (* get_current_span().is_recording() *)
| ARaise (e : exc)
| AOthers (o : rop)                                    (* meanwhile in another thread or task *)
| ATry (all : bool) (body : list astmt).               (* try: body; except Exception: pass (all: except BaseException) *)
(** What others get to see *)
Inductive aev := ASent (c : carrier) | AAnswered (recording : bool).

Section NoSdk.
(** The propagator: [extract] in the current context, and the headers that [inject] writes *)
Variable extract : context -> carrier -> context.
Variable inject : context -> writes.
(** The thread or task *)
Variable u : nat.

(** api/trace 461-472 [NoOpTracer.start_span] *)
Definition noop_span : obj := INVALID_SPAN.
(** span.py 525-526, sdk: [is_recording] of the object in the context *)
Definition recording_of (o : obj) : bool := match o with OSpan _ r _ => r | _ => false end.

Fixpoint aexec (s : astmt) (rt : runtime) (log : list aev) : runtime * list aev * outcome :=
  let arun := fix arun (l : list astmt) (rt : runtime) (log : list aev) : runtime * list aev * outcome :=
    match l with
    | [] => (rt, log, Returned)
    | s :: r =>
        let '(rt', log', out) := aexec s rt log in
        match out with Returned => arun r rt' log' | Raised e => (rt', log', Raised e) end
    end in
  match s with
  (* api/trace 474-487 [NoOpTracer.start_as_current_span]: a generator that yields INVALID_SPAN *)
  | AWith body => arun body rt log
  (* span.py 528-571: the methods of a NonRecordingSpan do nothing *)
  | AUse en re st body =>
      use_span (list aev) (fun _ => false) (fun _ l => l) (fun _ l => l) (fun l => l) (arun body) u noop_span en re st rt log
  | AReceived c body =>
      let (rt1, tok) := attach u (extract (get_current u rt) c) rt in
      let '(rt2, log2, out) := arun body rt1 log in
      (detach u tok rt2, log2, out)
  | ABaggage name v body =>
      let (rt1, tok) := attach u (set_baggage name v (get_current u rt)) rt in
      let '(rt2, log2, out) := arun body rt1 log in
      (detach u tok rt2, log2, out)
  | ACalls => (rt, log, Returned)
  | ASend c => (rt, log ++ [ASent (default_set (inject (get_current u rt)) c)], Returned)
  | AAsk => (rt, log ++ [AAnswered (recording_of (get_current_span (get_current u rt)))], Returned)
  | ARaise e => (rt, log, Raised e)
  | AOthers o => (if Nat.eqb (rop_unit o) u then rt else rt_step rt o, log, Returned)
  | ATry all body =>
      let '(rt', log', out) := arun body rt log in
      (rt', log', match out with
                  | Raised e => if all || ex_error e then Returned else Raised e
                  | Returned => Returned
                  end)
  end.
Fixpoint arun (l : list astmt) (rt : runtime) (log : list aev) : runtime * list aev * outcome :=
  match l with
  | [] => (rt, log, Returned)
  | s :: r =>
      let '(rt', log', out) := aexec s rt log in
      match out with Returned => arun r rt' log' | Raised e => (rt', log', Raised e) end
  end.
End NoSdk.
