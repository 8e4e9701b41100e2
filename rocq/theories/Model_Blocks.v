(** Programs of nested [with tracer.start_as_current_span(...)] blocks, while other threads and tasks do what they
    like.

    Sources: opentelemetry-sdk/src/opentelemetry/sdk/trace/__init__.py ("trace"),
    opentelemetry-api/src/opentelemetry/trace/__init__.py ("api/trace"), context/__init__.py.  The parts are those of
    Model_Runtime (attach, detach, use_span), Model_Sampling (start_span) and Model_Span (the calls on a span). *)
From Verif Require Export Model_Runtime Model_Sampling.
Local Open Scope nat_scope.

(** The arguments of a block: name, context, kind, attributes, links and start time, and the flags
    end_on_exit, record_exception and set_status_on_exception. *)
Record block := Block {
  b_name : str; b_context : option context; b_kind : Z; b_attrs : pairs; b_links : link_args; b_start : option Z;
  b_end : bool; b_record : bool; b_status : bool
}.

(** Programs.  The spans of the process are numbered in the order in which they are started. *)
Inductive stmt :=
| SWith (b : block) (body : list stmt)          (* with tracer.start_as_current_span(...): body *)
| SAttached (c : context) (body : list stmt)    (* token = attach(c); try: body; finally: detach(token) *)
| SBaggage (name : str) (v : obj) (body : list stmt)    (* the same with set_baggage(name, v) *)
| SCall (n : nat) (o : sop)                     (* a method of span n *)
| SRaise (e : exc)
| STry (all : bool) (body : list stmt).         (* try: body; except Exception: pass (all: except BaseException) *)

(** What other threads and tasks do. *)
Inductive nact :=
| NStart (cur : context) (b : block) (now : Z)  (* start a span in a context *)
| NCall (n : nat) (o : sop)                     (* call a method of any span *)
| NRuntime (o : rop).                           (* attach, detach, start a task *)

(** What happens, in order (an observation: nothing depends on it). *)
Inductive bev :=
| BEnter (n : nat) (b : block) (now : Z)        (* a block of the program starts its span n *)
| BLeave (n : nat) (out : outcome)              (* the body of that block is left *)
| BExit (n : nat) (o : sop)                     (* use_span calls a method of span n *)
| BAttach (c : context) | BDetach
| BCall (n : nat) (o : sop)                     (* the program or another thread calls a method of span n *)
| BOther (n : nat).                             (* another thread starts span n *)

Section Blocks.
Context {G : Type}.
Variable gen_trace_id gen_span_id : G -> Z * G.
Variable tr : tracer.
(** The thread or task of the program. *)
Variable u : nat.
(** The clock, and what the others do, at each moment. *)
Variable clock : nat -> Z.
Variable noise : nat -> list nact.
(** What [record_exception] finds out about an exception. *)
Variable describe : exc -> exc_info.

Record store := Store { st_gen : G; st_spans : list started; st_tick : nat; st_log : list bev }.
Definition log_event (e : bev) (st : store) : store :=
  Store (st_gen st) (st_spans st) (st_tick st) (st_log st ++ [e]).
Definition tick (st : store) : store := Store (st_gen st) (st_spans st) (S (st_tick st)) (st_log st).

(** trace/__init__.py 938-948: [end] calls on_end before it returns.  The methods of a NonRecordingSpan do nothing. *)
Definition call_span (o : sop) (s : started) : started :=
  match s with
  | Recording w => Recording (sw_step (sw_step w (ACall o)) AOnEnd)
  | NonRecording sc => NonRecording sc
  end.
Fixpoint call_nth (n : nat) (o : sop) (l : list started) : list started :=
  match l, n with
  | [], _ => []
  | s :: r, O => call_span o s :: r
  | s :: r, S n' => s :: call_nth n' o r
  end.
Definition call_on (n : nat) (o : sop) (e : bev) (st : store) : store :=
  log_event e (Store (st_gen st) (call_nth n o (st_spans st)) (st_tick st) (st_log st)).

(** A new span gets the next number. *)
Definition start_block (cur : context) (b : block) (now : Z) (e : nat -> bev) (st : store)
    : outcome_of started * store :=
  let (r, g) := start_span gen_trace_id gen_span_id tr cur (b_context b) (b_name b) (b_kind b) (b_attrs b)
                           (b_links b) (b_start b) now (st_gen st) in
  match r with
  | Ok s => (Ok s, log_event (e (length (st_spans st))) (Store g (st_spans st ++ [s]) (st_tick st) (st_log st)))
  | Raises x => (Raises x, Store g (st_spans st) (st_tick st) (st_log st))
  end.

(** One action of another thread or task.  (An action in the program's own unit is none.) *)
Definition nstep (w : runtime * store) (a : nact) : runtime * store :=
  let (rt, st) := w in
  match a with
  | NStart cur b now => (rt, snd (start_block cur b now BOther st))
  | NCall n o => (rt, call_on n o (BCall n o) st)
  | NRuntime o => (if Nat.eqb (rop_unit o) u then rt else rt_step rt o, st)
  end.
(** The others act before each statement of the program and before a block is left. *)
Definition others (rt : runtime) (st : store) : runtime * store :=
  fold_left nstep (noise (st_tick st)) (rt, tick st).

(** api/trace/span.py, trace/__init__.py 953-955 [is_recording] *)
Definition nth_recording (n : nat) (st : store) : bool :=
  match nth_error (st_spans st) n with Some (Recording w) => negb (is_ended (w_span w)) | _ => false end.
(** Calls that [use_span] makes. *)
Definition exit_call (n : nat) (o : Z -> sop) (st : store) : store :=
  let x := o (clock (st_tick st)) in call_on n x (BExit n x) (tick st).

Fixpoint exec (s : stmt) (rt : runtime) (st : store) : runtime * store * outcome :=
  let run := fix run (l : list stmt) (rt : runtime) (st : store) : runtime * store * outcome :=
    match l with
    | [] => (rt, st, Returned)
    | s :: r =>
        let '(rt', st', out) := exec s rt st in
        match out with Returned => run r rt' st' | Raised e => (rt', st', Raised e) end
    end in
  let (rt, st) := others rt st in
  match s with
  | SWith b body =>
      (* trace/__init__.py 1077-1105 [start_as_current_span] *)
      let now := clock (st_tick st) in
      let n := length (st_spans st) in
      match start_block (get_current u rt) b now (fun n => BEnter n b now) (tick st) with
      | (Raises x, st1) => (rt, st1, Raised (Exc true (lit x) [] 0))
      | (Ok sp, st1) =>
          use_span store (nth_recording n)
            (fun e => exit_call n (fun now => ORecordException (describe e) [] None false now))
            (fun d => exit_call n (fun _ => OSetStatus (SAStatus ERROR (PStr false d)) PNone))
            (exit_call n (fun now => OEnd None now))
            (fun rt st => let '(rt', st', out) := run body rt st in
                          let (rt'', st'') := others rt' st' in
                          (rt'', log_event (BLeave n out) st'', out))
            u (as_obj sp) (b_end b) (b_record b) (b_status b) rt st1
      end
  | SAttached c body =>
      let (rt1, tok) := attach u c rt in
      let '(rt2, st2, out) := run body rt1 (log_event (BAttach c) st) in
      (detach u tok rt2, log_event BDetach st2, out)
  | SBaggage name v body =>
      let (rt1, tok) := attach u (set_baggage name v (get_current u rt)) rt in
      let '(rt2, st2, out) := run body rt1 st in
      (detach u tok rt2, st2, out)
  | SCall n o => (rt, call_on n o (BCall n o) st, Returned)
  | SRaise e => (rt, st, Raised e)
  | STry all body =>
      let '(rt', st', out) := run body rt st in
      (rt', st', match out with
                 | Raised e => if all || ex_error e then Returned else Raised e
                 | Returned => Returned
                 end)
  end.

(** A program. *)
Fixpoint run (l : list stmt) (rt : runtime) (st : store) : runtime * store * outcome :=
  match l with
  | [] => (rt, st, Returned)
  | s :: r =>
      let '(rt', st', out) := exec s rt st in
      match out with Returned => run r rt' st' | Raised e => (rt', st', Raised e) end
  end.
End Blocks.
