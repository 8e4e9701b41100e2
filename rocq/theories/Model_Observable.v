(** Observable instruments: creating them with callbacks, and what a collection does with the callbacks.

    Sources: opentelemetry-sdk/src/opentelemetry/sdk/metrics/_internal/instrument.py 82-151,
    _internal/__init__.py 156-195 (and the same for up-down counters and gauges), measurement_consumer.py 94-145. *)
From Verif Require Export Model_Pipeline.
Local Open Scope Z_scope.

(** What iterating over the result of a callback gives: observations, and then the end or an exception (of a subclass of
    Exception; the object may also not be iterable, or something it yields may not be an observation). *)
Record answer := Answer { an_obs : list (option mattrs * Z); an_raises : bool }.
(** What a generator does each time it is resumed: it yields an iterable, or raises.  At the end of the list it returns. *)
Inductive gstep := GYields (a : answer) | GRaises.
(** A callback as the program gives it: a function, whose answer may depend on all its calls so far (the timeouts it was
    given, in nanoseconds, the current one last), or a generator. *)
Inductive given_callback := FunctionCallback (f : list Z -> answer) | GeneratorCallback (g : list gstep).
(** What the instrument keeps: the function with its past calls, or the generator where it stands. *)
Inductive callback := CbFun (f : list Z -> answer) (past : list Z) | CbGen (rest : list gstep).

(** instrument.py 116-133: [next(callback)] takes a generator to its first yield, whatever it yields is dropped; if it ends
    or raises before, so does the constructor. *)
Definition take_callback (c : given_callback) : outcome_of callback :=
  match c with
  | FunctionCallback f => Ok (CbFun f [])
  | GeneratorCallback [] => Raises "StopIteration"
  | GeneratorCallback (GRaises :: _) => Raises "Exception"
  | GeneratorCallback (GYields _ :: rest) => Ok (CbGen rest)
  end.
Fixpoint take_callbacks (l : list given_callback) : outcome_of (list callback) :=
  match l with
  | [] => Ok []
  | c :: l' =>
      match take_callback c with
      | Raises e => Raises e
      | Ok b => match take_callbacks l' with Raises e => Raises e | Ok bs => Ok (b :: bs) end
      end
  end.

(** 122-129 [inner] (a generator that has ended gives nothing), or the function itself *)
Definition run_callback (timeout : Z) (b : callback) : answer * callback :=
  match b with
  | CbFun f past => (f (past ++ [timeout]), CbFun f (past ++ [timeout]))
  | CbGen [] => (Answer [] false, CbGen [])
  | CbGen (GYields a :: rest) => (a, CbGen rest)
  | CbGen (GRaises :: _) => (Answer [] true, CbGen [])
  end.
(** 135-151 [callback]: the callbacks one after the other; an exception is logged, what was yielded before it stands.  Also
    the number of exceptions. *)
Fixpoint run_callbacks (timeout : Z) (bs : list callback) : list (option mattrs * Z) * list callback * nat :=
  match bs with
  | [] => ([], [], 0%nat)
  | b :: bs' =>
      let (a, b') := run_callback timeout b in
      let '(obs, bs'', n) := run_callbacks timeout bs' in
      (an_obs a ++ obs, b' :: bs'', if an_raises a then S n else n)
  end.

(** The measurement consumer's list, in the order of creation: the instrument and its callbacks. *)
Definition async_list := list (N * list callback).
(** measurement_consumer.py 114: 10000 * 1e6 ns; also the timeout in CallbackOptions() *)
Definition DEFAULT_TIMEOUT : Z := 10000 * 1000000.
(** 116-141: the loop of [collect].  [clock] gives what time_ns() returns: for the k-th instrument of the loop at 117 and
    at 125.  [options] is the timeout of the current CallbackOptions (in ns; 119-122).  The result: the observations that
    reach the storage, whether MetricsTimeoutError was raised, the callbacks afterwards, and the calls of callbacks that were
    made (instrument, position of the callback, timeout).  Simplifications: the storage does not raise (attributes that are
    not hashable: C46), and nanoseconds are not converted to milliseconds in floating point. *)
Fixpoint call_instruments (clock : nat -> Z * Z) (deadline : Z) (options : Z) (l : async_list)
    : list observation * bool * async_list * list (N * nat * Z) :=
  match l with
  | [] => ([], false, [], [])
  | (i, bs) :: l' =>
      let remaining := deadline - fst (clock O) in
      let options := if remaining <? DEFAULT_TIMEOUT then remaining else options in
      if deadline <=? snd (clock O) then ([], true, (i, bs) :: l', [])
      else
        let '(obs, bs', _) := run_callbacks options bs in
        let '(obs', timed_out, l'', calls) := call_instruments (fun k => clock (S k)) deadline options l' in
        (map (fun o => (i, fst o, snd o)) obs ++ obs', timed_out, (i, bs') :: l'',
         map (fun k => (i, k, options)) (seq 0 (length bs)) ++ calls)
  end.
(** 103-114, 143-145: [start] is the first reading of the clock, [timeout] the argument in ns. *)
Definition observe_all (clock : nat -> Z * Z) (start timeout : Z) (l : async_list) :=
  call_instruments clock (start + timeout) DEFAULT_TIMEOUT l.

(** ** A program: it creates observable instruments, calls synchronous instruments, and readers collect. *)
Inductive oop :=
| OCreate (c : ccall) (callbacks : list given_callback)
| OCall (i : N) (attrs : option mattrs) (amount now : Z)
| OCollect (r : nat) (clock : nat -> Z * Z) (start timeout now : Z).
(** The registered ids, the instruments by id, and the measurement consumer's list.  Instruments are numbered in the order
    of their creation, from [os_next]. *)
Record ostate := OSt { os_ids : list str; os_instrs : dict str N; os_async : async_list; os_next : N }.
Inductive oout := OInstrument (i : N) | OError (e : string) | OCalled | OCollected (p : pcall) (calls : list (N * nat * Z)).
(** [create_observable_counter] and its two siblings, by one thread (see Model_Meter for threads). *)
Definition ocreate (s : ostate) (c : ccall) (cbs : list given_callback) : ostate * oout :=
  let id := instrument_id c in
  if existsb (str_eqb id) (os_ids s) then
    (s, match dget id (os_instrs s) with Some i => OInstrument i | None => OError "KeyError" end)
  else
    let s1 := OSt (id :: os_ids s) (os_instrs s) (os_async s) (os_next s) in
    if negb (acceptable c) then (s1, OError "Exception")
    else
      match take_callbacks cbs with
      | Raises e => (s1, OError e)
      | Ok bs => (OSt (id :: os_ids s) (dset id (os_next s) (os_instrs s)) (os_async s ++ [(os_next s, bs)]) (os_next s + 1), OInstrument (os_next s))
      end.
Definition ostep (s : ostate) (o : oop) : ostate * oout :=
  match o with
  | OCreate c cbs => ocreate s c cbs
  | OCall i attrs amount now => (s, OCalled)
  | OCollect r clock start timeout now =>
      let '(obs, timed_out, l, calls) := observe_all clock start timeout (os_async s) in
      (OSt (os_ids s) (os_instrs s) l (os_next s), OCollected (PCollect r obs timed_out now) calls)
  end.
Definition orun (s : ostate) (l : list oop) : ostate * list oout :=
  fold_left (fun st o => let (s', out) := ostep (fst st) o in (s', snd st ++ [out])) l (s, []).
Definition ostart (next : N) : ostate := OSt [] [] [] next.
(** The calls that reach the measurement consumer: the input of [Model_Pipeline.sdk_run]. *)
Definition pipeline_calls (l : list oop) (outs : list oout) : list pcall :=
  flat_map (fun e => match e with
                     | (OCall i attrs amount now, _) => [PCall i attrs amount now]
                     | (_, OCollected p _) => [p]
                     | _ => []
                     end) (combine l outs).
