(** Specification vocabulary: what the callbacks of observable instruments observe. *)
From Verif Require Export Spec_Streams Model_Observable.
Local Open Scope Z_scope.

(** What a callback that was called with the timeouts [past] before observes when it is called now: a function all that its
    answer to this call has (up to its exception, if it fails); a generator what it yields next after its first yield, or
    nothing if it has raised or ended. *)
Definition is_raise (s : gstep) : bool := match s with GRaises => true | _ => false end.
Definition observes (c : given_callback) (past : list Z) (timeout : Z) : list (option mattrs * Z) :=
  match c with
  | FunctionCallback f => an_obs (f (past ++ [timeout]))
  | GeneratorCallback g =>
      if existsb is_raise (firstn (S (length past)) g) then []
      else match nth_error g (S (length past)) with Some (GYields a) => an_obs a | _ => [] end
  end.
(** The clock that is read before the callbacks of each instrument does not go back. *)
Definition nondecreasing_clock (clock : nat -> Z * Z) : Prop := forall k, fst (clock k) <= fst (clock (S k)).
Definition ostep_ok (o : oop) : Prop := match o with OCollect _ clock _ _ _ => nondecreasing_clock clock | _ => True end.
(** The timeout for the k-th instrument: what is left until the deadline, but at most ten seconds. *)
Definition allowed (clock : nat -> Z * Z) (deadline : Z) (k : nat) : Z := Z.min 10000000000 (deadline - fst (clock k)).
Definition numbered {A} (l : list A) : list (nat * A) := combine (seq 0 (length l)) l.

(** The timeouts of the calls of the k-th callback of [i] in a run. *)
Definition calls_of (i : N) (k : nat) (outs : list oout) : list Z :=
  flat_map (fun out => match out with
                       | OCollected _ calls =>
                           flat_map (fun e : N * nat * Z => let '(j, k', t) := e in if N.eqb j i && Nat.eqb k' k then [t] else []) calls
                       | _ => []
                       end) outs.
(** [o] created instrument [i]: it is the first answer with it. *)
Definition created_by (l : list oop) (outs : list oout) (i : N) (cbs : list given_callback) : Prop :=
  exists n c, nth_error l n = Some (OCreate c cbs) /\ nth_error outs n = Some (OInstrument i)
  /\ ~ In (OInstrument i) (firstn n outs).
(** The instruments in the order in which the program first got them. *)
Definition first_seen (outs : list oout) : list N :=
  fold_left (fun acc o => match o with OInstrument i => if existsb (N.eqb i) acc then acc else acc ++ [i] | _ => acc end) outs [].
(** All that the callbacks of an instrument observe, one after the other, after the calls in [outs]. *)
Definition all_observe (outs : list oout) (timeout : Z) (i : N) (cbs : list given_callback) : list observation :=
  flat_map (fun e => map (fun o => (i, fst o, snd o)) (observes (snd e) (calls_of i (fst e) outs) timeout)) (numbered cbs).
(** Every callback of an instrument is called, in order, each once. *)
Definition all_called {A} (timeout : Z) (i : N) (cbs : list A) : list (N * nat * Z) :=
  map (fun k => (i, k, timeout)) (seq 0 (length cbs)).
(** The same program with callbacks that observe the same but do not fail after it. *)
Definition mended (c : given_callback) : given_callback :=
  match c with
  | FunctionCallback f => FunctionCallback (fun past => Answer (an_obs (f past)) false)
  | GeneratorCallback g => GeneratorCallback (map (fun s => match s with GYields a => GYields (Answer (an_obs a) false) | GRaises => GRaises end) g)
  end.
Definition mend (o : oop) : oop := match o with OCreate c cbs => OCreate c (map mended cbs) | _ => o end.
