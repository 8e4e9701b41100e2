(** Creating instruments: the registry of a meter, with threads.

    Source: opentelemetry-api/src/opentelemetry/metrics/_internal/__init__.py and instrument.py,
    opentelemetry-sdk/src/opentelemetry/sdk/metrics/_internal/__init__.py and instrument.py. *)
From Verif Require Export Model_Metrics Model_Regex.

(** API instrument.py 44-45 *)
Definition is_alpha (c : N) : bool := is_lower c || is_upper c.
Definition name_regex : re :=
  RCat (RCls is_alpha)
       (rupto 254 (RCls (fun c => existsb (N.eqb c) (lit "-_./") || is_alpha c || is_digit c)%bool)).
Definition unit_regex : re := rupto 63 (RCls (fun c => N.leb c 127)).

(** [type_.__name__], SDK instrument.py 308-333 *)
Definition class_name (k : ikind) : str :=
  match k with
  | ICounter => lit "_Counter"
  | IUpDownCounter => lit "_UpDownCounter"
  | IObservableCounter => lit "_ObservableCounter"
  | IObservableUpDownCounter => lit "_ObservableUpDownCounter"
  | IHistogram => lit "_Histogram"
  | IObservableGauge => lit "_ObservableGauge"
  | IGauge => lit "_Gauge"
  end.

(** The arguments of a create_* call.  The advisory is a histogram's (after the check in
    [create_histogram] 196-217), else None. *)
Record ccall := CC { cc_kind : ikind; cc_name : str; cc_unit : str; cc_descr : str; cc_adv : option (list Z) }.
(** An instrument object; [in_obj] is its identity. *)
Record instr := Instr { in_obj : N; in_kind : ikind; in_name : str; in_unit : str; in_descr : str; in_adv : option (list Z) }.

(** API __init__.py 258-260.  [lower] is right for ASCII names only. *)
Definition instrument_id (c : ccall) : str :=
  join (lit ",") [lower (strip py_space (cc_name c)); class_name (cc_kind c); cc_unit c; cc_descr c].
(** SDK instrument.py 60-71 with API instrument.py 85-116 *)
Definition acceptable (c : ccall) : bool := fullmatch name_regex (cc_name c) && fullmatch unit_regex (cc_unit c).
(** SDK instrument.py 73-81 *)
Definition build (obj : N) (c : ccall) : instr := Instr obj (cc_kind c) (lower (cc_name c)) (cc_unit c) (cc_descr c) (cc_adv c).

(** One thread's create_* call, e.g. [create_counter] 92-120 and [create_observable_counter] 155-194.  The
    steps: registering the id (under [_instrument_ids_lock]); looking the instrument up (under
    [_instrument_id_instrument_lock]) if the id was registered before; else the constructor, for
    observable instruments adding it to the measurement consumer's list (under its lock), and storing it
    (under the lock).  The warning about a conflicting advisory is not modelled. *)
Inductive merror := InvalidInstrument | KeyError.
Inductive mpc :=
| MNew
| MRegistered (c : ccall) (already : bool)
| MBuilt (c : ccall) (o : instr)
| MListed (c : ccall) (o : instr)
| MDone (c : ccall) (o : instr)
| MRaised (c : ccall) (e : merror).
Record msys := MS {
  ms_ids : dict str (option (list Z));     (* API _instrument_ids *)
  ms_instrs : dict str instr;              (* SDK _instrument_id_instrument *)
  ms_async : list instr;                   (* measurement consumer's _async_instruments *)
  ms_next : N;                             (* identity of the next object *)
  ms_pc : nat -> mpc
}.
Definition ms_init : msys := MS [] [] [] 0 (fun _ => MNew).
Definition mset (f : nat -> mpc) (t : nat) (p : mpc) : nat -> mpc := fun t' => if Nat.eqb t t' then p else f t'.
Inductive mev := MCall (t : nat) (c : ccall) | MStep (t : nat).
Definition mstep (s : msys) (e : mev) : msys :=
  let go t p := MS (ms_ids s) (ms_instrs s) (ms_async s) (ms_next s) (mset (ms_pc s) t p) in
  match e with
  | MCall t c =>
      match ms_pc s t with
      | MNew =>                             (* API 262-275 *)
          if dmem (instrument_id c) (ms_ids s) then go t (MRegistered c true)
          else MS (dset (instrument_id c) (cc_adv c) (ms_ids s)) (ms_instrs s) (ms_async s) (ms_next s)
                  (mset (ms_pc s) t (MRegistered c false))
      | _ => s
      end
  | MStep t =>
      match ms_pc s t with
      | MRegistered c true =>               (* SDK 106-108 *)
          match dget (instrument_id c) (ms_instrs s) with
          | Some o => go t (MDone c o)
          | None => go t (MRaised c KeyError)
          end
      | MRegistered c false =>              (* SDK 110-116 *)
          if acceptable c
          then MS (ms_ids s) (ms_instrs s) (ms_async s) (ms_next s + 1)%N (mset (ms_pc s) t (MBuilt c (build (ms_next s) c)))
          else go t (MRaised c InvalidInstrument)
      | MBuilt c o =>                       (* SDK 190, observable instruments only *)
          if synchronous (cc_kind c) then go t (MListed c o)
          else MS (ms_ids s) (ms_instrs s) (ms_async s ++ [o]) (ms_next s) (mset (ms_pc s) t (MListed c o))
      | MListed c o =>                      (* SDK 118-120 *)
          MS (ms_ids s) (dset (instrument_id c) o (ms_instrs s)) (ms_async s) (ms_next s) (mset (ms_pc s) t (MDone c o))
      | _ => s
      end
  end.
Definition mrun (l : list mev) : msys := fold_left mstep l ms_init.
