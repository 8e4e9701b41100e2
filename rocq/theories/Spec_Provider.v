(** What providers promise, without the code's loops. *)
From Verif Require Import Spec_Otlp Model_Provider.

(** The readers with the time at which their turn comes. *)
Definition turns {R} (clock : nat -> Z) (readers : list R) : list (R * Z) := combine readers (map clock (seq 0 (length readers))).
(** A reader is called if its turn comes before the deadline, and is fine if that call returns. *)
Definition in_time {R} (deadline : Z) (turn : R * Z) : bool := Z.ltb (snd turn) deadline.
Definition fine {R} (answer : R -> Z -> rans) (deadline : Z) (turn : R * Z) : bool :=
  in_time deadline turn && match answer (fst turn) (deadline - snd turn)%Z with ROk => true | _ => false end.

(** The readers that one result of a provider's history shut down. *)
Definition readers_shut (r : mres) : list nat := match r with RShut calls _ => map fst calls | RMeter _ => [] end.
(** The calls of get_meter in a history. *)
Definition meter_at (l : list mcall) (rs : list mres) (i : nat) (a : logger_args) (m : nat) : Prop :=
  nth_error l i = Some (MGet a) /\ nth_error rs i = Some (RMeter (Some m)).
Definition is_shutdown (c : mcall) : bool := match c with MShutdown _ _ _ _ => true | MGet _ => false end.

(** The temporalities of the OTLP preferences (specification: metrics/sdk_exporters/otlp.md). *)
Definition delta_preference (k : ikind) : temporality :=
  match k with ICounter | IObservableCounter | IHistogram => DELTA | _ => CUMULATIVE end.
Definition low_memory_preference (k : ikind) : temporality :=
  match k with ICounter | IHistogram => DELTA | _ => CUMULATIVE end.
Definition preference (value : str) (k : ikind) : temporality :=
  if str_eqb value (lit "DELTA") then delta_preference k
  else if str_eqb value (lit "LOWMEMORY") then low_memory_preference k
  else CUMULATIVE.
(** A dict of preferences that a reader accepts. *)
Definition acceptable_preferences (l : list (iclass * temporality)) : Prop :=
  Forall (fun kt => snd kt <> UNSPECIFIED /\ exists k, fst kt = CKind k) l.
