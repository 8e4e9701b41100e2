(** Specification of the settings that come from arguments, environment variables and defaults. *)
From Verif Require Import Model_Settings.
Local Open Scope Z_scope.

Section Numbers.
Variable nd : N -> option N.   (* decimal value of a non-ASCII decimal digit *)

(** A decimal digit and its value *)
Definition is_decimal (c d : N) : Prop :=
  (48 <= c <= 57 /\ d = c - 48)%N \/ (128 <= c)%N /\ nd c = Some d.
(** [numeral s n z]: [s] is [n] digits, with or without one underscore between two of them, of value [z] *)
Inductive numeral : str -> Z -> Z -> Prop :=
| num_one c d : is_decimal c d -> numeral [c] 1 (Z.of_N d)
| num_next s n z c d : numeral s n z -> is_decimal c d -> numeral (s ++ [c]) (n + 1) (10 * z + Z.of_N d)
| num_underscore s n z c d : numeral s n z -> is_decimal c d -> numeral (s ++ [95%N; c]) (n + 1) (10 * z + Z.of_N d).
Definition within (limit : option Z) (n : Z) : Prop := match limit with Some m => n <= m | None => True end.
(** What Python reads as the integer [z]: blanks, perhaps a sign, a numeral that is not too long, blanks *)
Definition integer_text (limit : option Z) (s : str) (z : Z) : Prop :=
  exists before sign body after n v,
    s = before ++ sign ++ body ++ after
    /\ Forall (fun c => int_space c = true) before /\ Forall (fun c => int_space c = true) after
    /\ numeral body n v /\ within limit n
    /\ ((sign = [] \/ sign = lit "+") /\ z = v \/ sign = lit "-" /\ z = - v).
End Numbers.

(** What a setting comes from: the argument; else the variable if it reads as an integer; else the default *)
Definition setting_is nd limit (environ : str -> option str) (arg : option Z) (variable : str) (default z : Z) : Prop :=
  match arg with
  | Some a => z = a
  | None =>
      (exists s, environ variable = Some s /\ integer_text nd limit s z)
      \/ (forall s, environ variable = Some s -> ~ exists z', integer_text nd limit s z') /\ z = default
  end.
(** The four settings of a batch processor *)
Definition batch_settings_are nd limit environ (g : signal) (a : batch_args) (s : batch_settings) : Prop :=
  let var name := match g with Spans => lit (String.append "OTEL_BSP_" name) | LogRecords => lit (String.append "OTEL_BLRP_" name) end in
  setting_is nd limit environ (ba_queue a) (var "MAX_QUEUE_SIZE"%string) 2048 (bs_queue s)
  /\ setting_is nd limit environ (ba_delay a) (var "SCHEDULE_DELAY"%string) 5000 (bs_delay s)
  /\ setting_is nd limit environ (ba_batch a) (var "MAX_EXPORT_BATCH_SIZE"%string) 512 (bs_batch s)
  /\ setting_is nd limit environ (ba_timeout a) (var "EXPORT_TIMEOUT"%string) 30000 (bs_timeout s).
Definition batch_settings_valid (s : batch_settings) : Prop := 0 < bs_delay s /\ 0 < bs_batch s <= bs_queue s.

(** Filters by name *)
Definition filter_name (f : filter_kind) : str :=
  match f with TraceBased => lit "trace_based" | AlwaysOn => lit "always_on" | AlwaysOff => lit "always_off" end.
