(** Times: ints of nanoseconds, floats of seconds, and texts.

    Source: opentelemetry-sdk/src/opentelemetry/sdk/util/__init__.py 24-29 [ns_to_iso_str];
    opentelemetry-sdk/src/opentelemetry/sdk/_logs/_internal/__init__.py 221-250 [LogRecord.to_json], 505-507 [LoggingHandler._translate];
    shim/opentelemetry-opentracing-shim/.../opentracing_shim/util.py 20-43 ("util");
    shim/opentelemetry-opencensus-shim/.../opencensus/_shim_span.py 47-59 ("span").
    The parts of Python's library that are used (datetime, int and round of floats) are modelled after CPython's Modules/_datetimemodule.c,
    Python/pytime.c and Objects/floatobject.c, which are not part of /repo.  Times before 1970 are not modelled. *)
From Coq Require Import String List NArith ZArith Bool.
From Flocq Require Import Core BinarySingleNaN.
From Verif Require Import Model_Str Model_Span Model_Float Model_FloatExp.
Import ListNotations.
Local Open Scope Z_scope.

(** ** Floats *)

(** The literals 1e9 and 1e6 *)
Definition f1e9 : pyfloat := binary_normalize 53 1024 prec64 emax64 mode_NE (10 ^ 9) 0 false.
Definition f1e6 : pyfloat := binary_normalize 53 1024 prec64 emax64 mode_NE (10 ^ 6) 0 false.
(** int(f) *)
Definition int_of (f : pyfloat) : outcome_of Z :=
  match f with
  | B754_nan => Raises "ValueError"
  | B754_infinity _ => Raises "OverflowError"
  | _ => Ok (Btrunc f)
  end.
(** round(f) *)
Definition round_of (f : pyfloat) : outcome_of Z :=
  match f with
  | B754_nan => Raises "ValueError"
  | B754_infinity _ => Raises "OverflowError"
  | _ => Ok (Btrunc (Bnearbyint (prec_lt_emax_ := emax64) mode_NE f))
  end.
(** z / 1e9 for an int z *)
Definition over_1e9 (z : Z) : outcome_of pyfloat :=
  match float_of_int z with Some f => Ok (fdiv f f1e9) | None => Raises "OverflowError" end.

(** ** Seconds *)

(** util 33-43 [time_seconds_from_ns] *)
Definition time_seconds_from_ns (ns : Z) : outcome_of pyfloat := over_1e9 ns.
(** util 20-30 [time_seconds_to_ns] of a float *)
Definition time_seconds_to_ns (s : pyfloat) : outcome_of Z := int_of (fmul s f1e9).
(** _internal/__init__.py 506: the timestamp of a log record made of a logging.LogRecord *)
Definition log_timestamp (created : pyfloat) : outcome_of Z := int_of (fmul created f1e9).

(** ** Texts *)

(** datetime.fromtimestamp of a float: seconds and microseconds (pytime.c [_PyTime_DoubleToDenominator], ROUND_HALF_EVEN).  The fraction
    is modf's, which is exact. *)
Definition to_timeval (t : pyfloat) : outcome_of (Z * Z) :=
  match int_of t with
  | Raises e => Raises e
  | Ok ip =>
      let fr := match float_of_int ip with Some f => fsub t f | None => t end in
      match round_of (fmul fr f1e6) with
      | Raises e => Raises e
      | Ok us => Ok (if 10 ^ 6 <=? us then (ip + 1, us - 10 ^ 6) else (ip, us))
      end
  end.
(** The Gregorian calendar *)
Definition is_leap (y : Z) : bool := (y mod 4 =? 0) && (negb (y mod 100 =? 0) || (y mod 400 =? 0)).
Definition month_lengths (y : Z) : list Z := [31; if is_leap y then 29 else 28; 31; 30; 31; 30; 31; 31; 30; 31; 30; 31].
(** gmtime: year and day of the year, month and day of the month; [d] days after the first day of the year (month) [y] ([m]) *)
Fixpoint find_year (fuel : nat) (y d : Z) : Z * Z :=
  match fuel with
  | O => (y, d)
  | S fuel' => let n := if is_leap y then 366 else 365 in
               if d <? n then (y, d) else find_year fuel' (y + 1) (d - n)
  end.
Fixpoint find_month (l : list Z) (m d : Z) : Z * Z :=
  match l with
  | [] => (m, d)
  | n :: l' => if d <? n then (m, d) else find_month l' (m + 1) (d - n)
  end.
Fixpoint pad (w : nat) (z : Z) : str :=
  match w with
  | O => []
  | S w' => pad w' (z / 10) ++ [Z.to_N (48 + z mod 10)]
  end.
(** strftime("%Y-%m-%dT%H:%M:%S.%fZ") of the time [us] microseconds after [s] seconds after 1970; years after 9999 raise ValueError. *)
Definition utc_text (s us : Z) : outcome_of str :=
  let d := s / 86400 in
  let (y, yd) := find_year (Z.to_nat (d / 365)) 1970 d in
  let (m, md) := find_month (month_lengths y) 1 yd in
  let r := s mod 86400 in
  if 9999 <? y then Raises "ValueError"
  else Ok (pad 4 y ++ lit "-" ++ pad 2 m ++ lit "-" ++ pad 2 (md + 1) ++ lit "T"
           ++ pad 2 (r / 3600) ++ lit ":" ++ pad 2 (r / 60 mod 60) ++ lit ":" ++ pad 2 (r mod 60) ++ lit "." ++ pad 6 us ++ lit "Z").
(** sdk/util/__init__.py 24-29 *)
Definition ns_to_iso_str (ns : Z) : outcome_of str :=
  match over_1e9 ns with
  | Raises e => Raises e
  | Ok t => match to_timeval t with Raises e => Raises e | Ok (s, us) => utc_text s us end
  end.
(** _internal/__init__.py 233-234: the two times in [LogRecord.to_json]; None / 1e9 raises TypeError *)
Definition log_times (timestamp observed : option Z) : outcome_of (str * str) :=
  let text o := match o with Some ns => ns_to_iso_str ns | None => Raises "TypeError" end in
  match text timestamp with
  | Raises e => Raises e
  | Ok a => match text observed with Raises e => Raises e | Ok b => Ok (a, b) end
  end.

(** ** Reading *)

(** strptime of texts with all digits (it takes some more: fields without leading zeros, fractions with fewer digits) *)
Fixpoint digits_value (s : str) (acc : Z) : option Z :=
  match s with
  | [] => Some acc
  | c :: s' => if N.leb 48 c && N.leb c 57 then digits_value s' (10 * acc + Z.of_N (c - 48)) else None
  end.
(** The first [n] characters as a number, and the rest after the character [sep] *)
Definition take_field (n : nat) (sep : N) (s : str) : option (Z * str) :=
  match digits_value (firstn n s) 0, skipn n s with
  | Some z, c :: r => if N.eqb c sep && (length (firstn n s) =? n)%nat then Some (z, r) else None
  | _, _ => None
  end.
(** _datetimemodule.c [days_before_year], [days_before_month], [ymd_to_ord] *)
Definition days_before_year (y : Z) : Z := let y := y - 1 in y * 365 + y / 4 - y / 100 + y / 400.
Definition days_before_month (y m : Z) : Z := fold_right Z.add 0 (firstn (Z.to_nat (m - 1)) (month_lengths y)).
Definition ymd_to_ord (y m d : Z) : Z := days_before_year y + days_before_month y m + d.
Definition strptime (s : str) : option (Z * Z) :=
  match take_field 4 45 s with None => None | Some (y, s) =>
  match take_field 2 45 s with None => None | Some (m, s) =>
  match take_field 2 84 s with None => None | Some (d, s) =>
  match take_field 2 58 s with None => None | Some (hh, s) =>
  match take_field 2 58 s with None => None | Some (mm, s) =>
  match take_field 2 46 s with None => None | Some (ss, s) =>
  match take_field 6 90 s with None => None | Some (us, r) =>
  match r with _ :: _ => None | [] =>
    if (1 <=? y) && (1 <=? m) && (m <=? 12) && (1 <=? d) && (d <=? nth (Z.to_nat (m - 1)) (month_lengths y) 0)
       && (hh <? 24) && (mm <? 60) && (ss <? 60)
    then Some (((ymd_to_ord y m d - ymd_to_ord 1970 1 1) * 24 + hh) * 3600 + mm * 60 + ss, us)
    else None
  end end end end end end end end.
(** span 47-59 [_opencensus_time_to_nanos]: the fields are taken as local time.  [utc_of_local]: mktime, the seconds after 1970 at which
    local clocks show what clocks of UTC show after the given number of seconds. *)
Definition oc_time_to_nanos (utc_of_local : Z -> Z) (s : str) : option Z :=
  match strptime s with
  | None => None
  | Some (sec, us) =>
      match float_of_int (utc_of_local sec), float_of_int us with
      | Some a, Some b => match round_of (fmul (fadd a (fdiv b f1e6)) f1e9) with Ok z => Some z | Raises _ => None end
      | _, _ => None
      end
  end.
