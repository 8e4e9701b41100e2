(** What a text of a time says, and which float a clock shows. *)
From Coq Require Import ZArith NArith List Bool Reals.
From Flocq Require Import Core BinarySingleNaN.
From Verif Require Export Model_Times.
From Verif Require Import Model_Str Model_Float.
Import ListNotations.
Local Open Scope Z_scope.

(** ** The calendar *)

Definition leap_year (y : Z) : Prop := (4 | y) /\ (~ (100 | y) \/ (400 | y)).
(** January 1st of the year is this many days after 1970-01-01. *)
Inductive new_year : Z -> Z -> Prop :=
| ny_1970 : new_year 1970 0
| ny_common y n : new_year y n -> ~ leap_year y -> new_year (y + 1) (n + 365)
| ny_leap y n : new_year y n -> leap_year y -> new_year (y + 1) (n + 366).
Inductive month_has (y : Z) : Z -> Z -> Prop :=
| mh_feb_common : ~ leap_year y -> month_has y 2 28
| mh_feb_leap : leap_year y -> month_has y 2 29
| mh_30 m : In m [4; 6; 9; 11] -> month_has y m 30
| mh_31 m : In m [1; 3; 5; 7; 8; 10; 12] -> month_has y m 31.
(** The month's first day is this many days after 1970-01-01. *)
Inductive month_starts (y : Z) : Z -> Z -> Prop :=
| ms_january n : new_year y n -> month_starts y 1 n
| ms_next m n k : month_starts y m n -> month_has y m k -> month_starts y (m + 1) (n + k).
Definition date (y m d days : Z) : Prop :=
  exists first len, month_starts y m first /\ month_has y m len /\ 1 <= d <= len /\ days = first + d - 1.

(** ** Texts *)

Definition digits (n : nat) (s : str) : Prop := length s = n /\ Forall (fun c => (48 <= c <= 57)%N) s.
Definition decimal (s : str) : Z := fold_left (fun a c => 10 * a + (Z.of_N c - 48)) s 0.
(** The text says: this many microseconds after the beginning of 1970, in UTC. *)
Inductive utc_instant : str -> Z -> Prop :=
| ui_text Y M D h m s f days :
    digits 4 Y -> digits 2 M -> digits 2 D -> digits 2 h -> digits 2 m -> digits 2 s -> digits 6 f ->
    date (decimal Y) (decimal M) (decimal D) days -> decimal h < 24 -> decimal m < 60 -> decimal s < 60 ->
    utc_instant (Y ++ lit "-" ++ M ++ lit "-" ++ D ++ lit "T" ++ h ++ lit ":" ++ m ++ lit ":" ++ s ++ lit "." ++ f ++ lit "Z")
      ((((days * 24 + decimal h) * 60 + decimal m) * 60 + decimal s) * 1000000 + decimal f).

(** ** Floats *)

(** No float is nearer to the number. *)
Definition nearest_float (x : R) (f : pyfloat) : Prop :=
  is_finite f = true /\ forall g : pyfloat, is_finite g = true -> (Rabs (B2R f - x) <= Rabs (B2R g - x))%R.
(** 2106-02-07: 2^32 seconds *)
Definition until_2106 : Z := 2 ^ 32 * 10 ^ 9.
