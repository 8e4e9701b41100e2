(** Specification vocabulary for the logarithm mapping in floating point. *)
From Coq Require Import ZArith Reals.
From Flocq Require Import Core BinarySingleNaN.
From Verif Require Export Spec_ExpHist Model_FloatExp.
Local Open Scope Z_scope.

(** The number that [n] stands for. *)
Definition real_value (n : Z) : R := (IZR n * powerRZ 2 (-1074))%R.

(** What is assumed of math.log: on positive finite numbers it is finite and off by at most one part in 2^52 (one unit in the
    last place; the C libraries in use are at least that good). *)
Definition accurate_log (flog : pyfloat -> pyfloat) : Prop :=
  forall x, is_finite x = true -> (0 < B2R x)%R ->
  is_finite (flog x) = true /\ (Rabs (B2R (flog x) - ln (B2R x)) <= / 2 ^ 52 * Rabs (ln (B2R x)))%R.

(** The best possible math.log: the double nearest to the logarithm, the one with the even significand of two.  The real
    number [scaled_mantissa] is ln x in units of the last place of the result. *)
Definition nearest_log (x : pyfloat) : pyfloat :=
  let y := ln (B2R x) in
  binary_normalize 53 1024 prec64 emax64 mode_NE
    (ZnearestE (scaled_mantissa radix2 (SpecFloat.fexp 53 1024) y)) (cexp radix2 (SpecFloat.fexp 53 1024) y) false.

(** Equal to each power of two or at a relative distance of at least 2^-38 from it. *)
Definition clear_of_powers (n : Z) : Prop := forall k, 0 <= k -> n = 2 ^ k \/ 2 ^ k <= 2 ^ 38 * Z.abs (n - 2 ^ k).
