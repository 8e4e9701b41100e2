(** The logarithm mapping in floating point: exponential_histogram/mapping/logarithm_mapping.py of opentelemetry-sdk.

    [flog] is math.log.  Everything else is done with IEEE 754 numbers: 1 / log(2), ldexp, the product and its floor.
    Values are integers in units of 2^-1074, as in Model_ExpHist. *)
From Coq Require Import ZArith Bool List.
From Flocq Require Import Core BinarySingleNaN.
From Verif Require Export Model_Float Model_ExpHist.
Local Open Scope Z_scope.

(** Operations of Python floats (CPython's Objects/floatobject.c and math.ldexp): [ldexp] of a finite number. *)
Definition fmul (x y : pyfloat) : pyfloat := Bmult (prec_gt_0_ := prec64) (prec_lt_emax_ := emax64) mode_NE x y.
Definition fdiv (x y : pyfloat) : pyfloat := Bdiv (prec_gt_0_ := prec64) (prec_lt_emax_ := emax64) mode_NE x y.
Definition ldexp (x : pyfloat) (e : Z) : pyfloat := Bldexp (prec_gt_0_ := prec64) (prec_lt_emax_ := emax64) mode_NE x e.
Definition fone : pyfloat := binary_normalize 53 1024 prec64 emax64 mode_NE 1 0 false.
Definition ftwo : pyfloat := binary_normalize 53 1024 prec64 emax64 mode_NE 2 0 false.
(** math.floor of a finite float; it raises for the others, which does not happen here: see [float_log_finite]. *)
Definition ffloor (x : pyfloat) : Z :=
  match x with
  | B754_finite s m e _ => let M := if s then Zneg m else Zpos m in if 0 <=? e then M * 2 ^ e else Z.shiftr M (- e)
  | _ => 0
  end.
(** The float of value n * 2^-1074. *)
Definition double_of (n : Z) : pyfloat := binary_normalize 53 1024 prec64 emax64 mode_NE n (-1074) false.

Section MathLog.
Variable flog : pyfloat -> pyfloat.
(** logarithm_mapping.py 75: [self._scale_factor = ldexp(1 / log(2), scale)] *)
Definition scale_factor (scale : Z) : pyfloat := ldexp (fdiv fone (flog ftwo)) scale.
(** logarithm_mapping.py 113: [log(value) * self._scale_factor] *)
Definition log_product (scale n : Z) : pyfloat := fmul (flog (double_of n)) (scale_factor scale).
(** logarithm_mapping.py 113: [floor(log(value) * self._scale_factor)], the [log_floor] that Model_ExpHist leaves open *)
Definition float_log_floor (scale n : Z) : Z := ffloor (log_product scale n).
End MathLog.
