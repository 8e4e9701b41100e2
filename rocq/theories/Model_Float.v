(** Python numbers as measurements use them: int and float.

    A float is an IEEE 754 binary64 number (Flocq's [binary_float 53 1024]: all NaNs are one); an operation with a float and an
    int converts the int first, rounding to nearest, ties to even, and raises OverflowError if the int is too large.  Comparisons
    of an int with a float are exact.  (The Python language reference and CPython's Objects/floatobject.c; these are not part of
    /repo.) *)
From Coq Require Import ZArith Bool List.
From Flocq Require Import Core BinarySingleNaN.
Local Open Scope Z_scope.

Definition prec64 : Prec_gt_0 53 := eq_refl.
Definition emax64 : Prec_lt_emax 53 1024 := eq_refl.
Definition pyfloat := binary_float 53 1024.
Inductive num := NInt (z : Z) | NFloat (f : pyfloat).

Definition fadd (x y : pyfloat) : pyfloat := Bplus (prec_gt_0_ := prec64) (prec_lt_emax_ := emax64) mode_NE x y.
Definition fsub (x y : pyfloat) : pyfloat := Bminus (prec_gt_0_ := prec64) (prec_lt_emax_ := emax64) mode_NE x y.
(** float(z); None: OverflowError *)
Definition float_of_int (z : Z) : option pyfloat :=
  let f := binary_normalize 53 1024 prec64 emax64 mode_NE z 0 false in
  if is_finite f then Some f else None.
Definition to_float (x : num) : option pyfloat := match x with NInt z => float_of_int z | NFloat f => Some f end.
(** x + y and x - y; None: OverflowError *)
Definition num_add (x y : num) : option num :=
  match x, y with
  | NInt a, NInt b => Some (NInt (a + b))
  | _, _ =>
      match to_float x, to_float y with
      | Some f, Some g => Some (NFloat (fadd f g))
      | _, _ => None
      end
  end.
Definition num_sub (x y : num) : option num :=
  match x, y with
  | NInt a, NInt b => Some (NInt (a - b))
  | _, _ =>
      match to_float x, to_float y with
      | Some f, Some g => Some (NFloat (fsub f g))
      | _, _ => None
      end
  end.
(** The order of an int and a float; None: the float is NaN. *)
Definition cmp_int_float (z : Z) (f : pyfloat) : option comparison :=
  match f with
  | B754_nan => None
  | B754_infinity s => Some (if s then Gt else Lt)
  | B754_zero _ => Some (Z.compare z 0)
  | B754_finite s m e _ =>
      let M := if s then Zneg m else Zpos m in
      Some (if 0 <=? e then Z.compare z (M * 2 ^ e) else Z.compare (z * 2 ^ (- e)) M)
  end.
Definition num_cmp (x y : num) : option comparison :=
  match x, y with
  | NInt a, NInt b => Some (Z.compare a b)
  | NInt a, NFloat g => cmp_int_float a g
  | NFloat f, NInt b => option_map CompOpp (cmp_int_float b f)
  | NFloat f, NFloat g => Bcompare f g
  end.
(** x < y *)
Definition num_ltb (x y : num) : bool := match num_cmp x y with Some Lt => true | _ => false end.
(** min(x, y) and max(x, y) *)
Definition num_min (x y : num) : num := if num_ltb y x then y else x.
Definition num_max (x y : num) : num := if num_ltb x y then y else x.
Definition pos_inf : num := NFloat (B754_infinity false).
Definition neg_inf : num := NFloat (B754_infinity true).
