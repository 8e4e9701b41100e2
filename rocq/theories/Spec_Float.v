(** What numbers mean and what readings of a stream of numbers are, independently of how they are computed. *)
From Coq Require Import ZArith Reals List Bool.
From Flocq Require Import Core BinarySingleNaN.
From Verif Require Import Model_FloatMetrics.
Import ListNotations.
Local Open Scope R_scope.

(** The number that an int or a float is: a real number or an infinity; None: NaN. *)
Inductive xreal := XNeg | XReal (r : R) | XPos.
Definition value_of (x : num) : option xreal :=
  match x with
  | NInt z => Some (XReal (IZR z))
  | NFloat f =>
      match f with
      | B754_nan => None
      | B754_infinity s => Some (if s then XNeg else XPos)
      | _ => Some (XReal (B2R f))
      end
  end.
Definition xlt (x y : xreal) : Prop :=
  match x, y with
  | XNeg, XNeg => False | XNeg, _ => True
  | XReal a, XReal b => a < b | XReal _, XPos => True | XReal _, XNeg => False
  | XPos, _ => False
  end.
Definition xle (x y : xreal) : Prop := x = y \/ xlt x y.
Definition is_real (x : num) (r : R) : Prop := value_of x = Some (XReal r).
Definition is_nan_num (x : num) : Prop := value_of x = None.
(** x < y, as numbers; never with NaN *)
Definition less (x y : num) : Prop := exists a b, value_of x = Some a /\ value_of y = Some b /\ xlt a b.

(** Half the distance from 1 to the next float: the largest relative error of one rounding. *)
Definition unit_roundoff : R := / 2 ^ 53.
Definition rsum (l : list R) : R := fold_right Rplus 0 l.

(** The amounts that count: a counter or a histogram ignores negative ones. *)
Inductive counts_for (k : ikind) : list fcall -> list num -> Prop :=
| cf_nil : counts_for k [] []
| cf_read now h l : counts_for k h l -> counts_for k (FRead now :: h) l
| cf_ignored v h l : (k = ICounter \/ k = IHistogram) -> less v (NInt 0) -> counts_for k h l -> counts_for k (FCall v :: h) l
| cf_taken v h l : ~ ((k = ICounter \/ k = IHistogram) /\ less v (NInt 0)) -> counts_for k h l ->
    counts_for k (FCall v :: h) (v :: l).
(** The calls after the last collection. *)
Definition is_read (c : fcall) : bool := match c with FRead _ => true | _ => false end.
Fixpoint since_read (h : list fcall) : list fcall :=
  match h with
  | [] => []
  | c :: h' => if existsb is_read h' then since_read h' else if is_read c then h' else c :: h'
  end.
(** The ints among the amounts, added up without their signs. *)
Fixpoint int_total (h : list fcall) : Z :=
  match h with
  | [] => 0
  | FCall (NInt z) :: h' => Z.abs z + int_total h'
  | _ :: h' => int_total h'
  end%Z.
(** The points reported, in order. *)
Definition points {P} (rs : list (fans P)) : list P :=
  flat_map (fun r => match r with FPoint (Some p) => [p] | _ => [] end) rs.
(** Bucket [i] of [bounds] is the one of a value: above the boundary before it and not above its own.  (NaN is above none.) *)
Definition falls_in (bounds : list num) (i : nat) (v : num) : Prop :=
  (forall b, nth_error bounds i = Some b -> ~ less b v) /\ (forall j b, (j < i)%nat -> nth_error bounds j = Some b -> less b v).
Definition increasing (bounds : list num) : Prop :=
  forall i j a b, (i < j)%nat -> nth_error bounds i = Some a -> nth_error bounds j = Some b -> less a b.
(** The smallest and the largest of some values, NaN aside; infinite if there is none. *)
Definition smallest (l : list num) (x : num) : Prop :=
  (In x l \/ value_of x = Some XPos) /\ ~ is_nan_num x /\ forall v, In v l -> ~ less v x.
Definition largest (l : list num) (x : num) : Prop :=
  (In x l \/ value_of x = Some XNeg) /\ ~ is_nan_num x /\ forall v, In v l -> ~ less x v.
(** A histogram of values: [place v] is the bucket of v. *)
Definition histogram_of_numbers (bounds : list num) (record : bool) (l : list num) (p : fhpoint) : Prop :=
  fhp_bounds p = bounds /\
  (exists place, (forall v, In v l -> (place v <= length bounds)%nat /\ falls_in bounds (place v) v) /\
    fhp_counts p = map (fun j => Z.of_nat (count_occ Nat.eq_dec (map place l) j)) (seq 0 (S (length bounds)))) /\
  fhp_count p = Z.of_nat (length l) /\
  (if record then smallest l (fhp_min p) /\ largest l (fhp_max p)
   else value_of (fhp_min p) = Some XPos /\ value_of (fhp_max p) = Some XNeg).
(** A history of ints and points of ints (Model_Metrics.v) as histories and points of numbers. *)
Definition of_icall (c : icall) : fcall := match c with Call z => FCall (NInt z) | Read now => FRead now end.
Definition of_npoint (p : npoint) : fpoint := FP (np_attrs p) (np_start p) (np_time p) (NInt (np_value p)).
Definition of_ext (x : ext) : num := match x with NegInf => neg_inf | Fin z => NInt z | PosInf => pos_inf end.
Definition of_hpoint (p : hpoint) : fhpoint :=
  FHP (hp_attrs p) (hp_start p) (hp_time p) (hp_count p) (NInt (hp_sum p)) (hp_counts p) (map NInt (hp_bounds p))
    (of_ext (hp_min p)) (of_ext (hp_max p)).
(** The answers to a history, given what the collections in it return: nothing raises. *)
Fixpoint answers {P} (h : list icall) (ps : list (option P)) : list (fans P) :=
  match h, ps with
  | Call _ :: h', _ => FDone :: answers h' ps
  | Read _ :: h', p :: ps' => FPoint p :: answers h' ps'
  | _, _ => []
  end.
(** [x] is not above [y]; if [x] is NaN, so is [y]. *)
Definition at_most (x y : num) : Prop := forall b, value_of y = Some b -> exists a, value_of x = Some a /\ xle a b.
(** An observable instrument's callback observes a float, the reader collects, and so on. *)
Definition observed (xs : list (pyfloat * Z)) : list fcall := flat_map (fun o => [FCall (NFloat (fst o)); FRead (snd o)]) xs.
(** The value observed before the [i]th. *)
Definition before (xs : list (pyfloat * Z)) (i : nat) : R :=
  match i with O => 0 | S j => match nth_error xs j with Some (y, _) => B2R y | None => 0 end end.
