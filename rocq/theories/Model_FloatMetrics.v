(** Metric aggregations on Python numbers, ints and floats.

    Sources: opentelemetry-sdk/src/opentelemetry/sdk/metrics/_internal/aggregation.py 165-612, instrument.py 153-296.

    This is Model_Metrics.v with the numbers of Model_Float.v instead of integers: an addition can round, and it can raise
    OverflowError, which leaves [aggregate] or [collect] where it is (the lock is given back). *)
From Verif Require Export Model_Metrics Model_Float.
Local Open Scope Z_scope.

(** A point: [NumberDataPoint]; gauges have no start time. *)
Record fpoint := FP { fp_attrs : mattrs; fp_start : option Z; fp_time : Z; fp_value : num }.

(** ** Sum: aggregation.py 165-403 *)
Record fsum := FSum {
  fs_attrs : mattrs; fs_instr : temporality; fs_start : Z; fs_value : option num; fs_prev_start : Z; fs_prev : num }.
(** [__init__] 166-185 *)
Definition fsum_new (attrs : mattrs) (instr : temporality) (start : Z) : fsum := FSum attrs instr start None start (NInt 0).
(** [aggregate] 187-196; also: whether it raises *)
Definition fsum_aggregate (a : fsum) (v : num) : fsum * bool :=
  let cur := match fs_value a with None => NInt 0 | Some x => x end in
  let upd x := FSum (fs_attrs a) (fs_instr a) (fs_start a) (Some x) (fs_prev_start a) (fs_prev a) in
  match num_add cur v with
  | Some x => (upd x, false)
  | None => (upd cur, true)
  end.
(** [collect] 198-403; None: it raises *)
Definition fsum_collect (a : fsum) (t : temporality) (now : Z) : fsum * option (option fpoint) :=
  let value := fs_value a in
  let upd prev_start prev := FSum (fs_attrs a) (fs_instr a) (fs_start a) None prev_start prev in
  let point start v := Some (Some (FP (fs_attrs a) (Some start) now v)) in
  if is_delta (fs_instr a) then
    if is_delta t then
      (upd now (fs_prev a), match value with None => Some None | Some v => point (fs_prev_start a) v end)
    else
      let v := match value with None => NInt 0 | Some v => v end in
      match num_add v (fs_prev a) with
      | Some prev => (upd (fs_prev_start a) prev, point (fs_start a) prev)
      | None => (upd (fs_prev_start a) (fs_prev a), None)
      end
  else
    match value with
    | None => (upd (fs_prev_start a) (fs_prev a), Some None)
    | Some v =>
        if is_delta t then
          match num_sub v (fs_prev a) with
          | Some d => (upd now v, point (fs_prev_start a) d)
          | None => (upd (fs_prev_start a) (fs_prev a), None)
          end
        else (upd (fs_prev_start a) (fs_prev a), point (fs_start a) v)
    end.

(** ** Last value: aggregation.py 406-446 *)
Record flast := FLast { fl_attrs : mattrs; fl_value : option num }.
Definition flast_aggregate (a : flast) (v : num) : flast := FLast (fl_attrs a) (Some v).
Definition flast_collect (a : flast) (now : Z) : flast * option fpoint :=
  match fl_value a with
  | None => (a, None)
  | Some v => (FLast (fl_attrs a) None, Some (FP (fl_attrs a) None now v))
  end.

(** ** Explicit bucket histogram: aggregation.py 467-612 *)

(** [bisect.bisect_left(a, x)] *)
Fixpoint fbisect_loop (fuel : nat) (a : list num) (x : num) (lo hi : nat) : nat :=
  match fuel with
  | O => lo
  | S f =>
      if Nat.ltb lo hi then
        let mid := Nat.div (lo + hi) 2 in
        if num_ltb (nth mid a (NInt 0)) x then fbisect_loop f a x (S mid) hi else fbisect_loop f a x lo mid
      else lo
  end.
Definition fbisect_left (a : list num) (x : num) : nat := fbisect_loop (length a) a x 0 (length a).

(** [HistogramDataPoint] *)
Record fhpoint := FHP {
  fhp_attrs : mattrs; fhp_start : Z; fhp_time : Z; fhp_count : Z; fhp_sum : num;
  fhp_counts : list Z; fhp_bounds : list num; fhp_min : num; fhp_max : num }.
Record fhist := FHist {
  fh_attrs : mattrs; fh_instr : temporality; fh_start : Z; fh_bounds : list num; fh_record : bool;
  fh_value : option (list Z); fh_min : num; fh_max : num; fh_sum : num;
  fh_prev : option (list Z); fh_prev_min : num; fh_prev_max : num; fh_prev_sum : num; fh_prev_start : Z }.
(** [__init__] 468-505 (the boundaries already chosen) *)
Definition fhist_new (attrs : mattrs) (instr : temporality) (start : Z) (bounds : list num) (record : bool) : fhist :=
  FHist attrs instr start bounds record None pos_inf neg_inf (NInt 0) None pos_inf neg_inf (NInt 0) start.
(** [_get_empty_bucket_counts] 507-508 *)
Definition fempty_counts (bounds : list num) : list Z := repeat 0 (S (length bounds)).
(** [aggregate] 510-527; also: whether it raises *)
Definition fhist_aggregate (a : fhist) (v : num) : fhist * bool :=
  let value := match fh_value a with None => fempty_counts (fh_bounds a) | Some c => c end in
  let upd value mn mx sum :=
    FHist (fh_attrs a) (fh_instr a) (fh_start a) (fh_bounds a) (fh_record a) (Some value) mn mx sum
      (fh_prev a) (fh_prev_min a) (fh_prev_max a) (fh_prev_sum a) (fh_prev_start a) in
  match num_add (fh_sum a) v with
  | None => (upd value (fh_min a) (fh_max a) (fh_sum a), true)
  | Some sum =>
      let mn := if fh_record a then num_min (fh_min a) v else fh_min a in
      let mx := if fh_record a then num_max (fh_max a) v else fh_max a in
      (upd (incr_nth value (fbisect_left (fh_bounds a) v)) mn mx sum, false)
  end.
(** [collect] 529-612; None: it raises *)
Definition fhist_collect (a : fhist) (t : temporality) (now : Z) : fhist * option (option fhpoint) :=
  let upd prev pmin pmax psum pstart :=
    FHist (fh_attrs a) (fh_instr a) (fh_start a) (fh_bounds a) (fh_record a)
      None pos_inf neg_inf (NInt 0) prev pmin pmax psum pstart in
  if is_delta (fh_instr a) then
    if is_delta t then
      (upd (fh_prev a) (fh_prev_min a) (fh_prev_max a) (fh_prev_sum a) now,
       match fh_value a with
       | None => Some None
       | Some c => Some (Some (FHP (fh_attrs a) (fh_prev_start a) now (zsum c) (fh_sum a) c (fh_bounds a) (fh_min a) (fh_max a)))
       end)
    else
      let value := match fh_value a with None => fempty_counts (fh_bounds a) | Some c => c end in
      let prev0 := match fh_prev a with None => fempty_counts (fh_bounds a) | Some c => c end in
      let prev := zip_add value prev0 in
      let pmin := num_min (fh_min a) (fh_prev_min a) in
      let pmax := num_max (fh_max a) (fh_prev_max a) in
      match num_add (fh_sum a) (fh_prev_sum a) with
      | None => (upd (Some prev) pmin pmax (fh_prev_sum a) (fh_prev_start a), None)
      | Some psum =>
          (upd (Some prev) pmin pmax psum (fh_prev_start a),
           Some (Some (FHP (fh_attrs a) (fh_start a) now (zsum prev) psum prev (fh_bounds a) pmin pmax)))
      end
  else (upd (fh_prev a) (fh_prev_min a) (fh_prev_max a) (fh_prev_sum a) (fh_prev_start a), Some None).

(** ** One aggregation with its instrument: calls and collections one after the other (the locks) *)

(** instrument.py 160-296: the amount that becomes a measurement, if any; [amount < 0] is False for NaN. *)
Definition foffered (k : ikind) (amount : num) : option num :=
  match k with
  | ICounter | IHistogram => if num_ltb amount (NInt 0) then None else Some amount
  | _ => Some amount
  end.
Inductive fcall := FCall (amount : num) | FRead (now : Z).
(** What a call or a collection does: it returns (whether or not the amount was taken), returns a point or none, or raises
    OverflowError. *)
Inductive fans (P : Type) := FDone | FPoint (p : option P) | FOverflow.
Arguments FDone {P}. Arguments FPoint {P}. Arguments FOverflow {P}.
Section Run.
Context {A P : Type} (agg1 : A -> num -> A * bool) (col1 : A -> Z -> A * option (option P)) (k : ikind).
Definition fstep (a : A) (c : fcall) : A * fans P :=
  match c with
  | FCall amount =>
      match foffered k amount with
      | None => (a, FDone)
      | Some v => let (a', raised) := agg1 a v in (a', if raised then FOverflow else FDone)
      end
  | FRead now => let (a', r) := col1 a now in (a', match r with None => FOverflow | Some p => FPoint p end)
  end.
(** The answers, one for each call. *)
Fixpoint frun (a : A) (h : list fcall) : A * list (fans P) :=
  match h with
  | [] => (a, [])
  | c :: h' => let (a1, r) := fstep a c in let (a2, rs) := frun a1 h' in (a2, r :: rs)
  end.
End Run.
(** A sum for an instrument of kind [k], read with temporality [t]; and a histogram. *)
Definition run_sum (k : ikind) (t : temporality) (attrs : mattrs) (start : Z) (h : list fcall) : list (fans fpoint) :=
  snd (frun fsum_aggregate (fun a now => fsum_collect a t now) k (fsum_new attrs (instr_temporality k) start) h).
Definition run_hist (k : ikind) (t : temporality) (attrs : mattrs) (start : Z) (bounds : list num) (record : bool) (h : list fcall)
  : list (fans fhpoint) :=
  snd (frun fhist_aggregate (fun a now => fhist_collect a t now) k
         (fhist_new attrs (instr_temporality k) start bounds record) h).
Definition run_last (k : ikind) (attrs : mattrs) (h : list fcall) : list (fans fpoint) :=
  snd (frun (fun a v => (flast_aggregate a v, false)) (fun a now => let (a', p) := flast_collect a now in (a', Some p)) k
         (FLast attrs None) h).
