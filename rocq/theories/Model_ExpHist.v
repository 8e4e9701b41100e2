(** The exponential histogram: value-to-index mapping, circular buckets, aggregation.

    Sources (under opentelemetry-sdk/src/opentelemetry/sdk/metrics/_internal/):
    exponential_histogram/mapping/{ieee_754,exponent_mapping,logarithm_mapping,__init__}.py,
    exponential_histogram/buckets.py, aggregation.py 616-1190.

    A measured value is an integer in units of 2^-1074, of which every finite double is a multiple.
    Sums are exact here: rounding is not modelled, and neither are nan, infinities and integers that
    are not exactly a double.  Exemplars are in Model_Exemplar.v. *)
From Verif Require Export Model_Metrics.
Local Open Scope Z_scope.

(** ** ieee_754.py 20-58 *)
Definition MANTISSA_WIDTH : Z := 52.
Definition EXPONENT_WIDTH : Z := 11.
Definition MANTISSA_MASK : Z := Z.shiftl 1 MANTISSA_WIDTH - 1.
Definition EXPONENT_BIAS : Z := 2 ^ (EXPONENT_WIDTH - 1) - 1.
Definition EXPONENT_MASK : Z := Z.shiftl (Z.shiftl 1 EXPONENT_WIDTH - 1) MANTISSA_WIDTH.
Definition MIN_NORMAL_EXPONENT : Z := - EXPONENT_BIAS + 1.
Definition MAX_NORMAL_EXPONENT : Z := EXPONENT_BIAS.
(** [float_info.min] is 2^-1022. *)
Definition MIN_NORMAL_VALUE : Z := 2 ^ 52.

(** [c_uint64.from_buffer(c_double(value)).value] for a positive double of [n] units: the biased
    exponent (0 for a subnormal) in bits 52-62, the fraction in bits 0-51. *)
Definition bits64 (n : Z) : Z :=
  if n <? 2 ^ 52 then n
  else let shift := Z.log2 n - 52 in (shift + 1) * 2 ^ 52 + (Z.shiftr n shift - 2 ^ 52).
(** 62-108 [get_ieee_754_exponent], 111-117 [get_ieee_754_mantissa] *)
Definition get_ieee_754_exponent (n : Z) : Z :=
  Z.shiftr (Z.land (bits64 n) EXPONENT_MASK) MANTISSA_WIDTH - EXPONENT_BIAS.
Definition get_ieee_754_mantissa (n : Z) : Z := Z.land (bits64 n) MANTISSA_MASK.

(** ** exponent_mapping.py *)
(** [_init] 54-87: [_min_normal_lower_boundary_index], [_max_normal_lower_boundary_index] *)
Definition exponent_min_index (scale : Z) : Z :=
  let index := Z.shiftr MIN_NORMAL_EXPONENT (- scale) in
  if - scale <? 2 then index - 1 else index.
Definition exponent_max_index (scale : Z) : Z := Z.shiftr MAX_NORMAL_EXPONENT (- scale).
(** [map_to_index] 89-130 *)
Definition exponent_index (scale n : Z) : Z :=
  if n <? MIN_NORMAL_VALUE then exponent_min_index scale
  else
    let exponent := get_ieee_754_exponent n in
    let correction := Z.shiftr (get_ieee_754_mantissa n - 1) MANTISSA_WIDTH in
    Z.shiftr (exponent + correction) (- scale).
(** [get_lower_boundary] 132-139: the exponent of the power of two that is returned. *)
Inductive boundary := Boundary (exponent : Z) | Underflow | Overflow.
Definition exponent_lower_boundary (scale index : Z) : boundary :=
  if index <? exponent_min_index scale then Underflow
  else if exponent_max_index scale <? index then Overflow
  else Boundary (Z.shiftl index (- scale)).

Section Log.
(** [floor(log(value) * self._scale_factor)] of logarithm_mapping.py 110, where [_scale_factor] is
    [ldexp(1 / log(2), scale)]: floating point, a parameter. *)
Variable log_floor : Z -> Z -> Z.

(** ** logarithm_mapping.py [_init] 52-92, [map_to_index] 94-112 *)
Definition log_min_index (scale : Z) : Z := Z.shiftl MIN_NORMAL_EXPONENT scale.
Definition log_max_index (scale : Z) : Z := Z.shiftl (MAX_NORMAL_EXPONENT + 1) scale - 1.
Definition log_index (scale n : Z) : Z :=
  if n <=? MIN_NORMAL_VALUE then log_min_index scale - 1
  else if get_ieee_754_mantissa n =? 0 then Z.shiftl (get_ieee_754_exponent n) scale - 1
  else Z.min (log_floor scale n) (log_max_index scale).

(** aggregation.py 1103-1107 [_new_mapping] and the range checks of mapping/__init__.py 39-48
    (exponent_mapping.py 41-51, logarithm_mapping.py 40-50): a mapping is its scale; [None]: raises.
    (The cache of mappings is [mapping_call] below.) *)
Definition new_mapping (scale : Z) : option Z :=
  if scale <=? 0 then if scale <? -10 then None else Some scale
  else if 20 <? scale then None else Some scale.
Definition map_to_index (scale n : Z) : Z :=
  if scale <=? 0 then exponent_index scale n else log_index scale n.

(** mapping/__init__.py 24-36 [__new__] with the class's cache: the entry is stored before [_init]
    checks the scale.  [true]: initialised. *)
Inductive mapping_result := MappingOf (scale : Z) | MappingError | MappingBroken.
Definition mapping_call (cache : dict Z bool) (scale : Z) : dict Z bool * mapping_result :=
  match dget scale cache with
  | Some true => (cache, MappingOf scale)
  | Some false => (cache, MappingBroken)
  | None =>
      match new_mapping scale with
      | Some _ => (dset scale true cache, MappingOf scale)
      | None => (dset scale false cache, MappingError)
      end
  end.

(** ** buckets.py *)
Record buckets := B { b_counts : list Z; b_base : Z; b_start : Z; b_end : Z }.
(** [__init__] 22-47 *)
Definition b_new : buckets := B [0] 0 0 0.

(** Python slices [l[i:]] and [l[:i]]; a negative [i] counts from the end. *)
Definition pos_of (i : Z) (n : nat) : nat :=
  if i <? 0 then Z.to_nat (Z.of_nat n + i) else Z.to_nat i.
Definition slice_from (i : Z) (l : list Z) : list Z := skipn (pos_of i (length l)) l.
Definition slice_to (i : Z) (l : list Z) : list Z := firstn (pos_of i (length l)) l.
(** [l[i]] and [l[i] += d] *)
Definition in_range (i : Z) (l : list Z) : bool :=
  (- Z.of_nat (length l) <=? i) && (i <? Z.of_nat (length l)).
Definition item (i : Z) (l : list Z) : Z := nth (pos_of i (length l)) l 0.
Fixpoint add_at (p : nat) (d : Z) (l : list Z) : list Z :=
  match l, p with
  | [], _ => []
  | x :: l', O => (x + d) :: l'
  | x :: l', S p' => x :: add_at p' d l'
  end.

(** [get_offset_counts] 79-81 *)
Definition get_offset_counts (b : buckets) : list Z :=
  let bias := b_base b - b_start b in
  slice_from (- bias) (b_counts b) ++ slice_to (- bias) (b_counts b).

(** [grow] 83-108; [2 ** ceil(log2(needed))] is the next power of two. *)
Definition grow (b : buckets) (needed max_size : Z) : buckets :=
  let size := Z.of_nat (length (b_counts b)) in
  let bias := b_base b - b_start b in
  let old_positive_limit := size - bias in
  let new_size := Z.min (2 ^ Z.log2_up needed) max_size in
  let new_positive_limit := new_size - bias in
  let tmp := repeat 0 (Z.to_nat new_size) in
  let tmp := slice_to new_positive_limit tmp ++ slice_from old_positive_limit (b_counts b) in
  let tmp := slice_to old_positive_limit (b_counts b) ++ slice_from old_positive_limit tmp in
  B tmp (b_base b) (b_start b) (b_end b).

(** [__getitem__] 124-132, [__len__] 114-122 *)
Definition b_item (b : buckets) (key : Z) : Z :=
  let bias := b_base b - b_start b in
  let key := if key <? bias then key + Z.of_nat (length (b_counts b)) else key in
  item (key - bias) (b_counts b).
Definition b_len (b : buckets) : Z :=
  match b_counts b with
  | [] => 0
  | _ => if (b_end b =? b_start b) && (b_item b 0 =? 0) then 0 else b_end b - b_start b + 1
  end.

(** [downscale] 134-181.  The inner loop (165-174) moves bucket [inpos] to [outpos]; each loop has
    as much fuel as there are buckets. *)
Fixpoint collapse_inner (fuel : nat) (each size index : Z) (c : list Z) (inpos outpos pos : Z)
  : list Z * Z * Z :=
  match fuel with
  | O => (c, inpos, pos)
  | S f =>
      if (index <? each) && (inpos <? size) then
        let c := if outpos =? inpos then c
                 else let x := item inpos c in
                      add_at (Z.to_nat inpos) (- x) (add_at (Z.to_nat outpos) x c) in
        collapse_inner f each size (index + 1) c (inpos + 1) outpos (pos + 1)
      else (c, inpos, pos)
  end.
Fixpoint collapse (fuel : nat) (each size stop : Z) (c : list Z) (inpos outpos pos : Z) : list Z :=
  match fuel with
  | O => c
  | S f =>
      if pos <=? stop then
        let '(c, inpos, pos) :=
          collapse_inner (Z.to_nat size) each size (pos mod each) c inpos outpos pos in
        collapse f each size stop c inpos (outpos + 1) pos
      else c
  end.
Definition downscale (b : buckets) (amount : Z) : buckets :=
  let bias := b_base b - b_start b in
  let c :=
    if bias =? 0 then b_counts b
    else let r := rev (b_counts b) in rev (slice_to bias r) ++ rev (slice_from bias r) in
  let size := 1 + b_end b - b_start b in
  let each := Z.shiftl 1 amount in
  B (collapse (Z.to_nat size) each size (b_end b) c 0 0 (b_start b))
    (Z.shiftr (b_start b) amount) (Z.shiftr (b_start b) amount) (Z.shiftr (b_end b) amount).
(** [increment_bucket] 183-184; [None]: IndexError *)
Definition increment_bucket (b : buckets) (i d : Z) : option buckets :=
  if in_range i (b_counts b)
  then Some (B (add_at (pos_of i (length (b_counts b))) d (b_counts b)) (b_base b) (b_start b) (b_end b))
  else None.
(** [copy_empty] 186-197 *)
Definition copy_empty (b : buckets) : buckets :=
  B (map (fun _ => 0) (b_counts b)) (b_base b) (b_start b) (b_end b).

(** ** aggregation.py 616-1190 *)
(** What is kept for the current interval ([_value_positive], ...) and for all before it
    ([_previous_value_positive], ...): 694-711. *)
Record einterval := EI {
  ei_pos : option buckets; ei_neg : option buckets;
  ei_min : ext; ei_max : ext; ei_sum : Z; ei_count : Z; ei_zero : Z; ei_scale : option Z
}.
Definition ei_empty : einterval := EI None None PosInf NegInf 0 0 0 None.
Record ehist := EH {
  eh_attrs : mattrs; eh_instr : temporality; eh_start : Z; eh_max_size : Z;
  eh_mapping : Z;                    (* the scale of _mapping *)
  eh_cur : einterval; eh_prev : einterval; eh_prev_start : Z
}.
(** [__init__] 628-709; [None]: raises *)
Definition eh_new (attrs : mattrs) (instr : temporality) (start max_size max_scale : Z) : option ehist :=
  if (max_size <? 2) || (16384 <? max_size) then None
  else match new_mapping max_scale with
       | None => None
       | Some m => Some (EH attrs instr start max_size m ei_empty ei_empty start)
       end.

(** [_get_scale_change] 1109-1118: each round halves the difference. *)
Fixpoint scale_change_loop (fuel : nat) (max_size low high : Z) : Z :=
  match fuel with
  | O => 0
  | S f => if max_size <=? high - low
           then 1 + scale_change_loop f max_size (Z.shiftr low 1) (Z.shiftr high 1) else 0
  end.
Definition get_scale_change (max_size low high : Z) : Z :=
  scale_change_loop (Z.to_nat (Z.log2 (high - low) + 2)) max_size low high.
(** [_downscale] 1120-1130 for a change that is not negative *)
Definition downscale_by (b : buckets) (change : Z) : buckets :=
  if change =? 0 then b else downscale b change.

(** Lines 786-817 of [aggregate] (and 1153-1190 of [_merge], there with a check of the span): make room
    for [index] and add [d] there. *)
Definition make_room (b : buckets) (index max_size : Z) : buckets :=
  if index <? b_start b then
    let span := b_end b - index in
    let b := if Z.of_nat (length (b_counts b)) <=? span then grow b (span + 1) max_size else b in
    B (b_counts b) (b_base b) index (b_end b)
  else if b_end b <? index then
    let span := index - b_start b in
    let b := if Z.of_nat (length (b_counts b)) <=? span then grow b (span + 1) max_size else b in
    B (b_counts b) (b_base b) (b_start b) index
  else b.
Definition add_index (b : buckets) (index d : Z) : option buckets :=
  let i := index - b_base b in
  increment_bucket b (if i <? 0 then i + Z.of_nat (length (b_counts b)) else i) d.

Definition or_new (b : option buckets) : buckets := match b with Some b => b | None => b_new end.
(** [aggregate] 711-822; [false]: raised (and what was done until then). *)
Definition eh_aggregate (h : ehist) (v : Z) : ehist * bool :=
  let c := eh_cur h in
  let pos := or_new (ei_pos c) in
  let neg := or_new (ei_neg c) in
  let mn := ext_min (ei_min c) (Fin v) in
  let mx := ext_max (ei_max c) (Fin v) in
  let sum := ei_sum c + v in
  let count := ei_count c + 1 in
  let upd pos neg zero scale mapping :=
    EH (eh_attrs h) (eh_instr h) (eh_start h) (eh_max_size h) mapping
       (EI (Some pos) (Some neg) mn mx sum count zero scale) (eh_prev h) (eh_prev_start h) in
  if v =? 0 then
    let zero := ei_zero c + 1 in
    (upd pos neg zero (if count =? zero then Some 0 else ei_scale c) (eh_mapping h), true)
  else
    let positive := 0 <? v in
    let a := if positive then v else - v in
    let both this other := if positive then (this, other) else (other, this) in
    let (this, other) := if positive then (pos, neg) else (neg, pos) in
    let put this other scale mapping :=
      let (p, n) := both this other in upd p n (ei_zero c) scale mapping in
    let index := map_to_index (eh_mapping h) a in
    let max_size := eh_max_size h in
    let empty := b_len this =? 0 in
    let this := if empty then B (b_counts this) index index index else this in
    let rescale :=
      if empty then None
      else if (index <? b_start this) && (max_size <=? b_end this - index) then Some (index, b_end this)
      else if (b_end this <? index) && (max_size <=? index - b_start this) then Some (b_start this, index)
      else None in
    let finish this other mapping index :=
      let this := make_room this index max_size in
      match add_index this index 1 with
      | Some this => (put this other (Some mapping) mapping, true)
      | None => (put this other (Some mapping) mapping, false)
      end in
    match rescale with
    | None => finish this other (eh_mapping h) index
    | Some (low, high) =>
        let change := get_scale_change max_size low high in
        let this := downscale_by this change in
        let other := downscale_by other change in
        match new_mapping (eh_mapping h - change) with
        | None => (put this other (ei_scale c) (eh_mapping h), false)
        | Some m => finish this other m (map_to_index m a)
        end
    end.

(** point.py [ExponentialHistogramDataPoint] (flags are always 0), [Buckets] *)
Record epoint := EP {
  ep_attrs : mattrs; ep_start : Z; ep_time : Z; ep_count : Z; ep_sum : Z; ep_scale : option Z; ep_zero : Z;
  ep_pos_offset : Z; ep_pos_counts : list Z; ep_neg_offset : Z; ep_neg_counts : list Z;
  ep_min : ext; ep_max : ext
}.
Definition point_of (attrs : mattrs) (start now : Z) (i : einterval) (pos neg : buckets) : epoint :=
  EP attrs start now (ei_count i) (ei_sum i) (ei_scale i) (ei_zero i)
    (b_start pos) (get_offset_counts pos) (b_start neg) (get_offset_counts neg) (ei_min i) (ei_max i).

(** [_get_low_high] 1094-1101, [_get_low_high_previous_current] 1066-1092 *)
Definition get_low_high (b : buckets) (scale min_scale : Z) : Z * Z :=
  match b_counts b with
  | [0] => (0, -1)
  | _ => (Z.shiftr (b_start b) (scale - min_scale), Z.shiftr (b_end b) (scale - min_scale))
  end.
Definition get_low_high_both (prev cur : buckets) (prev_scale scale min_scale : Z) : Z * Z :=
  let (pl, ph) := get_low_high prev prev_scale min_scale in
  let (cl, ch) := get_low_high cur scale min_scale in
  if ch <? cl then (pl, ph) else if ph <? pl then (cl, ch) else (Z.min pl cl, Z.max ph ch).

(** [_merge] 1132-1190; [false]: "Incorrect merge scale" (or IndexError), with what was merged so far. *)
Definition merge_one (max_size : Z) (prev : buckets) (index d : Z) : buckets * bool :=
  if (index <? b_start prev) && (max_size <=? b_end prev - index) then (prev, false)
  else
    let prev1 := if index <? b_start prev then make_room prev index max_size else prev in
    if (b_end prev1 <? index) && (max_size <=? index - b_start prev1) then (prev1, false)
    else
      let prev2 := if b_end prev1 <? index then make_room prev1 index max_size else prev1 in
      match add_index prev2 index d with Some b => (b, true) | None => (prev2, false) end.
Fixpoint merge_from (max_size : Z) (prev cur : buckets) (change : Z) (i : Z) (l : list Z) : buckets * bool :=
  match l with
  | [] => (prev, true)
  | x :: l' =>
      if x =? 0 then merge_from max_size prev cur change (i + 1) l'
      else
        let ci := b_base cur + i in
        let ci := if b_end cur <? ci then ci - Z.of_nat (length (b_counts cur)) else ci in
        let (prev, ok) := merge_one max_size prev (Z.shiftr ci change) x in
        if ok then merge_from max_size prev cur change (i + 1) l' else (prev, false)
  end.
(** (The temporality passed is never DELTA here: the call is in the cumulative branch.) *)
Definition merge (max_size : Z) (prev cur : buckets) (scale min_scale : Z) : buckets * bool :=
  merge_from max_size prev cur (scale - min_scale) 0 (b_counts cur).

(** [collect] 824-1064 *)
Inductive ecollected := ENone | EPoint (p : epoint) | ERaised.
(** 914-959: previous and current buckets of one side, and the two scales *)
Definition pair_up {X} (cur prev : option X) (fresh : X) (empty : X -> X) : X * X :=
  match cur, prev with
  | None, None => (fresh, empty fresh)
  | Some c, None => (c, empty c)
  | None, Some p => (empty p, p)
  | Some c, Some p => (c, p)
  end.
Definition eh_collect (h : ehist) (t : temporality) (now : Z) : ehist * ecollected :=
  let c := eh_cur h in
  let p := eh_prev h in
  let upd prev prev_start :=
    EH (eh_attrs h) (eh_instr h) (eh_start h) (eh_max_size h) (eh_mapping h) ei_empty prev prev_start in
  if is_delta (eh_instr h) then
    if is_delta t then
      (upd p now,
       match ei_pos c, ei_neg c with
       | None, None => ENone
       | Some pos, Some neg => EPoint (point_of (eh_attrs h) (eh_prev_start h) now c pos neg)
       | _, _ => ERaised
       end)
    else
      let (pos, ppos) := pair_up (ei_pos c) (ei_pos p) b_new copy_empty in
      let (neg, pneg) := pair_up (ei_neg c) (ei_neg p) b_new copy_empty in
      let (scale, pscale) := pair_up (ei_scale c) (ei_scale p) (eh_mapping h) (fun s => s) in
      let ms := Z.min pscale scale in
      let (lp, hp) := get_low_high_both ppos pos pscale scale ms in
      let (ln, hn) := get_low_high_both pneg neg pscale scale ms in
      let ms := Z.min (ms - get_scale_change (eh_max_size h) lp hp) (ms - get_scale_change (eh_max_size h) ln hn) in
      let ppos := downscale_by ppos (pscale - ms) in
      let pneg := downscale_by pneg (pscale - ms) in
      let stuck pp pn :=
        (upd (EI (Some pp) (Some pn) (ei_min p) (ei_max p) (ei_sum p) (ei_count p) (ei_zero p) (Some pscale))
           (eh_prev_start h), ERaised) in
      let (ppos, ok) := merge (eh_max_size h) ppos pos scale ms in
      if negb ok then stuck ppos pneg
      else
        let (pneg, ok) := merge (eh_max_size h) pneg neg scale ms in
        if negb ok then stuck ppos pneg
        else
          let prev := EI (Some ppos) (Some pneg) (ext_min (ei_min c) (ei_min p)) (ext_max (ei_max c) (ei_max p))
                        (ei_sum c + ei_sum p) (ei_count c + ei_count p) (ei_zero c + ei_zero p) (Some ms) in
          (upd prev (eh_prev_start h),
           EPoint (point_of (eh_attrs h) (eh_start h) now prev ppos pneg))
  else (upd p (eh_prev_start h), ENone).

(** Histories: [aggregate] and [collect] calls (each under the lock), with the results of both. *)
Record erun := ER { er_hist : ehist; er_ok : bool; er_points : list ecollected }.
Definition estep (t : temporality) (s : erun) (o : mop) : erun :=
  match o with
  | Measure v => let (h, ok) := eh_aggregate (er_hist s) v in ER h (er_ok s && ok) (er_points s)
  | Collect now =>
      let (h, r) := eh_collect (er_hist s) t now in
      ER h (er_ok s && match r with ERaised => false | _ => true end) (er_points s ++ [r])
  end.
Definition eh_run (t : temporality) (h : ehist) (l : list mop) : erun :=
  fold_left (estep t) l (ER h true []).
End Log.
