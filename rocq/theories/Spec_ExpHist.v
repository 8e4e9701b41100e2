(** Specification vocabulary for exponential histograms. *)
From Coq Require Export QArith.
From Verif Require Export Spec_Metrics Model_ExpHist.
Local Open Scope Z_scope.

(** The positive finite doubles, in units of 2^-1074, and their values. *)
Definition is_double (n : Z) : Prop := exists m k, 0 < m < 2 ^ 53 /\ 0 <= k <= 2045 /\ n = m * 2 ^ k.
Definition real (n : Z) : Q := (inject_Z n * Qpower 2 (-1074))%Q.

(** Bucket [i] of a scale is (base^i, base^(i+1)] with base = 2^(2^-scale).  For a positive scale both
    sides are raised to the power 2^scale to stay in the rationals. *)
Definition in_exp_bucket (scale i : Z) (v : Q) : Prop :=
  if scale <=? 0
  then (Qpower 2 (i * 2 ^ (- scale)) < v <= Qpower 2 ((i + 1) * 2 ^ (- scale)))%Q
  else (Qpower 2 i < Qpower v (2 ^ scale) <= Qpower 2 (i + 1))%Q.

(** What [floor(log(value) * factor)] would be without rounding: the largest i with 2^i <= v^(2^scale). *)
Definition exact_log_floor (scale n : Z) : Z := Z.log2 (n ^ (2 ^ scale)) - 1074 * 2 ^ scale.
(** All that is needed of it: one scale down, the index is halved. *)
Definition log_consistent (log_floor : Z -> Z -> Z) : Prop :=
  forall s n, 1 <= s <= 20 -> is_double n -> map_to_index log_floor (s - 1) n = Z.shiftr (map_to_index log_floor s n) 1.

(** ** Buckets as seen from outside: offset and counts *)
Definition count_at (b : buckets) (i : Z) : Z :=
  if i <? b_start b then 0 else nth (Z.to_nat (i - b_start b)) (get_offset_counts b) 0.
(** Adding to buckets as [aggregate] does, and scaling down. *)
Inductive bop := BAdd (i d : Z) | BDown (k : Z).
Definition b_add (max_size : Z) (b : buckets) (i d : Z) : option buckets :=
  let b := if b_len b =? 0 then B (b_counts b) i i i else b in
  add_index (make_room b i max_size) i d.
Definition b_apply (max_size : Z) (b : option buckets) (o : bop) : option buckets :=
  match b, o with
  | None, _ => None
  | Some b, BAdd i d => b_add max_size b i d
  | Some b, BDown k => Some (downscale_by b k)
  end.
Definition b_run (max_size : Z) (ops : list bop) : option buckets := fold_left (b_apply max_size) ops (Some b_new).
(** The contents: the indexes added, in order. *)
Definition contents (ops : list bop) : list Z :=
  fold_left (fun l o => match o with
                        | BAdd i d => l ++ repeat i (Z.to_nat d)
                        | BDown k => map (fun i => Z.shiftr i k) l
                        end) ops [].
Definition within (max_size : Z) (l : list Z) : Prop := forall x y, In x l -> In y l -> x - y < max_size.
Definition respects (max_size : Z) (ops : list bop) : Prop :=
  Forall (fun o => match o with BAdd _ d => 0 < d | BDown k => 0 <= k end) ops
  /\ forall n, within max_size (contents (firstn n ops)).

(** ** Points *)
(** [counts] from [offset] on are the numbers of elements of [l] with each index. *)
Definition shows (index : Z -> Z) (max_size : Z) (l : list Z) (offset : Z) (counts : list Z) : Prop :=
  Z.of_nat (length counts) <= max_size
  /\ (forall v, In v l -> offset <= index v < offset + Z.of_nat (length counts))
  /\ forall j, (j < length counts)%nat -> nth j counts 0 = count_in (fun v => index v =? offset + Z.of_nat j) l.
Definition positives (l : list Z) : list Z := filter (fun v => 0 <? v) l.
Definition negatives (l : list Z) : list Z := map Z.opp (filter (fun v => v <? 0) l).
Definition measurable (v : Z) : Prop := v = 0 \/ is_double (Z.abs v).

Definition exp_histogram_of (log_floor : Z -> Z -> Z) (max_size : Z) (l : list Z) (p : epoint) : Prop :=
  ep_count p = Z.of_nat (length l)
  /\ ep_sum p = total l
  /\ is_min l (ep_min p) /\ is_max l (ep_max p)
  /\ ep_zero p = count_in (fun v => v =? 0) l
  /\ exists scale, ep_scale p = Some scale /\ -10 <= scale <= 20
     /\ shows (map_to_index log_floor scale) max_size (positives l) (ep_pos_offset p) (ep_pos_counts p)
     /\ shows (map_to_index log_floor scale) max_size (negatives l) (ep_neg_offset p) (ep_neg_counts p).

(** Before the first collection something was measured; later, no interval has the first positive or the
    first negative measurement of all. *)
Definition settled (w : window) : Prop :=
  match w_before w with
  | [] => w_since w <> []
  | b => (positives (w_since w) <> [] -> positives (measured b) <> [])
         /\ (negatives (w_since w) <> [] -> negatives (measured b) <> [])
  end.
