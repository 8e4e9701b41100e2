(** Property theorems C110: exponential histograms when logarithms are computed in floating point.
    [float_log_floor flog] is what LogarithmMapping computes with [flog] for math.log; [accurate_log flog] says that this is off by
    one unit in the last place at most, and [nearest_log] is the best there can be.  Measured values are integers standing for n *
    2^-1074, as in C42-C45; sums are exact here (C109 is about sums). *)
From Coq Require Import ZArith Reals Lia Lra List Bool.
From Flocq Require Import BinarySingleNaN.
From Verif Require Import Spec_FloatExp Proof_ExpMapping Proof_ExpExt Proof_FloatExp Proof_FloatExp2 Proof_FloatLn.
Import ListNotations.
Local Open Scope Z_scope.
Local Arguments total : simpl never.

(** The hypothesis on math.log can be met. *)
Theorem C110_accurate : accurate_log nearest_log.
Proof. exact nearest_accurate. Qed.
Print Assumptions C110_accurate.

(** The floor is always that of a finite number: mapping a value does not raise. *)
Theorem C110_finite :
  forall flog scale n, accurate_log flog -> 1 <= scale <= 20 -> is_double n -> MIN_NORMAL_VALUE < n -> n <> 2 ^ 1074 ->
  is_finite (log_product flog scale n) = true.
Proof.
  intros flog s n A Hs D N Ne. destruct (log_floor_value flog A n D) as (y & _ & Y); [unfold MIN_NORMAL_VALUE in N; lia|exact Ne|].
  apply Y. lia.
Qed.
Print Assumptions C110_finite.

(** Bucket i of a scale is (2^(i/2^scale), 2^((i+1)/2^scale)].  A value is in the bucket it is counted in up to a factor of
    2^(2^-39), which is less than 1 + 2^-39. *)
Theorem C110_bucket :
  forall flog scale n, accurate_log flog -> 1 <= scale <= 20 -> is_double n -> MIN_NORMAL_VALUE < n ->
  let i := map_to_index (float_log_floor flog) scale n in
  (Rpower 2 (IZR i / powerRZ 2 scale - / 2 ^ 39) < real_value n <= Rpower 2 (IZR (i + 1) / powerRZ 2 scale + / 2 ^ 39))%R.
Proof.
  intros flog s n A Hs D N. unfold map_to_index. destruct (Z.leb_spec s 0); [lia|]. exact (bucket_bound flog A s n Hs D N).
Qed.
Print Assumptions C110_bucket.

(** Lowering a positive scale to a positive scale halves indexes, whatever math.log's errors. *)
Theorem C110_scales :
  forall flog scale n, accurate_log flog -> 2 <= scale <= 20 -> is_double n ->
  map_to_index (float_log_floor flog) (scale - 1) n = Z.shiftr (map_to_index (float_log_floor flog) scale n) 1.
Proof. intros flog s n A. exact (high_scales flog A s n). Qed.
Print Assumptions C110_scales.
(** Also to scale 0 and below, where no logarithm is used, if the value is a power of two or not close to one. *)
Theorem C110_consistent_partial :
  forall flog scale n, accurate_log flog -> 1 <= scale <= 20 -> is_double n -> clear_of_powers n ->
  map_to_index (float_log_floor flog) (scale - 1) n = Z.shiftr (map_to_index (float_log_floor flog) scale n) 1.
Proof. intros flog s n A Hs D C. exact (clear_consistent flog A n D C s Hs). Qed.
Print Assumptions C110_consistent_partial.
(** Missing: values close to a power of two.  It is false of 4 - 2^-51 with the best possible logarithm: what C44 and C45 assume does
    not hold. *)
Theorem C110_consistent_refuted :
  ~ log_consistent (float_log_floor nearest_log)
  /\ exists n, is_double n /\ (real n == 4 - Qpower 2 (-51))%Q
     /\ map_to_index (float_log_floor nearest_log) 0 n = 1 /\ map_to_index (float_log_floor nearest_log) 1 n = 4.
Proof.
  assert (E : map_to_index (float_log_floor nearest_log) 1 below_4 = 4).
  { unfold map_to_index, log_index. cbn [Z.leb Z.compare]. rewrite table_below by lia. vm_compute. reflexivity. }
  split.
  - intros C. specialize (C 1 below_4 ltac:(lia) below_double). rewrite E in C. vm_compute in C. discriminate.
  - exists below_4. split; [exact below_double|]. split; [vm_compute; reflexivity|]. split; [vm_compute; reflexivity|exact E].
Qed.
Print Assumptions C110_consistent_refuted.

(** C44 and C45 for an accurate logarithm, if every measured value is zero, a power of two or clear of powers of two, or if the scale
    asked for is at most zero.  Missing: the other values, for which it is false. *)
Theorem C110_delta_partial :
  forall flog attrs start max_size max_scale h0 ops,
  accurate_log flog -> eh_new attrs DELTA start max_size max_scale = Some h0 -> Forall measurable (measured ops) ->
  max_scale <= 0 \/ Forall (fun v => clear_of_powers (Z.abs v)) (measured ops) ->
  er_ok (eh_run (float_log_floor flog) DELTA h0 ops) = true
  /\ Forall2 (fun w r => match w_since w with
                         | [] => r = ENone
                         | _ => exists p, r = EPoint p /\ exp_histogram_of (float_log_floor flog) max_size (w_since w) p
                                /\ ep_attrs p = attrs /\ ep_start p = previous_time start w /\ ep_time p = w_now w
                         end)
       (windows ops) (er_points (eh_run (float_log_floor flog) DELTA h0 ops)).
Proof.
  intros flog attrs start mx ms h0 ops A N M C. apply delta_on with (M := ms); auto. now apply clear_good.
Qed.
Print Assumptions C110_delta_partial.
Theorem C110_best_scale_partial :
  forall flog attrs start max_size max_scale h0 l now p,
  accurate_log flog -> eh_new attrs DELTA start max_size max_scale = Some h0 -> Forall measurable l ->
  Forall (fun v => clear_of_powers (Z.abs v)) l ->
  er_points (eh_run (float_log_floor flog) DELTA h0 (map Measure l ++ [Collect now])) = [EPoint p] -> (exists v, In v l /\ v <> 0) ->
  forall scale s, ep_scale p = Some scale -> scale < s <= max_scale ->
  ~ (within max_size (map (map_to_index (float_log_floor flog) s) (positives l))
     /\ within max_size (map (map_to_index (float_log_floor flog) s) (negatives l))).
Proof.
  intros flog attrs start mx ms h0 l now p A N M C. apply best_on with (attrs := attrs) (start := start) (h0 := h0) (now := now); auto.
  apply clear_good; auto.
Qed.
Print Assumptions C110_best_scale_partial.
Theorem C110_cumulative_partial :
  forall flog attrs start max_size max_scale h0 ops,
  accurate_log flog -> eh_new attrs DELTA start max_size max_scale = Some h0 -> Forall measurable (measured ops) ->
  max_scale <= 0 \/ Forall (fun v => clear_of_powers (Z.abs v)) (measured ops) ->
  (Forall settled (windows ops) -> er_ok (eh_run (float_log_floor flog) CUMULATIVE h0 ops) = true)
  /\ (er_ok (eh_run (float_log_floor flog) CUMULATIVE h0 ops) = true ->
      Forall2 (fun w r => exists p, r = EPoint p /\ exp_histogram_of (float_log_floor flog) max_size (so_far w) p
                          /\ ep_attrs p = attrs /\ ep_start p = start /\ ep_time p = w_now w)
        (windows ops) (er_points (eh_run (float_log_floor flog) CUMULATIVE h0 ops))).
Proof.
  intros flog attrs start mx ms h0 ops A N M C. pose proof (clear_good flog A ms (measured ops) M C) as G. split.
  - apply never_raises_on with (attrs := attrs) (start := start) (mx := mx) (M := ms); auto.
  - apply cumulative_on with (M := ms); auto.
Qed.
Print Assumptions C110_cumulative_partial.

(** With the default parameters and the best possible logarithm, a point that counts 2^162 in the bucket (2, 4]: *)
Theorem C110_delta_refuted :
  exists h0 p big n, eh_new [] DELTA 0 160 20 = Some h0 /\ measurable big /\ measurable n
  /\ (real big == Qpower 2 162)%Q /\ (real n == 4 - Qpower 2 (-51))%Q
  /\ er_points (eh_run (float_log_floor nearest_log) DELTA h0 [Measure big; Measure n; Collect 1]) = [EPoint p]
  /\ ep_scale p = Some 0 /\ ep_pos_offset p = 1 /\ nth 0 (ep_pos_counts p) 0 = 2 /\ total (ep_pos_counts p) = 2
  /\ in_exp_bucket 0 1 (real n) /\ ~ in_exp_bucket 0 1 (real big).
Proof.
  eexists. eexists. exists (2 ^ 1236), below_4. split; [vm_compute; reflexivity|].
  split. { right. exists 1, 1236. repeat split; lia. }
  split. { right. exact below_double. }
  split; [vm_compute; reflexivity|]. split; [vm_compute; reflexivity|].
  split. { rewrite table_run with (mx := 160); [vm_compute; reflexivity|vm_compute; reflexivity|now left|]. exists 1236. split; [lia|reflexivity]. }
  split; [reflexivity|]. split; [reflexivity|]. split; [reflexivity|]. split; [vm_compute; reflexivity|]. split.
  - unfold in_exp_bucket. cbn [Z.leb Z.compare]. split; vm_compute; [reflexivity|discriminate].
  - unfold in_exp_bucket. cbn [Z.leb Z.compare]. intros [_ H]. apply H. vm_compute. reflexivity.
Qed.
Print Assumptions C110_delta_refuted.
(** And a measurement of 8192 + 2^-39 that raises, after 2^-146: *)
Theorem C110_raises_refuted :
  exists h0 small n, eh_new [] DELTA 0 160 20 = Some h0 /\ measurable small /\ measurable n
  /\ (real small == Qpower 2 (-146))%Q /\ (real n == 8192 + Qpower 2 (-39))%Q
  /\ er_ok (eh_run (float_log_floor nearest_log) DELTA h0 [Measure small; Measure n; Collect 1]) = false.
Proof.
  eexists. exists (2 ^ 928), above_8192. split; [vm_compute; reflexivity|].
  split. { right. exists 1, 928. repeat split; lia. }
  split. { right. exact above_double. }
  split; [vm_compute; reflexivity|]. split; [vm_compute; reflexivity|].
  rewrite table_run with (mx := 160); [vm_compute; reflexivity|vm_compute; reflexivity|now right|]. exists 928. split; [lia|reflexivity].
Qed.
Print Assumptions C110_raises_refuted.

(** 1, 3, -2.5, 0 and 0.1 (3602879701896397 / 2^55) meet the hypotheses of C110_delta_partial and C110_cumulative_partial, with the
    default parameters. *)
Example C110_example :
  let one := 2 ^ 1074 in
  let l := [one; 3 * one; - (5 * 2 ^ 1073); 0; 3602879701896397 * 2 ^ 1019] in
  let ops := map Measure l ++ [Collect 1] in
  exists h0, eh_new [] DELTA 0 160 20 = Some h0 /\ Forall measurable (measured ops)
  /\ Forall (fun v => clear_of_powers (Z.abs v)) (measured ops) /\ Forall settled (windows ops) /\ accurate_log nearest_log.
Proof.
  eexists. split; [vm_compute; reflexivity|]. split.
  - cbn [measured map app flat_map].
    apply Forall_cons; [right; exists 1, 1074; repeat split; lia|].
    apply Forall_cons; [right; exists 3, 1074; repeat split; lia|].
    apply Forall_cons; [right; exists 5, 1073; repeat split; lia|].
    apply Forall_cons; [now left|].
    apply Forall_cons; [right; exists 3602879701896397, 1019; repeat split; lia|constructor].
  - split; [|split; [|exact nearest_accurate]].
    + cbn [measured map app flat_map]. repeat (apply Forall_cons; [apply clear_check_sound; vm_compute; reflexivity|]). constructor.
    + unfold windows. cbn [map app windows_from]. apply Forall_cons; [|apply Forall_nil]. unfold settled. cbn [w_before w_since]. discriminate.
Qed.
