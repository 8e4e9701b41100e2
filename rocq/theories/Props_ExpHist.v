(** Property theorems C42-C45: exponential histograms.
    Measured values are integers [n] standing for the number n * 2^-1074 ([real]).  [log_floor scale n] is
    what [math.floor(math.log(value) * factor)] gives; all that is assumed of it where it matters is
    [log_consistent], which holds of the exact logarithm (C42_exact_logarithm). *)
From Coq Require Import Lia.
From Verif Require Import Spec_ExpHist Proof_ExpMapping Proof_Buckets Proof_ExpHist Proof_ExpCumulative Proof_ExpExt.
Local Open Scope Z_scope.
Local Arguments total : simpl never.

(** C42: at scales -10..0 a normal double is in the bucket of its index. *)
Theorem C42_bucket :
  forall scale n, -10 <= scale <= 0 -> is_double n -> MIN_NORMAL_VALUE <= n ->
  in_exp_bucket scale (exponent_index scale n) (real n).
Proof. exact exponent_bucket. Qed.
Print Assumptions C42_bucket.
(** Subnormal numbers are treated as the smallest normal one. *)
Theorem C42_subnormal :
  forall scale n, -10 <= scale <= 0 -> is_double n -> n < MIN_NORMAL_VALUE ->
  exponent_index scale n = exponent_index scale MIN_NORMAL_VALUE.
Proof. exact subnormal_index. Qed.
Print Assumptions C42_subnormal.
Theorem C42_scale_change :
  forall scale k n, -10 <= scale - k -> 0 <= k -> scale <= 0 -> is_double n ->
  exponent_index (scale - k) n = Z.shiftr (exponent_index scale n) k.
Proof. exact exponent_shift. Qed.
Print Assumptions C42_scale_change.
(** The lower boundary of every index in use is base^index, as an exponent of two. *)
Theorem C42_lower_boundary :
  forall scale n, -10 <= scale <= 0 -> is_double n ->
  exponent_lower_boundary scale (exponent_index scale n) = Boundary (exponent_index scale n * 2 ^ (- scale)).
Proof. exact boundary_ok. Qed.
Print Assumptions C42_lower_boundary.
(** With an exact logarithm the same holds at the scales 1..20, and lowering a scale halves indexes there
    and across 0. *)
Theorem C42_exact_logarithm :
  log_consistent exact_log_floor
  /\ forall scale n, 1 <= scale -> is_double n -> MIN_NORMAL_VALUE < n ->
     in_exp_bucket scale (log_index exact_log_floor scale n) (real n).
Proof. exact (conj exact_consistent exact_bucket). Qed.
Print Assumptions C42_exact_logarithm.
(** A scale out of range is refused once; the second time the constructor returns a half-built mapping. *)
Theorem C42_cache_refuted :
  exists scale cache, new_mapping scale = None /\ mapping_call [] scale = (cache, MappingError)
  /\ snd (mapping_call cache scale) = MappingBroken.
Proof. exists 21. eexists. repeat split. Qed.
Print Assumptions C42_cache_refuted.

(** 5/2, 2 and 8 (a power of two belongs to the bucket below it) at scales 0 and -1 *)
Example C42_example :
  map (exponent_index 0) [5 * 2 ^ 1073; 2 ^ 1075; 2 ^ 1077; 1] = [1; 0; 2; -1023]
  /\ map (exponent_index (-1)) [5 * 2 ^ 1073; 2 ^ 1075; 2 ^ 1077; 1] = [0; 0; 1; -512]
  /\ is_double (5 * 2 ^ 1073) /\ MIN_NORMAL_VALUE <= 5 * 2 ^ 1073
  /\ in_exp_bucket 0 1 (5 # 2) /\ log_index exact_log_floor 1 (5 * 2 ^ 1073) = 2.
Proof.
  split; [vm_compute; reflexivity|]. split; [vm_compute; reflexivity|]. split; [exists 5, 1073; lia|].
  split; [apply Z.leb_le; vm_compute; reflexivity|]. split; [|vm_compute; reflexivity].
  unfold in_exp_bucket. cbn. split; [reflexivity|discriminate].
Qed.

(** C43: buckets hold what was added to them, as long as that fits into [max_size] buckets: adding never
    fails, and offset and counts list the number of additions at each index. *)
Theorem C43_buckets :
  forall max_size ops, 1 <= max_size -> respects max_size ops ->
  exists b, b_run max_size ops = Some b
  /\ shows (fun i => i) max_size (contents ops) (b_start b) (get_offset_counts b).
Proof.
  intros mx ops Hm R. destruct (b_run_side mx ops Hm R) as (b & E & S). exists b. split; [exact E|]. now apply side_shows.
Qed.
Print Assumptions C43_buckets.
(** The count at any index, also out of the range kept. *)
Theorem C43_count :
  forall max_size ops b i, 1 <= max_size -> respects max_size ops -> b_run max_size ops = Some b ->
  count_at b i = count_in (fun x => x =? i) (contents ops).
Proof.
  intros mx ops b i Hm R Eb. destruct (b_run_side mx ops Hm R) as (b' & E & (_ & _ & H & _)). rewrite E in Eb.
  injection Eb as <-. apply H.
Qed.
Print Assumptions C43_count.

Example C43_example :
  let ops := [BAdd 5 1; BAdd 3 2; BAdd 7 1; BDown 1; BAdd (-1) 3] in
  respects 5 ops /\ contents ops = [2; 1; 1; 3; -1; -1; -1]
  /\ option_map (fun b => (b_start b, get_offset_counts b)) (b_run 5 ops) = Some (-1, [3; 0; 2; 1; 1]).
Proof.
  cbn zeta. split; [|split; vm_compute; reflexivity]. split; [repeat constructor; lia|].
  intros n. assert (H : forall m, within 5 (contents (firstn m [BAdd 5 1; BAdd 3 2; BAdd 7 1; BDown 1; BAdd (-1) 3]))); [|apply H].
  intros m. do 6 (destruct m as [|m]; [vm_compute; intuition (subst; reflexivity)|]).
  vm_compute. intuition (subst; reflexivity).
Qed.

(** C44: with a delta reader, nothing is ever refused, and every point is the exponential histogram of what
    was measured since the previous collection: count, sum, min, max and zero count are exact, and the
    buckets of each sign, at most [max_size], list how many values map to each index at the scale shown. *)
Theorem C44_delta :
  forall log_floor attrs start max_size max_scale h0 ops,
  log_consistent log_floor -> eh_new attrs DELTA start max_size max_scale = Some h0 -> Forall measurable (measured ops) ->
  er_ok (eh_run log_floor DELTA h0 ops) = true
  /\ Forall2 (fun w r => match w_since w with
                         | [] => r = ENone
                         | _ => exists p, r = EPoint p /\ exp_histogram_of log_floor max_size (w_since w) p
                                /\ ep_attrs p = attrs /\ ep_start p = previous_time start w /\ ep_time p = w_now w
                         end)
       (windows ops) (er_points (eh_run log_floor DELTA h0 ops)).
Proof. intros lf attrs start mx ms h0 ops C. exact (delta_run lf C attrs start mx ms h0 ops). Qed.
Print Assumptions C44_delta.
Theorem C44_count :
  forall log_floor max_size l p, exp_histogram_of log_floor max_size l p ->
  ep_count p = ep_zero p + total (ep_pos_counts p) + total (ep_neg_counts p).
Proof. exact histogram_total. Qed.
Print Assumptions C44_count.
(** The resolution is only lowered as far as needed: at no finer scale up to the one asked for would both
    signs fit. *)
Theorem C44_best_scale :
  forall log_floor attrs start max_size max_scale h0 l now p,
  log_consistent log_floor -> eh_new attrs DELTA start max_size max_scale = Some h0 -> Forall measurable l ->
  er_points (eh_run log_floor DELTA h0 (map Measure l ++ [Collect now])) = [EPoint p] -> (exists v, In v l /\ v <> 0) ->
  forall scale s, ep_scale p = Some scale -> scale < s <= max_scale ->
  ~ (within max_size (map (map_to_index log_floor s) (positives l)) /\ within max_size (map (map_to_index log_floor s) (negatives l))).
Proof. intros lf attrs start mx ms h0 l now p C. exact (best_scale lf C attrs start mx ms h0 l now p). Qed.
Print Assumptions C44_best_scale.
(** The scale shown is at most the one asked for (0 if that is negative and only zeros were measured), whatever the logarithm and
    whether or not a call raised. *)
Theorem C44_max_scale :
  forall log_floor attrs start max_size max_scale h0 t ops p s,
  eh_new attrs DELTA start max_size max_scale = Some h0 -> In (EPoint p) (er_points (eh_run log_floor t h0 ops)) -> ep_scale p = Some s ->
  s <= Z.max 0 max_scale.
Proof. exact scale_bound. Qed.
Print Assumptions C44_max_scale.

(** 1, 3, -2, 0 and 6 in at most 4 buckets: from scale 3 down to 0. *)
Example C44_example :
  let one := 2 ^ 1074 in
  let l := [one; 3 * one; - (2 * one); 0; 6 * one] in
  exists h0, eh_new [] DELTA 0 4 3 = Some h0 /\ Forall measurable l
  /\ map (fun r => match r with EPoint p => Some (ep_count p, ep_zero p, ep_scale p, (ep_pos_offset p, ep_pos_counts p), (ep_neg_offset p, ep_neg_counts p)) | _ => None end)
       (er_points (eh_run exact_log_floor DELTA h0 (map Measure l ++ [Collect 1; Collect 2])))
     = [Some (5, 1, Some 0, (-1, [1; 0; 1; 1]), (0, [1])); None].
Proof.
  cbn zeta. eexists. split; [vm_compute; reflexivity|]. split; [|vm_compute; reflexivity].
  do 2 (constructor; [right; (exists 1, 1074; lia) || (exists 3, 1074; lia)|]).
  constructor; [right; exists 1, 1075; split; [lia|]; split; [lia|]; vm_compute; reflexivity|].
  constructor; [now left|].
  constructor; [right; exists 3, 1075; split; [lia|]; split; [lia|]; vm_compute; reflexivity|constructor].
Qed.

(** C45: with a cumulative reader every point, as long as no collection raised, is the exponential
    histogram of all measurements so far. *)
Theorem C45_cumulative_partial :
  forall log_floor attrs start max_size max_scale h0 ops,
  log_consistent log_floor -> eh_new attrs DELTA start max_size max_scale = Some h0 -> Forall measurable (measured ops) ->
  er_ok (eh_run log_floor CUMULATIVE h0 ops) = true ->
  Forall2 (fun w r => exists p, r = EPoint p /\ exp_histogram_of log_floor max_size (so_far w) p
                      /\ ep_attrs p = attrs /\ ep_start p = start /\ ep_time p = w_now w)
    (windows ops) (er_points (eh_run log_floor CUMULATIVE h0 ops)).
Proof. intros lf attrs start mx ms h0 ops C E F. exact (proj2 (cumulative_run lf C attrs start mx ms h0 ops E F)). Qed.
Print Assumptions C45_cumulative_partial.
(** Collections do not raise if no interval after the first has the first positive or the first negative
    measurement.  Missing: the other histories, for which it is false. *)
Theorem C45_never_raises_partial :
  forall log_floor attrs start max_size max_scale h0 ops,
  log_consistent log_floor -> eh_new attrs DELTA start max_size max_scale = Some h0 -> Forall measurable (measured ops) ->
  Forall settled (windows ops) -> er_ok (eh_run log_floor CUMULATIVE h0 ops) = true.
Proof. intros lf attrs start mx ms h0 ops C E F. exact (proj1 (cumulative_run lf C attrs start mx ms h0 ops E F)). Qed.
Print Assumptions C45_never_raises_partial.
(** An interval with only a zero, then one with 2^226: the second collection raises, and what was measured
    in that interval is in no later point. *)
Theorem C45_never_raises_refuted :
  exists h0 ops p, eh_new [] DELTA 0 160 20 = Some h0 /\ Forall measurable (measured ops)
  /\ measured ops = [0; 2 ^ 1300]
  /\ map (fun r => match r with ERaised => true | _ => false end) (er_points (eh_run exact_log_floor CUMULATIVE h0 ops)) = [false; true; false]
  /\ nth_error (er_points (eh_run exact_log_floor CUMULATIVE h0 ops)) 2 = Some (EPoint p) /\ ep_count p = 1.
Proof.
  eexists. exists [Measure 0; Collect 1; Measure (2 ^ 1300); Collect 2; Collect 3]. eexists.
  split; [vm_compute; reflexivity|]. split.
  - constructor; [now left|]. constructor; [right|constructor]. exists 1, 1300. split; [lia|]. split; [lia|]. vm_compute. reflexivity.
  - split; [reflexivity|]. split; [vm_compute; reflexivity|]. split; vm_compute; reflexivity.
Qed.
Print Assumptions C45_never_raises_refuted.
(** So does a collection that comes before the first measurement (here 2). *)
Theorem C45_early_collect_refuted :
  exists h0 ops, eh_new [] DELTA 0 160 20 = Some h0 /\ Forall measurable (measured ops)
  /\ ops = [Collect 1; Measure (2 * 2 ^ 1074); Collect 2] /\ er_ok (eh_run exact_log_floor CUMULATIVE h0 ops) = false.
Proof.
  eexists. eexists. split; [vm_compute; reflexivity|]. split; [|split; [reflexivity|vm_compute; reflexivity]].
  constructor; [right|constructor]. exists 1, 1075. split; [lia|]. split; [lia|]. vm_compute. reflexivity.
Qed.
Print Assumptions C45_early_collect_refuted.

Example C45_example :
  let one := 2 ^ 1074 in
  let ops := [Measure one; Measure (- one); Collect 1; Measure (9 * one); Measure 0; Collect 2; Collect 3] in
  exists h0, eh_new [] DELTA 0 4 3 = Some h0 /\ Forall measurable (measured ops) /\ Forall settled (windows ops)
  /\ map (fun r => match r with EPoint p => Some (ep_count p, ep_zero p, ep_scale p, (ep_pos_offset p, ep_pos_counts p), (ep_neg_offset p, ep_neg_counts p)) | _ => None end)
       (er_points (eh_run exact_log_floor CUMULATIVE h0 ops))
     = [Some (2, 0, Some 3, (-1, [1]), (-1, [1])); Some (4, 1, Some (-1), (-1, [1; 0; 1; 0]), (-1, [1])); Some (4, 1, Some (-1), (-1, [1; 0; 1; 0]), (-1, [1]))].
Proof.
  cbn zeta. eexists. split; [vm_compute; reflexivity|]. split; [|split; [|vm_compute; reflexivity]].
  - constructor; [right; exists 1, 1074; lia|].
    constructor; [right; exists 1, 1074; split; [lia|]; split; [lia|]; vm_compute; reflexivity|].
    constructor; [right; exists 9, 1074; lia|]. constructor; [now left|constructor].
  - assert (D : forall w, In w (windows [Measure (2 ^ 1074); Measure (- 2 ^ 1074); Collect 1; Measure (9 * 2 ^ 1074); Measure 0; Collect 2; Collect 3]) -> settled w).
    { cbn [windows windows_from map app In]. intros w [<-|[<-|[<-|[]]]]; unfold settled; cbn [w_before w_since app]; [discriminate| |]; split; intros H; vm_compute in H |- *; congruence. }
    apply Forall_forall. exact D.
Qed.
