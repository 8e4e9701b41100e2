(** C109: measurements that are floats, or floats and ints.

    Vocabulary: Model_Float.v (Python's numbers), Model_FloatMetrics.v ([run_sum], [run_hist], [run_last]: the answers to calls and collections of one
    stream, in order), Spec_Float.v ([is_real x r]: x is the real number r; [counts_for k h l]: the amounts in [h] that count; [since_read];
    [unit_roundoff]: 2^-53; [histogram_of_numbers]; [at_most]). *)
From Coq Require Import ZArith Reals Lra Lia List Bool.
From Flocq Require Import Core BinarySingleNaN.
From Verif Require Import Model_FloatMetrics Spec_Float Proof_Float Proof_FloatMetrics Proof_FloatHist Proof_FloatInt.
Import ListNotations.
Local Open Scope R_scope.

(** m * 2^e as a float *)
Definition fl (m e : Z) : num := NFloat (binary_normalize 53 1024 prec64 emax64 mode_NE m e false).

(** ** Sums *)
(** What a synchronous instrument's sum reports, when it is a (finite) number, is close to the sum of the amounts added: all of them with cumulative
    temporality, those since the last collection with delta temporality; and all those amounts were numbers. *)
Theorem C109_accuracy :
  forall k t attrs start h i p r l,
    synchronous k = true ->
    nth_error (run_sum k t attrs start h) i = Some (FPoint (Some p)) ->
    ~ In FOverflow (firstn i (run_sum k t attrs start h)) ->
    counts_for k (if is_delta t then since_read (firstn i h) else firstn i h) l ->
    is_real (fp_value p) r ->
    exists rs, Forall2 is_real l rs /\
      Rabs (r - rsum rs) <= ((1 + unit_roundoff) ^ (2 * S i) - 1) * rsum (map Rabs rs).
Proof. intros k t attrs start h i p r l Sy H N C R. eapply sum_accuracy; eauto. Qed.
Print Assumptions C109_accuracy.
(** For fewer than 2^51 calls, more simply. *)
Theorem C109_accuracy_linear :
  forall k t attrs start h i p r l,
    synchronous k = true ->
    nth_error (run_sum k t attrs start h) i = Some (FPoint (Some p)) ->
    ~ In FOverflow (firstn i (run_sum k t attrs start h)) ->
    counts_for k (if is_delta t then since_read (firstn i h) else firstn i h) l ->
    is_real (fp_value p) r ->
    INR (S i) <= 2 ^ 51 ->
    exists rs, Forall2 is_real l rs /\ Rabs (r - rsum rs) <= 4 * INR (S i) / 2 ^ 53 * rsum (map Rabs rs).
Proof.
  intros k t attrs start h i p r l Sy H N C R L. destruct (C109_accuracy k t attrs start h i p r l Sy H N C R) as (rs & F & A).
  exists rs. split; [exact F|]. eapply Rle_trans; [exact A|]. apply Rmult_le_compat_r.
  - clear. induction rs as [|x rs IH]; simpl; [lra|]. pose proof (Rabs_pos x). lra.
  - eapply Rle_trans; [apply growth_linear|].
    + rewrite mult_INR. change (INR 2) with 2. unfold unit_roundoff. lra.
    + rewrite mult_INR. change (INR 2) with 2. unfold unit_roundoff. lra.
Qed.
Print Assumptions C109_accuracy_linear.

(** 1, 1.5 and -1 (which a counter ignores), a reading, 2^53 and 0.5, a reading. *)
Definition ex_h : list fcall := [FCall (NInt 1); FCall (fl 3 (-1)); FCall (NInt (-1)); FRead 7; FCall (fl 1 53); FCall (fl 1 (-1)); FRead 9].
(** For the examples: the point answered to the [i]th call, and a number without the proof in it. *)
Definition nth_point {P} (rs : list (fans P)) (i : nat) : option P := match nth_error rs i with Some (FPoint o) => o | _ => None end.
Definition plain_num (x : num) : Z + SpecFloat.spec_float := match x with NInt z => inl z | NFloat f => inr (B2SF f) end.
Definition some {A} (o : option A) : bool := match o with Some _ => true | None => false end.
Lemma nth_point_some {P} (rs : list (fans P)) i d : some (nth_point rs i) = true ->
  nth_error rs i = Some (FPoint (Some (match nth_point rs i with Some p => p | None => d end))).
Proof. unfold nth_point. destruct (nth_error rs i) as [[|[p|]|]|]; simpl; congruence. Qed.
Lemma plain_real x s m e : plain_num x = inr (SpecFloat.S754_finite s m e) -> is_real x (F2R (Float radix2 (cond_Zopp s (Zpos m)) e)).
Proof. destruct x as [z|f]; simpl; [discriminate|]. destruct f; simpl; intros H; try discriminate. injection H as -> -> ->. reflexivity. Qed.
Definition dummy : fpoint := FP [] None 0 (NInt 0).
Definition point_at (rs : list (fans fpoint)) (i : nat) : fpoint := match nth_point rs i with Some p => p | None => dummy end.
Lemma point_at_some rs i : some (nth_point rs i) = true -> nth_error rs i = Some (FPoint (Some (point_at rs i))).
Proof. apply nth_point_some. Qed.
Ltac counted := repeat (first [apply cf_nil | apply cf_read | apply cf_taken; [intros [_ X]; apply ltb_less in X; vm_compute in X; discriminate|]
      | apply cf_ignored; [left; reflexivity|apply ltb_less; reflexivity|]]).
Example C109_accuracy_example :
  exists p q, nth_error (run_sum ICounter CUMULATIVE [] 5 ex_h) 3 = Some (FPoint (Some p)) /\
    nth_error (run_sum ICounter CUMULATIVE [] 5 ex_h) 6 = Some (FPoint (Some q)) /\
    is_real (fp_value p) (5 / 2) /\ is_real (fp_value q) (2 ^ 53 + 2) /\
    counts_for ICounter ex_h [NInt 1; fl 3 (-1); fl 1 53; fl 1 (-1)].
Proof.
  exists (point_at (run_sum ICounter CUMULATIVE [] 5 ex_h) 3), (point_at (run_sum ICounter CUMULATIVE [] 5 ex_h) 6).
  split; [apply point_at_some; vm_compute; reflexivity|]. split; [apply point_at_some; vm_compute; reflexivity|]. split; [|split].
  - replace (5 / 2) with (F2R (Float radix2 5629499534213120 (-51))) by (unfold F2R; simpl; lra). apply (plain_real _ false). vm_compute. reflexivity.
  - replace (2 ^ 53 + 2) with (F2R (Float radix2 4503599627370497 1)) by (unfold F2R; simpl; lra). apply (plain_real _ false). vm_compute. reflexivity.
  - unfold ex_h. counted.
Qed.

(** ** Counters never go down *)
Theorem C109_never_down :
  forall attrs start h i j p q,
    (int_total h <= 2 ^ 53)%Z -> (i <= j)%nat ->
    nth_error (run_sum ICounter CUMULATIVE attrs start h) i = Some (FPoint (Some p)) ->
    nth_error (run_sum ICounter CUMULATIVE attrs start h) j = Some (FPoint (Some q)) ->
    at_most (fp_value p) (fp_value q).
Proof. intros attrs start h i j p q. apply counter_never_down. Qed.
Print Assumptions C109_never_down.
Example C109_never_down_example :
  (int_total ex_h <= 2 ^ 53)%Z /\
  exists p q, nth_error (run_sum ICounter CUMULATIVE [] 5 ex_h) 3 = Some (FPoint (Some p)) /\
    nth_error (run_sum ICounter CUMULATIVE [] 5 ex_h) 6 = Some (FPoint (Some q)) /\ less (fp_value p) (fp_value q).
Proof.
  split; [vm_compute; discriminate|]. exists (point_at (run_sum ICounter CUMULATIVE [] 5 ex_h) 3), (point_at (run_sum ICounter CUMULATIVE [] 5 ex_h) 6).
  split; [apply point_at_some; vm_compute; reflexivity|]. split; [apply point_at_some; vm_compute; reflexivity|].
  apply ltb_less. vm_compute. reflexivity.
Qed.
(** With larger ints and a float they can: 2^53+1 is reported; then, after adding 0.5, 2^53. *)
Theorem C109_never_down_refuted :
  exists h i j p q, (i < j)%nat /\
    (forall v, In (FCall v) h -> less (NInt 0) v) /\
    nth_error (run_sum ICounter CUMULATIVE [] 0 h) i = Some (FPoint (Some p)) /\
    nth_error (run_sum ICounter CUMULATIVE [] 0 h) j = Some (FPoint (Some q)) /\
    less (fp_value q) (fp_value p).
Proof.
  set (h := [FCall (NInt (2 ^ 53 + 1)); FRead 1; FCall (fl 1 (-1)); FRead 2]).
  exists h, 1%nat, 3%nat, (point_at (run_sum ICounter CUMULATIVE [] 0 h) 1), (point_at (run_sum ICounter CUMULATIVE [] 0 h) 3). split; [lia|]. split.
  - intros v [[= <-]|[X|[[= <-]|[X|[]]]]]; try discriminate; apply ltb_less; vm_compute; reflexivity.
  - split; [apply point_at_some; vm_compute; reflexivity|]. split; [apply point_at_some; vm_compute; reflexivity|]. apply ltb_less. vm_compute. reflexivity.
Qed.
Print Assumptions C109_never_down_refuted.

(** ** OverflowError *)
(** None is raised, by a call or a collection, if the ints used add up (without their signs) to at most 2^1023. *)
Theorem C109_no_overflow :
  forall k t attrs start h, (int_total h <= 2 ^ 1023)%Z -> ~ In FOverflow (run_sum k t attrs start h).
Proof. intros k t attrs start h. apply sum_no_raise. Qed.
Print Assumptions C109_no_overflow.
Theorem C109_no_overflow_histogram :
  forall k t attrs start bounds record h, synchronous k = true -> (int_total h <= 2 ^ 1023)%Z ->
    ~ In FOverflow (run_hist k t attrs start bounds record h).
Proof. intros k t attrs start bounds record h. apply hist_no_raise. Qed.
Print Assumptions C109_no_overflow_histogram.
Example C109_no_overflow_example :
  (int_total (FCall (NInt (- 2 ^ 1022)) :: ex_h) <= 2 ^ 1023)%Z /\
  some (nth_point (run_sum IUpDownCounter DELTA [] 0 (FCall (NInt (- 2 ^ 1022)) :: ex_h)) 4) = true.
Proof. split; vm_compute; [discriminate|reflexivity]. Qed.
(** Otherwise it can be: by [add], and by a collection, which then drops what it was to report (an amount of 2^1023 here). *)
Definition overflows {P} (rs : list (fans P)) (i : nat) : bool := match nth_error rs i with Some FOverflow => true | _ => false end.
Lemma overflows_nth {P} (rs : list (fans P)) i : overflows rs i = true -> nth_error rs i = Some FOverflow.
Proof. unfold overflows. destruct (nth_error rs i) as [[| |]|]; congruence. Qed.
Theorem C109_no_overflow_refuted :
  (exists h i v, nth_error h i = Some (FCall v) /\ nth_error (run_sum ICounter CUMULATIVE [] 0 h) i = Some FOverflow) /\
  (exists h i now p, nth_error h i = Some (FRead now) /\ nth_error (run_sum ICounter CUMULATIVE [] 0 h) i = Some FOverflow /\
     nth_error (run_sum ICounter CUMULATIVE [] 0 h) (S i) = Some (FPoint (Some p)) /\
     counts_for ICounter h [NInt (2 ^ 1024); fl 1 1023] /\ fp_value p = NInt (2 ^ 1024)).
Proof.
  split.
  - exists [FCall (fl 1 (-1)); FCall (NInt (2 ^ 1024))], 1%nat, (NInt (2 ^ 1024)). split; [reflexivity|]. apply overflows_nth. vm_compute. reflexivity.
  - set (h := [FCall (NInt (2 ^ 1024)); FRead 1; FCall (fl 1 1023); FRead 2; FRead 3]).
    exists h, 3%nat, 2%Z, (point_at (run_sum ICounter CUMULATIVE [] 0 h) 4).
    split; [reflexivity|]. split; [apply overflows_nth; vm_compute; reflexivity|]. split; [apply point_at_some; vm_compute; reflexivity|].
    split; [unfold h; counted|vm_compute; reflexivity].
Qed.
Print Assumptions C109_no_overflow_refuted.

(** ** NaN *)
(** A counter takes it, and nothing it reports afterwards is a number. *)
Theorem C109_nan_sticks :
  forall attrs start h p, In (FPoint (Some p)) (run_sum ICounter CUMULATIVE attrs start (FCall (NFloat B754_nan) :: h)) ->
    is_nan_num (fp_value p).
Proof. intros attrs start h p H. unfold is_nan_num. rewrite (nan_sticks ICounter attrs start h p eq_refl H). reflexivity. Qed.
Print Assumptions C109_nan_sticks.
Example C109_nan_example :
  length (points (run_sum ICounter CUMULATIVE [] 0 [FCall (NFloat B754_nan); FRead 1; FCall (NInt 5); FRead 2])) = 2%nat.
Proof. vm_compute. reflexivity. Qed.

(** ** Observable counters and up-down counters, delta temporality *)
Theorem C109_deltas :
  forall k attrs start xs, synchronous k = false -> Forall (fun o => is_finite (fst o) = true) xs ->
    length (points (run_sum k DELTA attrs start (observed xs))) = length xs /\
    forall i x now p, nth_error xs i = Some (x, now) ->
      nth_error (points (run_sum k DELTA attrs start (observed xs))) i = Some p ->
      (forall r, is_real (fp_value p) r -> Rabs (r - (B2R x - before xs i)) <= unit_roundoff * Rabs (B2R x - before xs i)) /\
      (0 <= before xs i <= B2R x -> exists r, is_real (fp_value p) r /\ 0 <= r).
Proof. intros k attrs start xs. apply observed_nth. Qed.
Print Assumptions C109_deltas.
Definition ex_xs : list (pyfloat * Z) :=
  map (fun '(m, e, now) => (binary_normalize 53 1024 prec64 emax64 mode_NE m e false, now)) [(3, -1, 1); (1, 53, 2); (1, 54, 3)]%Z.
Example C109_deltas_example :
  Forall (fun o => is_finite (fst o) = true) ex_xs /\
  is_real (fp_value (nth 1 (points (run_sum IObservableCounter DELTA [] 0 (observed ex_xs))) dummy)) (2 ^ 53 - 2).
Proof.
  split; [repeat constructor|]. replace (2 ^ 53 - 2) with (F2R (Float radix2 9007199254740990 0)) by (unfold F2R; simpl; lra).
  apply (plain_real _ false). vm_compute. reflexivity.
Qed.

(** ** Histograms *)
Theorem C109_histogram :
  forall k t attrs start bounds record h i p l,
    synchronous k = true -> increasing bounds ->
    nth_error (run_hist k t attrs start bounds record h) i = Some (FPoint (Some p)) ->
    ~ In FOverflow (firstn i (run_hist k t attrs start bounds record h)) ->
    counts_for k (if is_delta t then since_read (firstn i h) else firstn i h) l ->
    histogram_of_numbers bounds record l p /\
    forall r, is_real (fhp_sum p) r ->
      exists rs, Forall2 is_real l rs /\ Rabs (r - rsum rs) <= ((1 + unit_roundoff) ^ (2 * S i) - 1) * rsum (map Rabs rs).
Proof. intros k t attrs start bounds record h i p l Sy. apply hist_reading. exact Sy. Qed.
Print Assumptions C109_histogram.
Definition ex_bounds : list num := [NInt 1; fl 3 (-1); NInt 4].
Definition ex_values : list fcall :=
  [FCall (fl 5 (-2)); FCall (fl 3 (-1)); FCall (NInt (-7)); FCall (NInt 9); FCall (NFloat B754_nan); FRead 3].
Definition hdummy : fhpoint := FHP [] 0 0 0 (NInt 0) [] [] (NInt 0) (NInt 0).
Example C109_histogram_example :
  increasing ex_bounds /\
  exists p, nth_error (run_hist IHistogram DELTA [] 0 ex_bounds true ex_values) 5 = Some (FPoint (Some p)) /\
    fhp_counts p = [1; 2; 0; 1]%Z /\ fhp_count p = 4%Z /\ fhp_max p = NInt 9 /\ is_real (fhp_min p) (5 / 4) /\ is_nan_num (fhp_sum p).
Proof.
  split.
  - intros i j a b L Ha Hb. destruct i as [|[|[|i]]]; [| | |destruct i; discriminate]; (destruct j as [|[|[|j]]]; [| | |destruct j; discriminate]); try lia;
      injection Ha as <-; injection Hb as <-; apply ltb_less; vm_compute; reflexivity.
  - exists (match nth_point (run_hist IHistogram DELTA [] 0 ex_bounds true ex_values) 5 with Some p => p | None => hdummy end).
    split; [apply nth_point_some; vm_compute; reflexivity|]. split; [vm_compute; reflexivity|]. split; [vm_compute; reflexivity|].
    split; [vm_compute; reflexivity|]. split.
    + replace (5 / 4) with (F2R (Float radix2 5629499534213120 (-52))) by (unfold F2R; simpl; lra). apply (plain_real _ false). vm_compute. reflexivity.
    + assert (P : forall x, plain_num x = inr SpecFloat.S754_nan -> is_nan_num x).
      { intros [z|[s|s| |s m e H]]; cbn; intros E; try discriminate; reflexivity. }
      apply P. vm_compute. reflexivity.
Qed.
(** The boundaries are not checked: with ones that do not increase, a value can be counted in a bucket that it is not in. *)
Theorem C109_histogram_refuted :
  exists bounds h p, run_hist IHistogram DELTA [] 0 bounds true h = [FDone; FPoint (Some p)] /\
    forall l, counts_for IHistogram h l -> ~ histogram_of_numbers bounds true l p.
Proof.
  exists [NInt 5; NInt 1], [FCall (NInt 3); FRead 1]. eexists. split; [vm_compute; reflexivity|].
  intros l C (_ & (place & Pl & E) & _). apply counts_taken in C. subst l. cbn [taken] in *.
  change (foffered IHistogram (NInt 3)) with (Some (NInt 3)) in *. destruct (Pl (NInt 3) (or_introl eq_refl)) as [L [_ F]].
  cbn [fhp_counts map length seq] in E. destruct (place (NInt 3)) as [|n].
  - cbn in E. discriminate.
  - specialize (F 0%nat (NInt 5) ltac:(lia) eq_refl). apply ltb_less in F. discriminate.
Qed.
Print Assumptions C109_histogram_refuted.

(** ** Gauges *)
(** A last value is the last one set since the last collection, as it was; none, no point. *)
Theorem C109_last_value :
  forall k attrs h i o l,
    nth_error (run_last k attrs h) i = Some (FPoint o) -> counts_for k (since_read (firstn i h)) l ->
    match o with None => l = [] | Some p => exists l' v, l = l' ++ [v] /\ fp_value p = v end.
Proof. exact last_reading. Qed.
Print Assumptions C109_last_value.
Example C109_last_value_example :
  nth_point (run_last IGauge [] (ex_h ++ [FRead 10])) 3 = Some (FP [] None 7 (NInt (-1))) /\
  option_map (fun p => plain_num (fp_value p)) (nth_point (run_last IGauge [] (ex_h ++ [FRead 10])) 6) = Some (plain_num (fl 1 (-1))) /\
  nth_error (run_last IGauge [] (ex_h ++ [FRead 10])) 7 = Some (FPoint None).
Proof. split; [vm_compute; reflexivity|]. split; vm_compute; reflexivity. Qed.

(** ** Ints *)
(** With ints alone the answers are those of Model_Metrics.v, exactly, and nothing raises: what is proved there (C38 to C42) is about these. *)
Theorem C109_integers :
  forall k t attrs start h,
    (forall mono, run_sum k t attrs start (map of_icall h) =
       answers h (map (option_map of_npoint)
         (snd (run_alone sum_aggregate (fun a now => sum_collect a t now) (sum_new attrs mono (instr_temporality k) start) (calls_ops k h))))) /\
    (forall bounds record, run_hist k t attrs start (map NInt bounds) record (map of_icall h) =
       answers h (map (option_map of_hpoint)
         (snd (run_alone hist_aggregate (fun a now => hist_collect a t now) (hist_new attrs (instr_temporality k) start bounds record) (calls_ops k h))))) /\
    run_last k attrs (map of_icall h) =
       answers h (map (option_map of_npoint)
         (snd (run_alone last_aggregate (fun a now => last_collect a t now) (last_new attrs) (calls_ops k h)))).
Proof.
  intros k t attrs start h. split; [|split].
  - intros mono. apply sum_ints.
  - intros bounds record. apply hist_ints.
  - apply last_ints.
Qed.
Print Assumptions C109_integers.
Example C109_integers_example :
  answers [Call 3; Call (-1); Read 4; Call 5] (map (option_map of_npoint)
    (snd (run_alone sum_aggregate (fun a now => sum_collect a DELTA now) (sum_new [] true DELTA 0) (calls_ops ICounter [Call 3; Call (-1); Read 4; Call 5]))))
  = [FDone; FDone; FPoint (Some (FP [] (Some 0%Z) 4 (NInt 3))); FDone].
Proof. reflexivity. Qed.
