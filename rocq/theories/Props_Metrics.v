(** Property theorems C38-C41, C46 and C47: metric aggregations and streams.
    Vocabulary: Model_Metrics.v ([agg_run]: one aggregation under a history of measurements and
    collections, with what each collection returned), Spec_Metrics.v ([windows]: the collections of a history with
    what came before each; [total], [histogram_of]), Model_View.v, Spec_View.v ([same_stream], [stream_ops]). *)
From Verif Require Import Spec_View Proof_Metrics Proof_View.
Local Open Scope Z_scope.

Definition ex_history : list mop :=
  [Measure 2; Collect 10; Measure 3; Measure (-1); Collect 20; Collect 30; Measure 7; Collect 40; Measure 5].

(** C38: synchronous sums.  A delta reader gets, for each collection, the total since the previous
    collection, over the interval between the two (nothing if nothing was measured); a cumulative reader
    gets the total so far. *)
Theorem C38_delta :
  forall attrs mono start h,
  snd (agg_run DELTA (AgSum (sum_new attrs mono DELTA start)) h)
  = map (fun w => match w_since w with
                  | [] => None
                  | _ => Some (NumberPoint (NP attrs (Some (previous_time start w)) (w_now w) (total (w_since w))))
                  end) (windows h).
Proof. exact sum_delta. Qed.
Print Assumptions C38_delta.
Theorem C38_cumulative :
  forall attrs mono start h,
  snd (agg_run CUMULATIVE (AgSum (sum_new attrs mono DELTA start)) h)
  = map (fun w => Some (NumberPoint (NP attrs (Some start) (w_now w) (total (so_far w))))) (windows h).
Proof. exact sum_cumulative. Qed.
Print Assumptions C38_cumulative.
(** The intervals of successive collections meet; the first begins at the start time. *)
Theorem C38_contiguous :
  forall start h,
  map w_now (windows h) = collections h
  /\ (forall w, nth_error (windows h) 0 = Some w -> previous_time start w = start)
  /\ (forall i w w', nth_error (windows h) i = Some w -> nth_error (windows h) (S i) = Some w' ->
        previous_time start w' = w_now w).
Proof.
  intros start h. split; [apply windows_times|]. split; [intros w; apply windows_first|].
  intros i w w'. apply windows_from_prev.
Qed.
Print Assumptions C38_contiguous.
(** Nothing is lost or counted twice: the delta points and what is not yet collected add up. *)
Theorem C38_conservation :
  forall attrs mono start h,
  total (numbers (snd (agg_run DELTA (AgSum (sum_new attrs mono DELTA start)) h))) + total (since_last [] h)
  = total (measured h).
Proof. exact sum_conservation. Qed.
Print Assumptions C38_conservation.

Example C38_example :
  snd (agg_run DELTA (AgSum (sum_new [] true DELTA 5)) ex_history)
  = [Some (NumberPoint (NP [] (Some 5) 10 2)); Some (NumberPoint (NP [] (Some 10) 20 2)); None;
     Some (NumberPoint (NP [] (Some 30) 40 7))]
  /\ numbers (snd (agg_run CUMULATIVE (AgSum (sum_new [] true DELTA 5)) ex_history)) = [2; 4; 4; 11]
  /\ map w_now (windows ex_history) = [10; 20; 30; 40] /\ since_last [] ex_history = [5].
Proof. vm_compute. repeat split. Qed.

(** C39: sums of observable instruments.  What was observed since the last collection is the current
    value; a delta reader gets its difference to the last reported one. *)
Theorem C39_cumulative :
  forall attrs mono start h,
  snd (agg_run CUMULATIVE (AgSum (sum_new attrs mono CUMULATIVE start)) h)
  = map (fun w => match w_since w with
                  | [] => None
                  | _ => Some (NumberPoint (NP attrs (Some start) (w_now w) (total (w_since w))))
                  end) (windows h).
Proof. exact async_cumulative. Qed.
Print Assumptions C39_cumulative.
Theorem C39_delta :
  forall attrs mono start h,
  snd (agg_run DELTA (AgSum (sum_new attrs mono CUMULATIVE start)) h)
  = map (fun w =>
      let (since_time, reported) := match last_report w with
                                    | None => (start, 0)
                                    | Some w' => (w_now w', total (w_since w'))
                                    end in
      match w_since w with
      | [] => None
      | _ => Some (NumberPoint (NP attrs (Some since_time) (w_now w) (total (w_since w) - reported)))
      end) (windows h).
Proof.
  intros attrs mono start h. rewrite async_delta. apply map_ext. intros w. unfold delta_async.
  destruct (last_report w); reflexivity.
Qed.
Print Assumptions C39_delta.
(** The delta points add up to the latest observation. *)
Theorem C39_telescope :
  forall attrs mono start h,
  total (numbers (snd (agg_run DELTA (AgSum (sum_new attrs mono CUMULATIVE start)) h)))
  = match last_nonempty (windows h) with None => 0 | Some w => total (w_since w) end.
Proof. exact async_telescope. Qed.
Print Assumptions C39_telescope.

Example C39_example :
  snd (agg_run DELTA (AgSum (sum_new [] true CUMULATIVE 5))
         [Measure 1352; Collect 10; Collect 20; Measure 2324; Collect 30; Measure 4542; Collect 40])
  = [Some (NumberPoint (NP [] (Some 5) 10 1352)); None; Some (NumberPoint (NP [] (Some 10) 30 972));
     Some (NumberPoint (NP [] (Some 30) 40 2218))].
Proof. vm_compute. reflexivity. Qed.

(** C40: the last value since the previous collection, if there is one; no start time. *)
Theorem C40_last_value :
  forall attrs t h,
  snd (agg_run t (AgLast (last_new attrs)) h)
  = map (fun w => match w_since w with
                  | [] => None
                  | x :: l => Some (NumberPoint (NP attrs None (w_now w) (last (x :: l) 0)))
                  end) (windows h).
Proof. exact last_value. Qed.
Print Assumptions C40_last_value.

Example C40_example :
  numbers (snd (agg_run CUMULATIVE (AgLast (last_new [])) ex_history)) = [2; -1; 7]
  /\ nth_error (snd (agg_run DELTA (AgLast (last_new [])) ex_history)) 2 = Some None.
Proof. vm_compute. repeat split. Qed.

(** C41: explicit bucket histograms.  For sorted boundaries every point is the histogram of the
    measurements since the previous collection (delta) or of all so far (cumulative). *)
Theorem C41_delta :
  forall attrs start bounds record h, sorted bounds ->
  Forall2 (fun w out =>
    match w_since w with
    | [] => out = None
    | l => exists p, out = Some (HistogramPoint p) /\ histogram_of bounds record l p
           /\ hp_attrs p = attrs /\ hp_start p = previous_time start w /\ hp_time p = w_now w
    end) (windows h) (snd (agg_run DELTA (AgHist (hist_new attrs DELTA start bounds record)) h)).
Proof.
  intros attrs start bounds record h S. rewrite hist_delta. apply map_Forall2. intros w.
  destruct (w_since w); [reflexivity|]. eexists. split; [reflexivity|].
  split; [now apply hpoint_of_spec|]. repeat split.
Qed.
Print Assumptions C41_delta.
Theorem C41_cumulative :
  forall attrs start bounds record h, sorted bounds ->
  Forall2 (fun w out =>
    exists p, out = Some (HistogramPoint p) /\ histogram_of bounds record (so_far w) p
      /\ hp_attrs p = attrs /\ hp_start p = start /\ hp_time p = w_now w)
    (windows h) (snd (agg_run CUMULATIVE (AgHist (hist_new attrs DELTA start bounds record)) h)).
Proof.
  intros attrs start bounds record h S. rewrite hist_cumulative. apply map_Forall2. intros w.
  eexists. split; [reflexivity|]. split; [now apply hpoint_of_spec|]. repeat split.
Qed.
Print Assumptions C41_cumulative.
(** Even with boundaries that are not sorted no measurement is lost. *)
Theorem C41_unsorted_boundaries :
  forall attrs start bounds record h w p i,
  let out := snd (agg_run CUMULATIVE (AgHist (hist_new attrs DELTA start bounds record)) h) in
  nth_error (windows h) i = Some w -> nth_error out i = Some (Some (HistogramPoint p)) ->
  hp_count p = Z.of_nat (length (so_far w)) /\ total (hp_counts p) = hp_count p
  /\ length (hp_counts p) = S (length bounds) /\ hp_sum p = total (so_far w).
Proof.
  intros attrs start bounds record h w p i out Hw Hp. unfold out in Hp.
  rewrite hist_cumulative, nth_error_map, Hw in Hp. injection Hp as <-. unfold hpoint_of. cbn [hp_count hp_counts hp_sum].
  split; [apply counted_total|]. split; [reflexivity|]. split; [apply counted_length|reflexivity].
Qed.
Print Assumptions C41_unsorted_boundaries.

Example C41_example :
  sorted DEFAULT_BOUNDARIES
  /\ snd (agg_run DELTA (AgHist (hist_new [] DELTA 1 [0; 5; 10] true))
         [Measure 5; Measure 0; Measure 6; Measure 11; Collect 9; Measure 10; Collect 12])
     = [Some (HistogramPoint (HP [] 1 9 4 22 [1; 1; 1; 1] [0; 5; 10] (Fin 0) (Fin 11)));
        Some (HistogramPoint (HP [] 9 12 1 10 [0; 0; 1; 0] [0; 5; 10] (Fin 10) (Fin 10)))].
Proof.
  split; [|vm_compute; reflexivity]. intros i j [Hij Hj]. change (length DEFAULT_BOUNDARIES) with 15%nat in Hj.
  do 15 (destruct j as [|j]; [do 15 (destruct i as [|i]; [first [lia|cbn; lia]|]); lia|]). lia.
Qed.

(** C46: the attributes of a point are those of the measurement that the view keeps. *)
Theorem C46_reported_attributes :
  forall keys attrs, (forall a, attrs = Some a -> NoDup (Model_Dict.keys a)) ->
  let shown := stream_attrs keys attrs in
  NoDup (Model_Dict.keys shown)
  /\ (forall k, In k (Model_Dict.keys shown) -> kept keys k)
  /\ (forall k, kept keys k -> dget k shown = look attrs k).
Proof.
  intros keys attrs H shown. split; [now apply stream_NoDup|].
  split; [intros k; apply stream_only|intros k Hk; now apply stream_look].
Qed.
Print Assumptions C46_reported_attributes.

(** For every history there is one series for each set of kept attributes, created at its first
    measurement; it is in the state (and so reports the points) of an aggregation of its own that got
    exactly the measurements with those attributes. *)
Theorem C46_streams :
  forall float_int obj_hash keys (A D : Type) (create1 : mattrs -> Z -> A) aggregate1
    (collect1 : A -> Z -> A * option D) h now,
  Forall (op_usable float_int obj_hash keys) h ->
  let same := same_stream float_int obj_hash keys in
  let s := vm_run float_int obj_hash create1 aggregate1 collect1 keys h in
  exists reps : list (option mattrs * Z),
    (forall i j ri rj, nth_error reps i = Some ri -> nth_error reps j = Some rj ->
       same (fst ri) (fst rj) -> i = j)
    /\ (forall rep, In rep reps -> exists v h1 h2, h = h1 ++ VMeasure (fst rep) v (snd rep) :: h2
          /\ forall a w n, In (VMeasure a w n) h1 -> ~ same (fst rep) a)
    /\ (forall a v n, In (VMeasure a v n) h -> exists rep, In rep reps /\ same (fst rep) a)
    /\ forall P : option mattrs -> option mattrs -> bool,
       (forall a, decides float_int obj_hash keys (P a) a) ->
       let dedicated := fun rep : option mattrs * Z =>
         run_alone aggregate1 collect1 (create1 (stream_attrs keys (fst rep)) (snd rep))
           (stream_ops (P (fst rep)) false h) in
       map snd s = map (fun rep => fst (dedicated rep)) reps
       /\ snd (vm_collect collect1 s now)
          = flat_map (fun rep => match snd (collect1 (fst (dedicated rep)) now) with Some d => [d] | None => [] end) reps.
Proof. exact streams_public. Qed.
Print Assumptions C46_streams.

(** With threads: any number of concurrent measurements and collections, in any interleaving.  Each
    series is in the state, and reported the points, of a dedicated aggregation under the operations
    done for its attributes, in some order; every finished measurement is done exactly once, for its
    own attributes; every collection goes through the series one by one and returns what they report. *)
Theorem C46_concurrent :
  forall float_int obj_hash keys (A D : Type) (create1 : mattrs -> Z -> A) aggregate1
    (collect1 : A -> Z -> A * option D) evs,
  let s := vs_run float_int obj_hash create1 aggregate1 collect1 keys evs in
  let key c := frozen float_int obj_hash (stream_attrs keys (mc_attrs c)) in
  (forall i j ki ai kj aj, nth_error (vs_series s) i = Some (ki, ai) -> nth_error (vs_series s) j = Some (kj, aj) ->
     fs_eqb ki kj = true -> i = j)
  /\ (forall k a, In (k, a) (vs_series s) ->
        exists c, key c = Some k
          /\ run_alone aggregate1 collect1 (create1 (stream_attrs keys (mc_attrs c)) (mc_now c)) (log_ops k (vs_log s))
             = (a, log_points k (vs_log s)))
  /\ (forall t, match vs_pc s t with
                | VDone c k => key c = Some k /\ log_of t (vs_log s) = [LMeasure t k (mc_value c)]
                    /\ exists k' a, In (k', a) (vs_series s) /\ fs_eqb k k' = true
                | VCHold _ _ ps | VCDone _ ps =>
                    collected_points (log_of t (vs_log s)) = ps
                    /\ exists n, collected_keys (log_of t (vs_log s)) = firstn n (map fst (vs_series s))
                | VTypeError c => key c = None /\ log_of t (vs_log s) = []
                | _ => log_of t (vs_log s) = []
                end).
Proof. exact threads_public. Qed.
Print Assumptions C46_concurrent.
(** ... and equal keys are equal kept attributes. *)
Theorem C46_key :
  forall float_int obj_hash keys a b ka kb,
  usable float_int obj_hash keys a -> usable float_int obj_hash keys b ->
  frozen float_int obj_hash (stream_attrs keys a) = Some ka ->
  frozen float_int obj_hash (stream_attrs keys b) = Some kb ->
  fs_eqb ka kb = true <-> same_stream float_int obj_hash keys a b.
Proof. exact frozen_same. Qed.
Print Assumptions C46_key.
(** No deadlock: while a call is in progress some thread can go on. *)
Theorem C46_progress :
  forall float_int obj_hash keys (A D : Type) (create1 : mattrs -> Z -> A) aggregate1
    (collect1 : A -> Z -> A * option D) evs t,
  let step := vstep float_int obj_hash create1 aggregate1 collect1 keys in
  let s := vs_run float_int obj_hash create1 aggregate1 collect1 keys evs in
  match vs_pc s t with VNew | VDone _ _ | VTypeError _ | VCDone _ _ => False | _ => True end ->
  exists t', vs_pc (step s (VStep t')) t' <> vs_pc s t'.
Proof. exact threads_progress. Qed.
Print Assumptions C46_progress.
(** For a delta sum: whatever the interleaving, the reported points of a series and what it still holds
    add up to the measurements made. *)
Theorem C46_concurrent_sum :
  forall float_int obj_hash keys mono evs,
  let s := vs_run float_int obj_hash (fun attrs start => AgSum (sum_new attrs mono DELTA start)) aggregate
             (fun a now => collect a DELTA now) keys evs in
  forall k a, In (k, a) (vs_series s) ->
  total (numbers (log_points k (vs_log s))) + total (since_last [] (log_ops k (vs_log s)))
  = total (measured (log_ops k (vs_log s))).
Proof.
  intros float_int obj_hash keys mono evs s k a Hin.
  destruct (threads_public float_int obj_hash keys _ _ (fun attrs start => AgSum (sum_new attrs mono DELTA start))
              aggregate (fun a now => collect a DELTA now) evs) as (_ & Hs & _).
  destruct (Hs k a Hin) as (c & _ & E). fold s in E.
  pose proof (sum_conservation (stream_attrs keys (mc_attrs c)) mono (mc_now c) (log_ops k (vs_log s))) as C.
  unfold agg_run in C. rewrite E in C. exact C.
Qed.
Print Assumptions C46_concurrent_sum.
(** A list as attribute value (allowed for spans) makes the measurement raise [TypeError]. *)
Theorem C46_unhashable_refuted :
  exists attrs, forall float_int obj_hash,
  frozen float_int obj_hash (stream_attrs None (Some attrs)) = None
  /\ vs_pc (vs_run float_int obj_hash (fun attrs start => AgSum (sum_new attrs true DELTA start)) aggregate
            (fun a now => collect a DELTA now) None [VCallConsume 0 (MC (Some attrs) 1 0)]) 0%nat
     = VTypeError (MC (Some attrs) 1 0).
Proof. exists [(lit "k", PSeq false [PInt false 1])]. intros; split; reflexivity. Qed.
Print Assumptions C46_unhashable_refuted.

Definition ex_a : option mattrs := Some [(lit "k", PInt false 1); (lit "x", PStr false (lit "u"))].
Definition ex_b : option mattrs := Some [(lit "x", PStr false (lit "v")); (lit "k", PBool true)].
Definition ex_c : option mattrs := Some [(lit "k", PInt false 2)].
Definition ex_vops : list vop :=
  [VMeasure ex_a 5 1; VMeasure ex_c 7 2; VCollect 10; VMeasure ex_b 6 12; VCollect 20].
Definition ex_create (attrs : mattrs) (start : Z) : agg := AgSum (sum_new attrs true DELTA start).
Definition ex_collect (a : agg) (now : Z) := collect a DELTA now.
(** [ex_a] and [ex_b] differ only in a key that the view drops (and in 1 against True). *)
Example C46_example :
  Forall (op_usable (fun _ => None) (fun _ => true) (Some [lit "k"])) ex_vops
  /\ same_stream (fun _ => None) (fun _ => true) (Some [lit "k"]) ex_a ex_b
  /\ ~ same_stream (fun _ => None) (fun _ => true) (Some [lit "k"]) ex_a ex_c
  /\ ~ same_stream (fun _ => None) (fun _ => true) None ex_a ex_b
  /\ snd (vm_collect ex_collect
            (vm_run (fun _ => None) (fun _ => true) ex_create aggregate ex_collect (Some [lit "k"])
               [VMeasure ex_a 5 1; VMeasure ex_c 7 2; VMeasure ex_b 6 12]) 20)
     = [NumberPoint (NP [(lit "k", PInt false 1)] (Some 1) 20 11); NumberPoint (NP [(lit "k", PInt false 2)] (Some 2) 20 7)].
Proof.
  assert (U : forall a, In a [ex_a; ex_b; ex_c] -> usable (fun _ => None) (fun _ => true) (Some [lit "k"]) a).
  { intros a Ha. split.
    - intros d ->. cbn in Ha. destruct Ha as [[= <-]|[[= <-]|[[= <-]|[]]]];
        cbn [Model_Dict.keys map fst];
        repeat match goal with
               | |- NoDup (_ :: _) => constructor; [cbn; intuition discriminate|]
               | |- NoDup [] => constructor
               end.
    - intros k v [<-|[]] E. cbn in Ha.
      destruct Ha as [<-|[<-|[<-|[]]]]; vm_compute in E; injection E as <-; discriminate. }
  split; [|split; [|split; [|split]]].
  - apply Forall_forall. intros o Ho. cbn in Ho.
    destruct Ho as [<-|[<-|[<-|[<-|[<-|[]]]]]]; cbn [op_usable]; try exact I; apply U; cbn; tauto.
  - intros k [<-|[]]. reflexivity.
  - intros H. specialize (H (lit "k") (or_introl eq_refl)). vm_compute in H. discriminate.
  - intros H. specialize (H (lit "x") I). vm_compute in H. discriminate.
  - vm_compute. reflexivity.
Qed.
(** Two threads see no series for the same attributes; the second finds the one the first made. *)
Example C46_concurrent_example :
  let s := vs_run (fun _ => None) (fun _ => true) ex_create aggregate ex_collect (Some [lit "k"])
    [VCallConsume 0 (MC ex_a 5 1); VCallConsume 1 (MC ex_b 6 2); VStep 0; VStep 1; VStep 0; VStep 1; VStep 0; VStep 0;
     VStep 1; VStep 1; VStep 1; VCallCollect 2 9; VStep 2; VStep 2; VStep 0; VStep 1; VStep 2;
     VCallCollect 3 11; VStep 3; VStep 3; VStep 3] in
  vs_pc s 0%nat = VDone (MC ex_a 5 1) [(lit "k", CNum 1)] /\ vs_pc s 1%nat = VDone (MC ex_b 6 2) [(lit "k", CNum 1)]
  /\ vs_pc s 2%nat = VCDone 9 [] /\ length (vs_series s) = 1%nat
  /\ vs_pc s 3%nat = VCDone 11 [NumberPoint (NP [(lit "k", PInt false 1)] (Some 9) 11 11)].
Proof. vm_compute. repeat split. Qed.

(** C47: whatever amounts are passed to [add], the points of a counter do not go down. *)
Theorem C47_counter :
  forall attrs start h,
  nondecreasing (numbers (snd (agg_run CUMULATIVE (create Default ICounter None attrs start) (calls_ops ICounter h)))).
Proof. exact monotonic_counter. Qed.
Print Assumptions C47_counter.
Theorem C47_counter_delta :
  forall attrs start h z,
  In z (numbers (snd (agg_run DELTA (create Default ICounter None attrs start) (calls_ops ICounter h)))) -> 0 <= z.
Proof. exact counter_delta_nonneg. Qed.
Print Assumptions C47_counter_delta.
(** Exactly the negative amounts are ignored. *)
Theorem C47_exact :
  forall attrs start h,
  numbers (snd (agg_run CUMULATIVE (create Default ICounter None attrs start) (calls_ops ICounter h)))
  = readings 0 h.
Proof. exact counter_exact. Qed.
Print Assumptions C47_exact.
Theorem C47_histogram :
  forall attrs start bounds record h i j p q,
  let out := snd (agg_run CUMULATIVE (AgHist (hist_new attrs DELTA start bounds record)) (calls_ops IHistogram h)) in
  (i <= j)%nat -> nth_error out i = Some (Some (HistogramPoint p)) -> nth_error out j = Some (Some (HistogramPoint q)) ->
  hp_sum p <= hp_sum q /\ hp_count p <= hp_count q /\ forall b, nth b (hp_counts p) 0 <= nth b (hp_counts q) 0.
Proof. exact monotonic_histogram. Qed.
Print Assumptions C47_histogram.
(** Not so for an observable counter, whose callback is not checked. *)
Theorem C47_observable_refuted :
  exists h, ~ nondecreasing (numbers (snd (agg_run CUMULATIVE (create Default IObservableCounter None [] 0) h)))
  /\ exists z, In z (numbers (snd (agg_run DELTA (create Default IObservableCounter None [] 0) h))) /\ z < 0.
Proof.
  exists [Measure 5; Collect 1; Measure 3; Collect 2]. split.
  - intros H. specialize (H 0%nat 1%nat). vm_compute in H. apply H; [|reflexivity]. split; repeat constructor.
  - exists (-2). split; [vm_compute; tauto|lia].
Qed.
Print Assumptions C47_observable_refuted.

Example C47_example :
  numbers (snd (agg_run CUMULATIVE (create Default ICounter None [] 0)
    (calls_ops ICounter [Call 4; Call (-3); Read 1; Call (-1); Read 2; Call 0; Call 2; Read 3]))) = [4; 4; 6].
Proof. vm_compute. reflexivity. Qed.
