(** C107, C108: the metrics SDK with threads, and after a fork.

    Vocabulary: Model_MetricThreads.v ([yrun]: any number of threads in calls of instruments and collections, interrupted anywhere),
    Model_MetricSdk.v ([sdk_run]: with the SDK's aggregations), Spec_MetricThreads.v ([history]: what was done to a stream, by whom and when; [work]: what
    a call is to add to a stream; [ended]; [within]; [reports]), Spec_MetricSdk.v. *)
From Verif Require Import Proof_MetricSdk Proof_Metrics Proof_View Proof_MetricHistory.
From Coq Require Import Lia Sorted.
Local Open Scope Z_scope.

(** ** Examples *)
Definition ex_views (t : temporality) (_ : nat) (_ : N) : list sview := [SView None Default ICounter None t].
Definition ex_attrs : option mattrs := Some [(lit "k", PStr false (lit "v"))].
Definition ex_key : fset := [(lit "k", CStr (lit "v"))].
Definition steps (n : nat) (ts : list nat) : list (@yev (option mattrs)) := concat (repeat (map YStep ts) n).
Definition ex_run (t : temporality) (es : list yev) := sdk_run (fun _ => None) (fun _ => true) (ex_views t) 1 es.
(** Two threads find no stream and add to it, while a third collects. *)
Definition ex_race : list yev :=
  [YBegin 0 (Measure 1 ex_attrs 5 10); YBegin 1 (Measure 1 ex_attrs 7 11)] ++ steps 6 [0; 1]%nat
  ++ [YBegin 2 (Collect 0 [] false 20)] ++ steps 40 [0; 1; 2]%nat.
Lemma ex_race_ok : calls_ok 1 ex_race.
Proof.
  intros t c I. unfold ex_race in I. apply in_app_or in I. destruct I as [[[= <- <-]|[[= <- <-]|[]]]|I]; [exact Logic.I|exact Logic.I|].
  apply in_app_or in I. destruct I as [I|I]; [exfalso; unfold steps in I; apply in_concat in I; destruct I as (l & IL & I); apply repeat_spec in IL; subst; repeat (destruct I as [[=]|I]); destruct I|].
  apply in_app_or in I. destruct I as [[[= <- <-]|[]]|I]; [split; [lia|intros []]|]. exfalso. unfold steps in I. apply in_concat in I. destruct I as (l & IL & I). apply repeat_spec in IL. subst. repeat (destruct I as [[=]|I]). destruct I.
Qed.

Definition ex_race_log := Eval vm_compute in y_log (ex_run CUMULATIVE ex_race).
Lemma ex_race_log_eq : y_log (ex_run CUMULATIVE ex_race) = ex_race_log.
Proof. vm_compute. reflexivity. Qed.

(** ** C107: streams.  Whatever the threads do and however they are interrupted, what was done to a stream is one sequence of measurements and
    collections that one thread could have made on one aggregation; each lies between the beginning and the end of its call; a call that has ended
    has done its work, once, and one that has not has done a part. *)
Section Any.
Context {V T K A D : Type}.
Variable keq : K -> K -> bool.
Hypothesis keq_refl : forall k, keq k k = true.
Hypothesis keq_sym : forall k k', keq k k' = keq k' k.
Hypothesis keq_trans : forall k k' k'', keq k k' = true -> keq k' k'' = true -> keq k k'' = true.
Variable key_of : V -> T -> option K.
Variable new_agg : V -> T -> Z -> A.
Variable aggregate1 : A -> Z -> A.
Variable collect1 : V -> A -> Z -> A * option D.
Variable views_of : nat -> N -> list V.
Variable readers : nat.
Notation yrun := (yrun keq key_of new_agg aggregate1 collect1 views_of readers).

Theorem C107_streams : forall es r i j w k, calls_ok readers es -> (r < readers)%nat -> nth_error (views_of r i) j = Some w ->
  let y := yrun es sys0 in let log := y_log y in let h := history keq (y_mem y) log r i j k in
  (h <> [] -> exists attrs start k' x b c, call_at log b c /\ uses c r i attrs start /\ key_of w attrs = Some k' /\ keq k k' = true
              /\ sequential aggregate1 collect1 w (new_agg w attrs start) (map e_act h) x)
  /\ StronglySorted lt (map e_pos h) /\ Forall (within log) h
  /\ (forall b e c res, ended log b e c res -> completes r b h (work keq key_of r i w k c) c res)
  /\ (forall b c, call_at log b c -> underway r b h (work keq key_of r i w k c) c).
Proof.
  intros es r i j w k OK RL NW y log h. destruct (history_within keq keq_refl keq_sym key_of new_agg aggregate1 collect1 views_of readers es r i j k OK) as [SO WI].
  destruct (run_inv keq keq_refl keq_sym key_of new_agg aggregate1 collect1 views_of readers es OK) as [W IV]. split; [|split; [exact SO|split; [exact WI|split]]].
  - intro NE. unfold h, history in NE |- *. destruct (stream keq (y_mem y) r i j k) as [a|] eqn:ST; [|contradiction].
    destruct (stream_sequential keq keq_refl keq_sym key_of new_agg aggregate1 collect1 views_of readers es r i j w k a OK NW ST) as (attrs & now & k' & x & b & c & P1 & P2 & P3 & P4 & P5 & P6). exists attrs, now, k', x, b, c. auto.
  - intros b e c res EN. exact (ended_completes keq keq_refl keq_sym keq_trans key_of new_agg aggregate1 collect1 views_of readers y W b e c res r i j w k IV RL NW EN).
  - intros b c CA. exact (call_so_far keq keq_refl keq_sym keq_trans key_of new_agg aggregate1 collect1 views_of readers es b c r i j w k OK RL NW CA).
Qed.
(** Different streams have nothing in common. *)
Theorem C107_apart : forall es r i j k r' i' j' k', calls_ok readers es -> let y := yrun es sys0 in
  forall e, In e (history keq (y_mem y) (y_log y) r i j k) -> In e (history keq (y_mem y) (y_log y) r' i' j' k') -> r' = r /\ i' = i /\ j' = j /\ keq k' k = true.
Proof.
  intros es r i j k r' i' j' k' OK y e. unfold history. destruct (stream keq (y_mem y) r i j k) as [a|] eqn:S1; [|intros []]. destruct (stream keq (y_mem y) r' i' j' k') as [a'|] eqn:S2; [|intros _ []].
  intros I1 I2. assert (a' = a).
  { rewrite entries_all in I1, I2. apply in_map_iff in I1, I2. destruct I1 as ([x1 e1] & <- & I1), I2 as ([x2 e2] & E2 & I2). cbn in E2. subst e2. apply filter_In in I1, I2. destruct I1 as [I1 Q1], I2 as [I2 Q2]. cbn in Q1, Q2. apply Nat.eqb_eq in Q1, Q2. subst x1 x2.
    clear - I1 I2. unfold all in *. revert I1 I2. generalize (fun _ : nat => O). generalize O. generalize (y_log y). intro log. induction log as [|x log IH]; intros n f I1 I2; [destruct I1|]. destruct x as [t c|t x act|t c res]; cbn in I1, I2; try (eapply IH; eassumption).
    destruct I1 as [[= -> <-]|I1], I2 as [E|I2]; [now injection E| | |eapply IH; eassumption].
    - exfalso. apply full_pos in I2. cbn in I2. lia.
    - exfalso. injection E as -> <-. apply full_pos in I1. cbn in I1. lia. }
  subst a'. exact (streams_apart keq keq_refl keq_sym keq_trans key_of new_agg aggregate1 collect1 views_of readers es r i j k r' i' j' k' a OK S1 S2).
Qed.
(** A collection returns what its streams gave it, each stream once.  It fails only if it timed out or met attributes that are not hashable: no
    KeyError and no "dictionary changed size during iteration". *)
Theorem C107_collections : forall es b e c res, calls_ok readers es -> let y := yrun es sys0 in let log := y_log y in ended log b e c res ->
  match res with
  | RDone => forall r ds tmo now, c <> Collect r ds tmo now
  | RTypeError => unhashable_in key_of views_of readers c
  | RTimeout => exists r ds now, c = Collect r ds true now
  | RMetrics out => exists r ds now, c = Collect r ds false now /\ NoDup (map fst out)
      /\ (forall i pss, In (i, pss) out -> length pss = length (views_of r i) /\ forall j ps, nth_error pss j = Some ps -> reports keq (y_mem y) log r b i j ps)
      /\ forall i j k, points_of (by_call b (history keq (y_mem y) log r i j k)) <> [] -> In i (map fst out)
  | RKeyError | RRuntimeError => False
  end.
Proof.
  intros es b e c res OK y log EN. destruct (run_inv keq keq_refl keq_sym key_of new_agg aggregate1 collect1 views_of readers es OK) as [W IV]. fold y in IV.
  assert (MC : may_call readers c) by (destruct EN as (_ & t & H & _); eapply calls_in_log; [exact OK|exists t; exact H]).
  pose proof (ended_result keq key_of new_agg aggregate1 collect1 views_of readers y W b e c res IV MC EN) as R. destruct res as [| | | | |out]; auto.
  destruct R as (r & ds & now & ->). exists r, ds, now. split; [reflexivity|]. exact (ended_reports keq keq_refl keq_sym key_of new_agg aggregate1 collect1 views_of readers y W b e r ds false now out IV EN).
Qed.
(** No deadlock: whatever has happened, and whichever threads go on, every call that has begun ends. *)
Theorem C107_settles : forall es, calls_ok readers es -> settles keq (yrun es sys0).
Proof. exact (all_settle keq keq_refl keq_sym key_of new_agg aggregate1 collect1 views_of readers). Qed.

(** ** C108: a child that is forked while no call is under way goes on as the process would have.
    Missing: calls under way in other threads (see C108_fork_refuted). *)
Theorem C108_fork_partial : forall t es es2, (forall u, y_thr (yrun es sys0) u = None) ->
  let child := yrun es2 (fork t (yrun es sys0)) in let parent := yrun (es ++ es2) sys0 in
  y_mem child = y_mem parent /\ y_log child = y_log parent /\ (forall u, y_thr child u = y_thr parent u) /\ forall l, y_lock child l = y_lock parent l.
Proof. intros t es es2 N child parent. destruct (fork_run keq key_of new_agg aggregate1 collect1 views_of readers t es es2 N) as (H1 & H2 & H3 & H4). auto. Qed.
End Any.
Print Assumptions C107_streams.
Print Assumptions C107_apart.
Print Assumptions C107_collections.
Print Assumptions C107_settles.
Print Assumptions C108_fork_partial.

Example C107_example : calls_ok 1 ex_race /\ (let y := ex_run CUMULATIVE ex_race in
  let pt := NumberPoint (NP [(lit "k", PStr false (lit "v"))] (Some 10) 20 12) in
  history fs_eqb (y_mem y) (y_log y) 0 1 0 ex_key = [Entry 3 0 (AMeasure 5); Entry 5 1 (AMeasure 7); Entry 7 2 (ACollect 20 (Some pt))]
  /\ ended (y_log y) 0 4 (Measure 1 ex_attrs 5 10) RDone /\ ended (y_log y) 2 8 (Collect 0 [] false 20) (RMetrics [(1%N, [[pt]])])
  /\ y_thr y 0%nat = None /\ y_thr y 1%nat = None /\ y_thr y 2%nat = None).
Proof.
  split; [exact ex_race_ok|]. cbv zeta. split; [vm_compute; reflexivity|]. rewrite ex_race_log_eq.
   split; [|split; [|split; [|split]; vm_compute; reflexivity]].
  - split; [lia|]. exists 0%nat. split; [reflexivity|]. split; [reflexivity|]. intros n c L. destruct n as [|[|[|[|n]]]]; [lia|discriminate|discriminate|discriminate|lia].
  - split; [lia|]. exists 2%nat. split; [reflexivity|]. split; [reflexivity|]. intros n c L. destruct n as [|[|[|[|[|[|[|[|n]]]]]]]]; [lia|lia|lia|discriminate|discriminate|discriminate|discriminate|discriminate|lia].
Qed.

(** ** C107: the SDK's aggregations.  What a stream's collections give is what one aggregation gives to one thread that does the same (to which C38-C41
    apply). *)
Theorem C107_aggregations : forall float_int obj_hash views_of readers es r i j w k, calls_ok readers es -> nth_error (views_of r i) j = Some w ->
  let y := sdk_run float_int obj_hash views_of readers es in let h := history fs_eqb (y_mem y) (y_log y) r i j k in h <> [] ->
  exists attrs start k' b c, call_at (y_log y) b c /\ uses c r i attrs start /\ sdk_key float_int obj_hash w attrs = Some k' /\ fs_eqb k k' = true
  /\ given h = snd (agg_run (sv_temporality w) (sdk_new w attrs start) (map op_of h)).
Proof.
  intros float_int obj_hash views_of readers es r i j w k OK NW y h NE. destruct (sdk_sequential float_int obj_hash views_of readers es r i j w k OK NW NE) as (attrs & start & k' & x & b & c & P1 & P2 & P3 & P4 & SQ).
  exists attrs, start, k', b, c. split; [exact P1|]. split; [exact P2|]. split; [exact P3|]. split; [exact P4|]. now rewrite (seq_run w h _ _ SQ).
Qed.
Print Assumptions C107_aggregations.
(** C107: sums.  A collection by a cumulative reader gives the total of all that was added to the stream before, a collection by a delta reader the total
    of what was added since the one before it. *)
Theorem C107_sums : forall float_int obj_hash views_of readers es r i j w k, calls_ok readers es -> nth_error (views_of r i) j = Some w -> is_sum w ->
  let y := sdk_run float_int obj_hash views_of readers es in
  exists attrs start, forall h1 e h2 now p, history fs_eqb (y_mem y) (y_log y) r i j k = h1 ++ e :: h2 -> e_act e = ACollect now p ->
  let before := map op_of h1 in
  (sv_temporality w = CUMULATIVE -> p = Some (NumberPoint (NP attrs (Some start) now (total (measured before)))))
  /\ (sv_temporality w = DELTA ->
       p = match since_last [] before with
           | [] => None
           | vs => Some (NumberPoint (NP attrs (Some (last (collections before) start)) now (total vs)))
           end).
Proof.
  intros float_int obj_hash views_of readers es r i j w k OK NW SM y. destruct (sv_temporality w) eqn:TE.
  - exists [], 0. intros h1 e h2 now p _ _ before. split; discriminate.
  - destruct (sdk_delta float_int obj_hash views_of readers es r i j w k OK NW SM TE) as (attrs & start & H). exists attrs, start. intros h1 e h2 now p H1 H2 before. split; [discriminate|intros _; exact (H _ _ _ _ _ H1 H2)].
  - destruct (sdk_cumulative float_int obj_hash views_of readers es r i j w k OK NW SM TE) as (attrs & start & H). exists attrs, start. intros h1 e h2 now p H1 H2 before. split; [intros _; exact (H _ _ _ _ _ H1 H2)|discriminate].
Qed.
Print Assumptions C107_sums.
(** C107: a counter, call by call, if callbacks do not add to it.  What a collection gives is the total over a set of calls, each once, with all calls that
    ended before the collection began and none that began after it ended.  (Only if there is no such call it may give nothing.) *)
Theorem C107_counter : forall float_int obj_hash views_of readers es r i j w k,
  calls_ok readers es -> (r < readers)%nat -> nth_error (views_of r i) j = Some w -> is_sum w -> sv_temporality w = CUMULATIVE ->
  let y := sdk_run float_int obj_hash views_of readers es in let log := y_log y in let h := history fs_eqb (y_mem y) log r i j k in
  let adds := adds fs_eqb (sdk_key float_int obj_hash) log r i w k in
  (forall b r' ds tmo now, call_at log b (Collect r' ds tmo now) -> adds b = []) ->
  forall b e ds tmo now out, ended log b e (Collect r ds tmo now) (RMetrics out) ->
  (by_call b h = [] /\ forall b' e' c', ended log b' e' c' RDone -> (e' < b)%nat -> adds b' = [])
  \/ exists attrs start bs, by_call b h = [ACollect now (Some (NumberPoint (NP attrs (Some start) now (total (flat_map adds bs)))))] /\ NoDup bs
     /\ (forall b' e' c', ended log b' e' c' RDone -> (e' < b)%nat -> adds b' <> [] -> In b' bs) /\ (forall b', In b' bs -> (b' < e)%nat).
Proof. exact sdk_counter. Qed.
Print Assumptions C107_counter.
Example C107_counter_example : nth_error (ex_views CUMULATIVE 0 1) 0 = Some (SView None Default ICounter None CUMULATIVE) /\ is_sum (SView None Default ICounter None CUMULATIVE)
  /\ (let log := y_log (ex_run CUMULATIVE ex_race) in let adds := adds fs_eqb (sdk_key (fun _ => None) (fun _ => true)) log 0 1 (SView None Default ICounter None CUMULATIVE) ex_key in
      (forall b r ds tmo now, call_at log b (Collect r ds tmo now) -> adds b = []) /\ adds 0%nat = [5] /\ adds 1%nat = [7]).
Proof.
  split; [reflexivity|]. split; [split; now left|]. cbv zeta. rewrite ex_race_log_eq. split; [|split; vm_compute; reflexivity].
  intros b r ds tmo now (t & H). unfold adds. rewrite H. destruct b as [|[|[|b]]]; try discriminate; [injection H as <- <- <- <- <-; reflexivity|].
  cbn in H. repeat (destruct b as [|b]; [discriminate|cbn in H]). destruct b; discriminate.
Qed.

(** ** What does not hold *)
(** A collection is not a picture of one moment: it has a call on one instrument and not an earlier one, by the same thread, on another. *)
Definition ex_skew : list yev :=
  [YBegin 0 (Measure 1 ex_attrs 1 1)] ++ steps 30 [0]%nat ++ [YBegin 0 (Measure 2 ex_attrs 1 1)] ++ steps 30 [0]%nat
  ++ [YBegin 1 (Collect 0 [] false 20)] ++ steps 13 [1]%nat ++ [YBegin 0 (Measure 1 ex_attrs 10 21)] ++ steps 30 [0]%nat
  ++ [YBegin 0 (Measure 2 ex_attrs 10 22)] ++ steps 30 [0]%nat ++ steps 40 [1]%nat.
Definition ex_skew_log := Eval vm_compute in y_log (ex_run CUMULATIVE ex_skew).
Lemma ex_skew_log_eq : y_log (ex_run CUMULATIVE ex_skew) = ex_skew_log.
Proof. vm_compute. reflexivity. Qed.
Theorem C107_snapshot_refuted : exists es b1 e1 b2 e2 b e, let log := y_log (ex_run CUMULATIVE es) in
  ended log b1 e1 (Measure 1 ex_attrs 10 21) RDone /\ ended log b2 e2 (Measure 2 ex_attrs 10 22) RDone /\ (e1 < b2)%nat
  /\ (let pt v := NumberPoint (NP [(lit "k", PStr false (lit "v"))] (Some 1) 20 v) in
      ended log b e (Collect 0 [] false 20) (RMetrics [(1%N, [[pt 1]]); (2%N, [[pt 11]])])).
Proof.
  exists ex_skew, 8%nat, 10%nat, 11%nat, 13%nat, 6%nat, 15%nat. cbv zeta. rewrite ex_skew_log_eq.
  split; [|split; [|split; [lia|]]].
  - split; [lia|]. exists 0%nat. split; [reflexivity|]. split; [reflexivity|]. intros n c L. do 9 (destruct n as [|n]; [lia|]). destruct n as [|n]; [discriminate|lia].
  - split; [lia|]. exists 0%nat. split; [reflexivity|]. split; [reflexivity|]. intros n c L. do 12 (destruct n as [|n]; [lia|]). destruct n as [|n]; [discriminate|lia].
  - split; [lia|]. exists 1%nat. split; [reflexivity|]. split; [reflexivity|]. intros n c L. do 7 (destruct n as [|n]; [lia|]). do 8 (destruct n as [|n]; [discriminate|]). lia.
Qed.
Print Assumptions C107_snapshot_refuted.
(** The time of a point can be before its start time: a stream can begin while a collection, which has taken its time, is under way. *)
Definition ex_times : list yev :=
  [YBegin 0 (Measure 1 None 1 1)] ++ steps 30 [0]%nat ++ [YBegin 1 (Collect 0 [] false 20)] ++ steps 3 [1]%nat
  ++ [YBegin 0 (Measure 1 ex_attrs 10 21)] ++ steps 30 [0]%nat ++ steps 40 [1]%nat.
Definition ex_times_log := Eval vm_compute in y_log (ex_run CUMULATIVE ex_times).
Lemma ex_times_log_eq : y_log (ex_run CUMULATIVE ex_times) = ex_times_log.
Proof. vm_compute. reflexivity. Qed.
Theorem C107_times_refuted : exists es b e out pts pt start, let log := y_log (ex_run CUMULATIVE es) in
  ended log b e (Collect 0 [] false 20) (RMetrics out) /\ In (1%N, [pts]) out /\ In (NumberPoint pt) pts /\ np_start pt = Some start /\ np_time pt < start.
Proof.
  set (at' := [(lit "k", PStr false (lit "v"))]). exists ex_times, 3%nat, 9%nat, [(1%N, [[NumberPoint (NP [] (Some 1) 20 1); NumberPoint (NP at' (Some 21) 20 10)]])], [NumberPoint (NP [] (Some 1) 20 1); NumberPoint (NP at' (Some 21) 20 10)], (NP at' (Some 21) 20 10), 21.
  cbv zeta. rewrite ex_times_log_eq. split; [|split; [now left|split; [right; left; reflexivity|split; [reflexivity|cbn; lia]]]].
  split; [lia|]. exists 1%nat. split; [reflexivity|]. split; [reflexivity|]. intros n c L. do 4 (destruct n as [|n]; [lia|]). do 5 (destruct n as [|n]; [discriminate|]). lia.
Qed.
Print Assumptions C107_times_refuted.
(** A callback that creates an observable instrument waits for ever (and so does every later collection). *)
Lemma stuck_not_settles (y : @sys sview (option mattrs) fset agg point) : (exists t, y_thr y t <> None) -> (forall t, tstep fs_eqb y t = None) -> ~ settles fs_eqb y.
Proof. intros [t N] S H. destruct H as [IDLE|(t' & N') _]; [now apply N|]. now apply N'. Qed.
Theorem C107_reentrant_refuted : exists t es, es = YBegin t (Collect 0 [CreatesObservable] false 20) :: steps 1 [t] /\ ~ settles fs_eqb (ex_run CUMULATIVE es).
Proof.
  exists 0%nat. eexists. split; [reflexivity|]. apply stuck_not_settles; [exists 0%nat; vm_compute; discriminate|]. intros [|t]; vm_compute; reflexivity.
Qed.
Print Assumptions C107_reentrant_refuted.
(** C108 is false of a fork while another thread collects or measures: in the child, a collection, or a measurement of that stream, never ends. *)
Theorem C108_fork_refuted :
  (exists es, calls_ok 1 es /\ let y := ex_run CUMULATIVE es in y_thr y 0%nat = None /\
     let child := sdk_run_from (fun _ => None) (fun _ => true) (ex_views CUMULATIVE) 1 [YBegin 0 (Collect 0 [] false 20)] (fork 0 y) in ~ settles fs_eqb child)
  /\ (exists es, calls_ok 1 es /\ let y := ex_run CUMULATIVE es in y_thr y 0%nat = None /\
     let child := sdk_run_from (fun _ => None) (fun _ => true) (ex_views CUMULATIVE) 1 (YBegin 0 (Measure 1 ex_attrs 1 20) :: steps 20 [0]%nat) (fork 0 y) in ~ settles fs_eqb child).
Proof.
  split.
  - exists ([YBegin 1 (Collect 0 [] false 10)] ++ steps 1 [1]%nat). split; [intros t c [[= <- <-]|[[=]|[]]]; split; [lia|intros []]|]. split; [reflexivity|].
    apply stuck_not_settles; [exists 0%nat; vm_compute; discriminate|]. intros [|t]; vm_compute; reflexivity.
  - exists ([YBegin 1 (Measure 1 ex_attrs 1 10)] ++ steps 15 [1]%nat). split; [intros t c [[= <- <-]|I]; [exact Logic.I|]; exfalso; cbn in I; repeat (destruct I as [[=]|I]); destruct I|]. split; [reflexivity|].
    apply stuck_not_settles; [exists 0%nat; vm_compute; discriminate|]. intros [|t]; vm_compute; reflexivity.
Qed.
Print Assumptions C108_fork_refuted.
Example C108_example : (let y := ex_run CUMULATIVE ex_race in forall u, y_thr y u = None).
Proof. cbv zeta. intro u. destruct u as [|[|[|u]]]; vm_compute; reflexivity. Qed.
