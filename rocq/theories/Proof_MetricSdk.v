(** Proofs about the metrics SDK with threads and the aggregations of the SDK. *)
From Verif Require Export Spec_MetricSdk.
From Verif Require Import Proof_Metrics Proof_View Proof_MetricHistory.
From Coq Require Import Lia Sorted.
Local Open Scope Z_scope.

Section Any.
Context {V T K A D : Type}.
Variable keq : K -> K -> bool.
Hypothesis keq_refl : forall k, keq k k = true.
Hypothesis keq_sym : forall k k', keq k k' = keq k' k.
Hypothesis keq_trans : forall k k' k'', keq k k' = true -> keq k' k'' = true -> keq k k'' = true.
Variable key_of : V -> T -> option K.
Variable new_agg : V -> T -> Z -> A.
Variable aggregate1 : A -> Z -> A.
Variable collect1 : V -> A -> Z -> A * option D.
Variable views_of : nat -> N -> list V.
Variable readers : nat.
Notation yrun := (yrun keq key_of new_agg aggregate1 collect1 views_of readers).
Notation inv := (inv keq key_of new_agg aggregate1 collect1 views_of readers).

Lemma run_inv es : calls_ok readers es -> exists W, inv (yrun es sys0) W.
Proof. intro OK. exact (inv_run keq keq_refl keq_sym key_of new_agg aggregate1 collect1 views_of readers es OK sys0 (ex_intro _ world0 (inv0 _ _ _ _ _ _ _))). Qed.
Lemma stream_sequential es r i j w k a : calls_ok readers es -> nth_error (views_of r i) j = Some w ->
  let y := yrun es sys0 in stream keq (y_mem y) r i j k = Some a ->
  exists attrs now k' x b c, call_at (y_log y) b c /\ uses c r i attrs now /\ key_of w attrs = Some k' /\ keq k k' = true
  /\ st (y_mem y) a = Some x /\ sequential aggregate1 collect1 w (new_agg w attrs now) (map e_act (entries a (y_log y))) x.
Proof.
  intros OK NW y ST. destruct (run_inv es OK) as [W IV]. fold y in IV. pose proof (i_wf _ _ _ _ _ _ _ _ _ IV) as F. rewrite <- (i_mm _ _ _ _ _ _ _ _ _ IV) in *.
  destruct (stream_inv keq key_of views_of _ _ _ _ _ _ F ST) as (ms & m & k' & attrs & now & w' & I1 & NM & I2 & KE & O & PL & NV & VW & KO).
  rewrite NW in NV. injection NV as <-. destruct (i_sound _ _ _ _ _ _ _ _ _ IV _ _ _ _ _ O) as ((w' & x & VW' & SX & SQ) & r' & i' & j' & b & c & PL' & CA & US).
  rewrite PL in PL'. injection PL' as <- <- <-. rewrite VW in VW'. injection VW' as <-. exists attrs, now, k', x, b, c. auto 8.
Qed.
Lemma streams_apart es r i j k r' i' j' k' a : calls_ok readers es -> let y := yrun es sys0 in
  stream keq (y_mem y) r i j k = Some a -> stream keq (y_mem y) r' i' j' k' = Some a -> r' = r /\ i' = i /\ j' = j /\ keq k' k = true.
Proof.
  intros OK y S1 S2. destruct (run_inv es OK) as [W IV]. fold y in IV. pose proof (i_wf _ _ _ _ _ _ _ _ _ IV) as F. rewrite <- (i_mm _ _ _ _ _ _ _ _ _ IV) in *.
  destruct (stream_inv keq key_of views_of _ _ _ _ _ _ F S1) as (ms & m & k1 & attrs & now & w & I1 & NM & I2 & KE & O & PL & _).
  destruct (stream_inv keq key_of views_of _ _ _ _ _ _ F S2) as (ms' & m' & k1' & attrs' & now' & w' & I1' & NM' & I2' & KE' & O' & PL' & _).
  rewrite O in O'. injection O' as <- <- <- <-. rewrite PL in PL'. injection PL' as <- <- <-. split; [reflexivity|]. split; [reflexivity|]. split; [reflexivity|]. eapply keq_trans; [exact KE'|]. now rewrite keq_sym.
Qed.
Lemma history_within es r i j k : calls_ok readers es -> let y := yrun es sys0 in
  StronglySorted lt (map e_pos (history keq (y_mem y) (y_log y) r i j k)) /\ Forall (within (y_log y)) (history keq (y_mem y) (y_log y) r i j k).
Proof.
  intros OK y. destruct (run_inv es OK) as [W IV]. fold y in IV. unfold history. destruct (stream keq (y_mem y) r i j k) as [a|]; [|split; constructor].
  split; [apply entries_sorted|]. apply Forall_forall. intros e I. rewrite entries_all in I. apply in_map_iff in I. destruct I as (x & <- & I). apply filter_In in I. destruct I as [I _]. now apply (i_in _ _ _ _ _ _ _ _ _ IV).
Qed.
Lemma calls_in_log es b c : calls_ok readers es -> call_at (y_log (yrun es sys0)) b c -> may_call readers c.
Proof. intros OK (t & H). eapply (log_calls keq key_of new_agg aggregate1 collect1 views_of readers es sys0); [intros b0 t0 c0 H0; destruct b0; discriminate|exact OK|exact H]. Qed.

(** Histories and calls *)
Lemma seq_app w (x : A) l1 l2 y : sequential aggregate1 collect1 w x (l1 ++ l2) y -> exists z, sequential aggregate1 collect1 w x l1 z /\ sequential aggregate1 collect1 w z l2 y.
Proof.
  revert x. induction l1 as [|act l1 IH]; intros x H; [exists x; split; [constructor|exact H]|]. cbn in H. inversion H; subst; destruct (IH _ ltac:(eassumption)) as (z & S1 & S2); exists z; split; auto; constructor; auto.
Qed.
Lemma in_by_call (h : list (@entry D)) e : In e h -> In (e_act e) (by_call (e_call e) h).
Proof. intro I. unfold by_call. apply in_map. apply filter_In. split; [exact I|apply Nat.eqb_refl]. Qed.
Lemma by_call_in (h : list (@entry D)) b act : In act (by_call b h) -> exists e, In e h /\ e_call e = b /\ e_act e = act.
Proof. unfold by_call. intro I. apply in_map_iff in I. destruct I as (e & <- & I). apply filter_In in I. destruct I as [I Q]. apply Nat.eqb_eq in Q. eauto. Qed.
End Any.

(** ** The aggregations of the SDK *)
Section Sdk.
Variable float_int : Z -> option Z.
Variable obj_hash : N -> bool.
Variable views_of : nat -> N -> list sview.
Variable readers : nat.
Notation seq1 := (sequential Model_Metrics.aggregate sdk_collect).
Notation sdk_key := (sdk_key float_int obj_hash).
Notation sdk_run := (sdk_run float_int obj_hash views_of readers).

Lemma seq_run w h : forall x y, seq1 w x (map e_act h) y -> agg_run (sv_temporality w) x (map op_of h) = (y, given h).
Proof.
  unfold agg_run, run_alone. enough (H : forall x y out, seq1 w x (map e_act h) y -> fold_left (fun s o => match o with
     | Model_Metrics.Measure v => (Model_Metrics.aggregate (fst s) v, snd s)
     | Model_Metrics.Collect now => let (a', p) := Model_Metrics.collect (fst s) (sv_temporality w) now in (a', snd s ++ [p]) end) (map op_of h) (x, out) = (y, out ++ given h)) by (intros x y SQ; exact (H x y [] SQ)).
  induction h as [|[p b act] h IH]; intros x y out SQ; cbn in SQ; inversion SQ; subst; unfold given; cbn [map op_of e_act fold_left flat_map fst snd].
  - now rewrite app_nil_r.
  - now apply IH.
  - unfold sdk_collect in *. destruct (Model_Metrics.collect x (sv_temporality w) now) as [a' q] eqn:E. cbn [fst snd] in *. rewrite (IH _ _ (out ++ [q]) ltac:(eassumption)). now rewrite <- app_assoc.
Qed.
(** A sum after a history *)
Lemma sum_is w attrs now : is_sum w -> exists mono at', sdk_new w attrs now = AgSum (sum_new at' mono DELTA now).
Proof. intros [[A|A] [B|B]]; unfold sdk_new; rewrite A, B; cbn; eauto. Qed.
Definition snoc_hist h (o : mop) := h ++ [o].
Lemma cum_state w at' mono start h : sv_temporality w = CUMULATIVE -> forall y, seq1 w (AgSum (sum_new at' mono DELTA start)) (map e_act h) y ->
  exists v prev, y = AgSum (SumA at' mono DELTA start v start prev) /\ match v with Some z => z | None => 0 end + prev = total (measured (map op_of h)).
Proof.
  intro CU. induction h as [|e h IH] using rev_ind; intros y SQ; [inversion SQ; subst; exists None, 0; split; reflexivity|].
  rewrite map_app in SQ. destruct (seq_app _ _ _ _ _ _ _ SQ) as (z & S1 & S2). destruct (IH _ S1) as (v & prev & -> & TT). rewrite map_app, measured_app, total_app, <- TT. destruct e as [p b act]. cbn [map e_act op_of] in *. inversion S2; subst; match goal with H : seq1 _ _ [] _ |- _ => inversion H; subst end; unfold op_of; cbn [e_act].
  - eexists. eexists. split; [reflexivity|]. cbn. destruct v; lia.
  - unfold sdk_collect. rewrite CU. cbn. eexists. eexists. split; [reflexivity|]. cbn. lia.
Qed.
Lemma delta_state w at' mono start h : sv_temporality w = DELTA -> forall y, seq1 w (AgSum (sum_new at' mono DELTA start)) (map e_act h) y ->
  exists prev, y = AgSum (SumA at' mono DELTA start (value_of (since_last [] (map op_of h))) (last (collections (map op_of h)) start) prev).
Proof.
  intro CU. induction h as [|e h IH] using rev_ind; intros y SQ; [inversion SQ; subst; exists 0; reflexivity|].
  rewrite map_app in SQ. destruct (seq_app _ _ _ _ _ _ _ SQ) as (z & S1 & S2). destruct (IH _ S1) as (prev & ->). rewrite map_app, since_last_app, collections_app. destruct e as [p b act]. cbn [map e_act op_of] in *. inversion S2; subst; match goal with H : seq1 _ _ [] _ |- _ => inversion H; subst end; unfold op_of; cbn [e_act].
  - exists prev. cbn. rewrite app_nil_r, value_of_snoc. reflexivity.
  - unfold sdk_collect. rewrite CU. cbn. exists prev. now rewrite last_snoc.
Qed.

Lemma sdk_sequential es r i j w k : calls_ok readers es -> nth_error (views_of r i) j = Some w ->
  let y := sdk_run es in let h := history fs_eqb (y_mem y) (y_log y) r i j k in h <> [] ->
  exists attrs start k' x b c, call_at (y_log y) b c /\ uses c r i attrs start /\ sdk_key w attrs = Some k' /\ fs_eqb k k' = true /\ seq1 w (sdk_new w attrs start) (map e_act h) x.
Proof.
  intros OK NW y h NE. unfold h, history in NE |- *. destruct (stream fs_eqb (y_mem y) r i j k) as [a|] eqn:ST; [|contradiction].
  destruct (stream_sequential fs_eqb fs_eqb_refl fs_eqb_sym sdk_key sdk_new Model_Metrics.aggregate sdk_collect views_of readers es r i j w k a OK NW ST) as (attrs & now & k' & x & b & c & P1 & P2 & P3 & P4 & P5 & P6).
  exists attrs, now, k', x, b, c. auto.
Qed.
Lemma sdk_cumulative es r i j w k : calls_ok readers es -> nth_error (views_of r i) j = Some w -> is_sum w -> sv_temporality w = CUMULATIVE ->
  let y := sdk_run es in exists attrs start, forall h1 e h2 now p, history fs_eqb (y_mem y) (y_log y) r i j k = h1 ++ e :: h2 -> e_act e = ACollect now p ->
  p = Some (NumberPoint (NP attrs (Some start) now (total (measured (map op_of h1))))).
Proof.
  intros OK NW SM CU y. set (h := history fs_eqb (y_mem y) (y_log y) r i j k). destruct h as [|e0 h0] eqn:EH; [exists [], 0; intros [|? ?] ? ? ? ? [=]|].
  destruct (sdk_sequential es r i j w k OK NW) as (attrs & start & k' & x & b & c & _ & _ & _ & _ & SQ); [fold y h; congruence|]. fold y h in SQ. rewrite <- EH. destruct (sum_is w attrs start SM) as (mono & at' & NS). rewrite NS in SQ.
  exists at', start. intros h1 e h2 now p HH EA. rewrite HH, map_app in SQ. destruct (seq_app _ _ _ _ _ _ _ SQ) as (z & S1 & S2). destruct (cum_state w at' mono start h1 CU z S1) as (v & prev & -> & TT).
  cbn [map] in S2. rewrite EA in S2. inversion S2; subst. unfold sdk_collect. rewrite CU. cbn. rewrite <- TT. destruct v; reflexivity.
Qed.
Lemma sdk_delta es r i j w k : calls_ok readers es -> nth_error (views_of r i) j = Some w -> is_sum w -> sv_temporality w = DELTA ->
  let y := sdk_run es in exists attrs start, forall h1 e h2 now p, history fs_eqb (y_mem y) (y_log y) r i j k = h1 ++ e :: h2 -> e_act e = ACollect now p ->
  p = match since_last [] (map op_of h1) with
      | [] => None
      | vs => Some (NumberPoint (NP attrs (Some (last (collections (map op_of h1)) start)) now (total vs)))
      end.
Proof.
  intros OK NW SM CU y. set (h := history fs_eqb (y_mem y) (y_log y) r i j k). destruct h as [|e0 h0] eqn:EH; [exists [], 0; intros [|? ?] ? ? ? ? [=]|].
  destruct (sdk_sequential es r i j w k OK NW) as (attrs & start & k' & x & b & c & _ & _ & _ & _ & SQ); [fold y h; congruence|]. fold y h in SQ. rewrite <- EH. destruct (sum_is w attrs start SM) as (mono & at' & NS). rewrite NS in SQ.
  exists at', start. intros h1 e h2 now p HH EA. rewrite HH, map_app in SQ. destruct (seq_app _ _ _ _ _ _ _ SQ) as (z & S1 & S2). destruct (delta_state w at' mono start h1 CU z S1) as (prev & ->).
  cbn [map] in S2. rewrite EA in S2. inversion S2; subst. unfold sdk_collect. rewrite CU. cbn. destruct (since_last [] (map op_of h1)); reflexivity.
Qed.
(** ** A counter, call by call *)
Definition is_measure (e : @entry point) : bool := match e_act e with AMeasure _ => true | _ => false end.
Lemma by_call_app b (h1 h2 : list (@entry point)) : by_call b (h1 ++ h2) = by_call b h1 ++ by_call b h2.
Proof. unfold by_call. now rewrite filter_app, map_app. Qed.
Lemma once_nodup (h : list (@entry point)) : (forall x, In x h -> is_measure x = true -> (length (by_call (e_call x) h) <= 1)%nat) -> NoDup (map e_call (filter is_measure h)).
Proof.
  induction h as [|x h IH]; intro H; [constructor|].
  assert (HT : forall b, (length (by_call b h) <= length (by_call b (x :: h)))%nat) by (intro b; unfold by_call; cbn; destruct (Nat.eqb (e_call x) b); cbn; lia).
  assert (IH' : NoDup (map e_call (filter is_measure h))). { apply IH. intros y I M. specialize (H y (or_intror I) M). specialize (HT (e_call y)). lia. }
  cbn. destruct (is_measure x) eqn:M; [|exact IH']. cbn. constructor; [|exact IH']. intro I. apply in_map_iff in I. destruct I as (y & EQ & I). apply filter_In in I. destruct I as [I MY].
  specialize (H x (or_introl eq_refl) M). unfold by_call in H. cbn in H. rewrite Nat.eqb_refl in H. cbn in H. rewrite map_length in H.
  assert (In y (filter (fun e => Nat.eqb (e_call e) (e_call x)) h)) by (apply filter_In; split; [exact I|now apply Nat.eqb_eq]). destruct (filter (fun e => Nat.eqb (e_call e) (e_call x)) h); [assumption|cbn in H; lia].
Qed.
Lemma sorted_order (h1 : list (@entry point)) e h2 x : StronglySorted lt (map e_pos (h1 ++ e :: h2)) -> In x (h1 ++ e :: h2) -> (e_pos x < e_pos e)%nat -> In x h1.
Proof.
  intros S I L. apply in_app_or in I. destruct I as [I|[->|I]]; [exact I|lia|]. exfalso. rewrite map_app in S. cbn in S.
  assert (S2 : StronglySorted lt (e_pos e :: map e_pos h2)) by (clear - S; induction (map e_pos h1); [exact S|]; inversion S; auto). inversion S2 as [|? ? _ F]; subst. rewrite Forall_forall in F. specialize (F (e_pos x) (in_map e_pos _ _ I)). lia.
Qed.
Lemma sorted_before (h1 : list (@entry point)) e h2 x : StronglySorted lt (map e_pos (h1 ++ e :: h2)) -> In x h1 -> (e_pos x < e_pos e)%nat.
Proof.
  intros S I. induction h1 as [|y h1 IH]; [destruct I|]. cbn in S. inversion S as [|? ? S' F]; subst. destruct I as [->|I]; [|auto]. rewrite Forall_forall in F. apply F. rewrite map_app. apply in_or_app. right. now left.
Qed.
Lemma sdk_counter es r i j w k : calls_ok readers es -> (r < readers)%nat -> nth_error (views_of r i) j = Some w -> is_sum w -> sv_temporality w = CUMULATIVE ->
  let y := sdk_run es in let log := y_log y in let h := history fs_eqb (y_mem y) log r i j k in let adds := adds fs_eqb sdk_key log r i w k in
  (forall b r' ds tmo now, call_at log b (Collect r' ds tmo now) -> adds b = []) ->
  forall b e ds tmo now out, ended log b e (Collect r ds tmo now) (RMetrics out) ->
  (by_call b h = [] /\ forall b' e' c', ended log b' e' c' RDone -> (e' < b)%nat -> adds b' = [])
  \/ exists attrs start bs, by_call b h = [ACollect now (Some (NumberPoint (NP attrs (Some start) now (total (flat_map adds bs)))))] /\ NoDup bs
     /\ (forall b' e' c', ended log b' e' c' RDone -> (e' < b)%nat -> adds b' <> [] -> In b' bs) /\ (forall b', In b' bs -> (b' < e)%nat).
Proof.
  intros OK RL NW SM CU y log h ad NC b e ds tmo now out EN.
  destruct (run_inv fs_eqb fs_eqb_refl fs_eqb_sym sdk_key sdk_new Model_Metrics.aggregate sdk_collect views_of readers es OK) as [W IV].
  destruct (history_within fs_eqb fs_eqb_refl fs_eqb_sym sdk_key sdk_new Model_Metrics.aggregate sdk_collect views_of readers es r i j k OK) as [SO WI]. fold (sdk_run es) in IV, SO, WI. fold y in IV, SO, WI. fold log in SO, WI. fold h in SO, WI.
  pose proof (fun b e c res => ended_completes fs_eqb fs_eqb_refl fs_eqb_sym fs_eqb_trans sdk_key sdk_new Model_Metrics.aggregate sdk_collect views_of readers y W b e c res r i j w k IV RL NW) as CP. fold log in CP. fold h in CP.
  assert (ADD : forall b' c, call_at log b' c -> ad b' = work fs_eqb sdk_key r i w k c) by (intros b' c (t & H); unfold ad, adds; now rewrite H).
  assert (EARLY : forall b' e' c', ended log b' e' c' RDone -> ad b' <> [] -> exists x, In x h /\ e_call x = b' /\ is_measure x = true /\ (e_pos x < e')%nat).
  { intros b' e' c' EN' NE. pose proof (CP _ _ _ _ EN') as C. cbn in C. assert (CA : call_at log b' c') by (destruct EN' as (_ & t & H & _); now exists t). rewrite (ADD _ _ CA) in NE.
    destruct (work fs_eqb sdk_key r i w k c') as [|v ws]; [contradiction|]. destruct (by_call_in h b' (AMeasure v)) as (x & I & EC & EA); [rewrite C; now left|]. exists x. split; [exact I|]. split; [exact EC|]. split; [unfold is_measure; now rewrite EA|].
    rewrite Forall_forall in WI. destruct (WI _ I) as (_ & _ & WE). rewrite EC in WE. exact (WE _ _ _ EN'). }
  assert (CAB : call_at log b (Collect r ds tmo now)) by (destruct EN as (_ & t & H & _); now exists t).
  pose proof (CP _ _ _ _ EN) as C. unfold completes in C. destruct C as (r' & ds' & tmo' & now' & EQ & C). injection EQ as <- <- <- <-. rewrite Nat.eqb_refl in C.
  rewrite <- (ADD _ _ CAB), (NC _ _ _ _ _ CAB) in C.
  destruct C as [(p & C)|(C & _ & LT)]; [right|left].
  2: { split; [exact C|]. intros b' e' c' EN' L. destruct (ad b') eqn:EA; [reflexivity|]. exfalso. destruct (EARLY _ _ _ EN') as (x & I & _ & _ & PX); [rewrite EA; discriminate|]. specialize (LT _ I). lia. }
  cbn in C. destruct (by_call_in h b (ACollect now p)) as (e0 & I0 & EC0 & EA0); [rewrite C; now left|]. apply in_split in I0. destruct I0 as (h1 & h2 & HH).
  destruct (sdk_cumulative es r i j w k OK NW SM CU) as (attrs & start & PT). fold y in PT. fold log in PT. fold h in PT. specialize (PT _ _ _ _ _ HH EA0).
  assert (ONE : forall x, In x h -> is_measure x = true -> exists v, e_act x = AMeasure v /\ ad (e_call x) = [v] /\ by_call (e_call x) h = [AMeasure v]).
  { intros x I M. unfold is_measure in M. destruct (e_act x) as [v|] eqn:EX; [|discriminate]. exists v. split; [reflexivity|]. rewrite Forall_forall in WI. destruct (WI _ I) as (_ & (c & CA) & _).
    pose proof (call_so_far fs_eqb fs_eqb_refl fs_eqb_sym fs_eqb_trans sdk_key sdk_new Model_Metrics.aggregate sdk_collect views_of readers es (e_call x) c r i j w k OK RL NW CA) as U. fold (sdk_run es) in U. fold y in U. fold log in U. fold h in U.
    pose proof (in_by_call h x I) as IB. rewrite EX in IB. rewrite (ADD _ _ CA). destruct U as (l & rest & U & RS). destruct c as [i' at' v' n'| |r' ds' tmo' n'].
    - destruct RS as [->|(ds' & tmo' & n2 & p2 & [=] & _)]. rewrite app_nil_r in U. cbn in U |- *. destruct (N.eqb i' i && fits fs_eqb sdk_key w k at')%bool.
      + cbn in U. destruct (by_call (e_call x) h) as [|a0 l0]; [destruct IB|]. cbn in U. injection U as -> U. apply app_eq_nil in U. destruct U as [-> _]. destruct IB as [[= ->]|[]]. auto.
      + cbn in U. destruct (by_call (e_call x) h); [destruct IB|discriminate].
    - destruct RS as [->|(ds' & tmo' & n2 & p2 & [=] & _)]. cbn in U. destruct (by_call (e_call x) h); [destruct IB|discriminate].
    - rewrite <- (ADD _ _ CA), (NC _ _ _ _ _ CA) in U. cbn in U. exfalso. assert (IU : In (AMeasure v) rest) by (rewrite <- U; apply in_or_app; now left). destruct RS as [->|(? & ? & ? & ? & _ & ->)]; [destruct IU|]. destruct IU as [[=]|[]]. }
  assert (SUB : forall x, In x h1 -> In x h) by (intros x I; rewrite HH; apply in_or_app; now left).
  exists attrs, start, (map e_call (filter is_measure h1)). split; [|split; [|split]].
  - rewrite C, PT. do 5 f_equal. assert (ONE1 : forall x, In x h1 -> is_measure x = true -> exists v, e_act x = AMeasure v /\ ad (e_call x) = [v]) by (intros x I M; destruct (ONE x (SUB _ I) M) as (v & A1 & A2 & _); eauto).
    clear - ONE1. induction h1 as [|x h1 IH]; [reflexivity|]. cbn [map filter measured flat_map]. assert (IH' := IH (fun y I => ONE1 y (or_intror I))). clear IH. pose proof (ONE1 x (or_introl eq_refl)) as OX. unfold is_measure at 1. unfold is_measure in OX at 1. unfold op_of at 1. destruct (e_act x) as [v|n q] eqn:EX.
    + destruct (OX eq_refl) as (v' & [= <-] & AX). cbn [map flat_map]. rewrite AX. cbn. f_equal. exact IH'.
    + cbn. exact IH'.
  - apply once_nodup. intros x I M. destruct (ONE x (SUB _ I) M) as (v & _ & _ & BC). rewrite HH, by_call_app in BC. apply (f_equal (@length _)) in BC. rewrite app_length in BC. cbn in BC. lia.
  - intros b' e' c' EN' L NE. destruct (EARLY _ _ _ EN' NE) as (x & I & <- & M & PX). apply in_map. apply filter_In. split; [|exact M]. rewrite HH in I, SO. apply (sorted_order h1 e0 h2); [exact SO|exact I|].
    rewrite Forall_forall in WI. destruct (WI e0) as (L0 & _); [rewrite HH; apply in_or_app; right; now left|]. lia.
  - intros b' I. apply in_map_iff in I. destruct I as (x & <- & I). apply filter_In in I. destruct I as [I _]. rewrite Forall_forall in WI. destruct (WI x (SUB _ I)) as (L1 & _). rewrite HH in SO. pose proof (sorted_before _ _ _ _ SO I) as L2.
    destruct (WI e0) as (_ & _ & L3); [rewrite HH; apply in_or_app; right; now left|]. rewrite EC0 in L3. specialize (L3 _ _ _ EN). lia.
Qed.
End Sdk.

(** ** Forking when no call is under way *)
Section Fork.
Context {V T K A D : Type}.
Variable keq : K -> K -> bool.
Variable key_of : V -> T -> option K.
Variable new_agg : V -> T -> Z -> A.
Variable aggregate1 : A -> Z -> A.
Variable collect1 : V -> A -> Z -> A * option D.
Variable views_of : nat -> N -> list V.
Variable readers : nat.
Notation yrun := (yrun keq key_of new_agg aggregate1 collect1 views_of readers).
Notation ystep := (ystep keq key_of new_agg aggregate1 collect1 views_of readers).
Definition alike (y z : @sys V T K A D) : Prop :=
  y_mem z = y_mem y /\ (forall l, y_lock z l = y_lock y l) /\ (forall t, y_thr z t = y_thr y t) /\ y_log z = y_log y.
Definition alike_o (y z : option (@sys V T K A D)) : Prop := match y, z with Some y, Some z => alike y z | None, None => True | _, _ => False end.
Lemma alike_step y z e : alike y z -> alike_o (ystep y e) (ystep z e).
Proof.
  intros (M & L & H & G). destruct e as [t c|t]; cbn [Model_MetricThreads.ystep].
  - rewrite H. destruct (y_thr y t); [exact I|]. cbn. unfold alike. cbn. rewrite M, G. split; [reflexivity|]. split; [exact L|]. split; [|reflexivity]. intro u. unfold upd. now rewrite H.
  - unfold tstep. rewrite H. destruct (y_thr y t) as [[c p]|]; [|exact I].
    assert (U : forall x u, upd (y_thr z) t x u = upd (y_thr y) t x u) by (intros x u; unfold upd; now rewrite H).
    assert (UL : forall l o l', lupd (y_lock z) l o l' = lupd (y_lock y) l o l') by (intros l o l'; unfold lupd; now rewrite L).
    destruct p; rewrite ?M, ?L, ?G; try (cbn; unfold alike; cbn; rewrite ?M, ?G; repeat split; auto; fail).
    + destruct (y_lock y l); cbn; [exact I|]. unfold alike. cbn. rewrite ?M, ?G. repeat split; auto.
    + destruct (vw (y_mem y) m); cbn; [|exact I]. unfold alike. cbn. rewrite ?M, ?G. repeat split; auto.
    + destruct (st (y_mem y) a); cbn; [|exact I]. unfold alike. cbn. rewrite ?M, ?G. repeat split; auto.
Qed.
Lemma alike_run es : forall y z, alike y z -> alike (yrun es y) (yrun es z).
Proof.
  induction es as [|e es IH]; intros y z AL; [exact AL|]. cbn. apply IH. pose proof (alike_step y z e AL) as S. destruct (ystep y e), (ystep z e); try contradiction; assumption.
Qed.
Lemma fork_idle t y : (forall u, y_thr y u = None) -> alike y (fork t y).
Proof. intro N. unfold alike, fork. cbn. repeat split; auto. intro u. rewrite N. destruct (Nat.eqb u t); reflexivity. Qed.
Lemma fork_run t es es2 : (forall u, y_thr (yrun es sys0) u = None) -> alike (yrun (es ++ es2) sys0) (yrun es2 (fork t (yrun es sys0))).
Proof. intro N. unfold Model_MetricThreads.yrun at 1. rewrite fold_left_app. apply alike_run. now apply fork_idle. Qed.
End Fork.
