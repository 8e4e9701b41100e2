(** Proofs about a Prometheus scrape of what the program measured. *)
From Verif Require Import Proof_Dict Proof_Str.
From Verif Require Spec_Prometheus Proof_Prometheus Props_Prometheus.
From Verif Require Import Proof_Metrics Proof_View Proof_Storage Proof_Pipeline Proof_Streams Spec_Scrape.
From Coq Require Import Lia.
Local Open Scope Z_scope.

(** ** Buckets that count up *)
Lemma count_split p q u l : (forall z, In z l -> u z = p z || q z) -> (forall z, p z = true -> q z = true -> False) -> count_in p l + count_in q l = count_in u l.
Proof.
  intros U D. unfold count_in. rewrite <- Nat2Z.inj_add. f_equal. induction l as [|z l IH]; [reflexivity|]. cbn [filter].
  rewrite (U z) by now left. assert (IH' := IH (fun z I => U z (or_intror I))). specialize (D z). destruct (p z), (q z); cbn [orb length]; try lia; exfalso; now apply D.
Qed.
Lemma total_app a b : total (a ++ b) = total a + total b.
Proof. unfold total. induction a; cbn [app fold_right]; lia. Qed.
Lemma total_firstn (c : list Z) n : (n < length c)%nat -> total (firstn (S n) c) = total (firstn n c) + nth n c 0.
Proof.
  intros L. assert (E : firstn (S n) c = firstn n c ++ [nth n c 0]).
  { revert n L. induction c as [|x c IH]; intros n L; [cbn in L; lia|]. destruct n; [reflexivity|]. cbn [firstn nth app]. f_equal. apply IH. cbn in L. lia. }
  rewrite E, total_app. cbn. lia.
Qed.
Lemma up_to bounds l : sorted bounds -> forall n b, nth_error bounds n = Some b -> total (firstn (S n) (counted bounds l)) = count_in (fun z => z <=? b) l.
Proof.
  intros S0. assert (LC := counted_length bounds l). induction n as [|n IH]; intros b E; assert (L : (_ < length bounds)%nat) by (apply nth_error_Some; rewrite E; discriminate).
  - rewrite total_firstn, counted_nth by (assumption || lia). cbn [firstn]. replace (total []) with 0 by reflexivity.
    unfold in_bucket. rewrite E. cbn [andb]. reflexivity.
  - destruct (nth_error bounds n) as [lo|] eqn:En; [|apply nth_error_None in En; lia].
    rewrite total_firstn, counted_nth, (IH lo eq_refl) by (assumption || lia). apply count_split.
    + intros z _. unfold in_bucket. rewrite En, E.
      assert (lo <= b).
      { pose proof (S0 n (S n) ltac:(lia)) as X. rewrite (nth_error_nth _ _ 0 En), (nth_error_nth _ _ 0 E) in X. exact X. }
      destruct (Z.leb_spec z lo), (Z.leb_spec z b), (Z.ltb_spec lo z); cbn; try reflexivity; lia.
    + intros z A B. unfold in_bucket in B. rewrite En in B. apply Z.leb_le in A. apply Bool.andb_true_iff in B as [B _]. apply Z.ltb_lt in B. lia.
Qed.
Lemma split_pairs {A B} (l : list (A * B)) f g : map fst l = f -> map snd l = g -> l = combine f g.
Proof. intros <- <-. induction l as [|[a b] l IH]; [reflexivity|]. cbn. now rewrite <- IH. Qed.
Lemma nth_ext_error {A} (l l' : list A) : length l = length l' -> (forall n, (n < length l)%nat -> nth_error l n = nth_error l' n) -> l = l'.
Proof.
  revert l'. induction l as [|x l IH]; intros [|y l'] L N; try discriminate; [reflexivity|].
  pose proof (N O ltac:(cbn; lia)) as E. injection E as ->. f_equal. apply IH; [now injection L|]. intros n Hn. apply (N (S n)). cbn. lia.
Qed.
Lemma counts_total bounds l : sorted bounds -> total (counted bounds l) = Z.of_nat (length l).
Proof. intros _. apply counted_total. Qed.
Lemma convert_counts bounds l : sorted bounds ->
  convert_buckets (counted bounds l) (map NInt bounds) = map (fun b => (Some (NInt b), count_in (fun z => z <=? b) l)) bounds ++ [(None, Z.of_nat (length l))].
Proof.
  intros S0. assert (LC := counted_length bounds l).
  destruct (Props_Prometheus.C55_buckets (counted bounds l) (map NInt bounds)) as (Fs & Ns & _); [now rewrite map_length|].
  set (sh := convert_buckets _ _) in *.
  assert (Ls : length sh = S (length bounds)).
  { rewrite <- (map_length fst), Fs, app_length, !map_length. cbn. lia. }
  assert (Sn : map snd sh = map (fun b => count_in (fun z => z <=? b) l) bounds ++ [Z.of_nat (length l)]).
  { apply nth_ext_error; [rewrite app_length, !map_length, Ls; cbn; lia|]. rewrite map_length, Ls. intros n Hn. rewrite Ns by lia.
    destruct (nth_error bounds n) as [b|] eqn:E.
    - rewrite nth_error_app1 by (rewrite map_length; apply nth_error_Some; congruence). rewrite nth_error_map, E. cbn. f_equal. apply (up_to bounds l S0 n b E).
    - apply nth_error_None in E. rewrite nth_error_app2 by (rewrite map_length; lia). rewrite map_length. replace (n - length bounds)%nat with O by lia. cbn [nth_error]. f_equal.
      rewrite firstn_all2 by lia. now apply counts_total. }
  rewrite (split_pairs sh _ _ Fs Sn). clear. rewrite map_map. induction bounds as [|b bounds IH]; [reflexivity|]. cbn [map app combine]. now rewrite IH.
Qed.

Section Scrape.
Variable float_int : Z -> option Z.
Variable obj_hash : N -> bool.
Variable fnmatch : str -> str -> bool.
Context {Scope : Type} `{EqDec Scope}.
Variable the_scope : Scope -> scope.
Variable obj : N -> instr.
Variable scope_of : N -> Scope.
Variable views : list (@view aggregation).
Variable readers : list (@reader aggregation).
Variable infty : bool -> Z.
Variable other_digit : N -> bool.
Variable dumps : pyval -> str.
Variable res : resource.
Variable r : nat.
Notation api_call := (api_call float_int obj_hash obj).
Notation stream := (stream fnmatch the_scope obj scope_of views).
(** All streams are of these kinds: sums, last values, and histograms of synchronous instruments, with increasing
    boundaries; and what is dropped. *)
Definition covered (i : N) (g : aggregation) : Prop :=
  gives_sum (in_kind (obj i)) g \/ gives_gauge (in_kind (obj i)) g
  \/ (synchronous (in_kind (obj i)) = true /\ exists bounds e, gives_histogram (obj i) g bounds e /\ sorted bounds)
  \/ g = Drop.
Lemma all_covered i v g : stream i v g -> boundaries_ok obj i g -> covered i g.
Proof.
  intros [S A] [B N]. unfold covered, gives_sum, gives_gauge. destruct A as [[ND ->]|[D ->]].
  - destruct S as [[_ (_ & _ & C)]|(_ & _ & _ & _ & E)]; [|now destruct ND].
    destruct (v_agg v) as [| | | |[bounds|] e] eqn:EA; [now destruct ND|left; now left|right; left; now left|now (right; right; right)| |now destruct (N e)].
    right. right. left. split; [|exists bounds, e; split; [now left|apply (B bounds e); now left]].
    destruct (synchronous (in_kind (obj i))) eqn:SY; [reflexivity|]. exfalso. revert C. unfold wants_buckets. intuition eauto.
  - cbn [rd_aggregation prometheus_reader] in *. destruct (in_kind (obj i)) eqn:EK; cbn; try (left; right; split; [reflexivity|tauto]); try (right; left; right; split; [reflexivity|tauto]).
    right. right. left. split; [reflexivity|]. destruct (in_adv (obj i)) as [bounds|] eqn:EV.
    + exists bounds, true. assert (G : gives_histogram (obj i) Default bounds true) by (right; repeat (split; [assumption || reflexivity|]); now left). split; [exact G|exact (B _ _ G)].
    + exists standard_boundaries, true. assert (G : gives_histogram (obj i) Default standard_boundaries true) by (right; repeat (split; [assumption || reflexivity|]); now right). split; [exact G|exact (B _ _ G)].
Qed.
Notation counted_now := (counted_now obj r).
Notation same_attributes ks := (same_stream float_int obj_hash ks).
Notation with_attrs ks := (with_attrs float_int obj_hash ks).
Notation each_attrs ks := (each_attrs float_int obj_hash ks).
Notation gets := (gets obj r).
Notation output_after := (output_after float_int obj_hash fnmatch the_scope obj scope_of views readers).
Notation series_now := (series_now float_int obj_hash obj).
Notation otlp_metric := (otlp_metric infty).
Notation points_of := (Spec_Prometheus.points_of other_digit dumps).
Notation sample_for := (sample_for obj other_digit dumps).

Lemma sum_not_gauge k g : gives_sum k g -> gives_gauge k g -> False.
Proof. unfold gives_sum, gives_gauge. cbn. intuition congruence. Qed.
Lemma hist_not_gauge x g bs e : gives_histogram x g bs e -> gives_gauge (in_kind x) g -> False.
Proof. intros [->|(-> & K & _)] [G|[G I]]; try discriminate. cbn in I. rewrite K in I. intuition discriminate. Qed.
Lemma gauge_dec k g : gives_gauge k g \/ ~ gives_gauge k g.
Proof. unfold gives_gauge. cbn. destruct g; try (right; intuition discriminate); try (left; now left). destruct k; try (right; intuition discriminate); left; right; intuition. Qed.
Lemma counted_exists i g h obs now : exists ms, counted_now i g h obs now ms.
Proof.
  unfold Spec_Scrape.counted_now. destruct (since_exists r h) as (h0 & part & S). destruct (gauge_dec (in_kind (obj i)) g) as [G|G].
  - eexists. right. split; [now right|]. exists h0, part. split; [exact S|reflexivity].
  - destruct (synchronous (in_kind (obj i))).
    + eexists. left. auto.
    + eexists. right. split; [now left|]. exists h0, part. split; [exact S|reflexivity].
Qed.
Lemma counted_from i g h obs now ms m : counted_now i g h obs now ms -> In m ms -> In m (gets i h ++ observed i obs now).
Proof.
  intros [(_ & _ & ->)|(_ & h0 & part & (-> & _) & ->)] I.
  - apply in_or_app. now left.
  - rewrite gets_app, <- app_assoc. apply in_or_app. now right.
Qed.

(** One point of a stream *)
Definition point_for ks i g now a l p : Prop :=
  (gives_sum (in_kind (obj i)) g /\ exists s, p = NumberPoint (NP (shown ks a) (Some s) now (total l)))
  \/ (gives_gauge (in_kind (obj i)) g /\ l <> [] /\ p = NumberPoint (NP (shown ks a) None now (last l 0)))
  \/ (exists bounds e s, gives_histogram (obj i) g bounds e /\ sorted bounds /\ p = HistogramPoint (hpoint_of (shown ks a) s now bounds e l)).
Notation points ks i g h obs now := (snd (vm_collect (fun a now => collect a CUMULATIVE now) (series_now ks r i CUMULATIVE g h obs now) now)).

Lemma rep_amounts ks ms reps a l : each_attrs ks ms reps -> In a reps -> with_attrs ks a ms l -> l <> [].
Proof.
  intros (_ & B & _) I W. destruct (B a I) as (m & Im & S). clear - Im S W. induction W; [destruct Im| discriminate |].
  destruct Im as [->|Im]; [contradiction|auto].
Qed.
Lemma Forall2_in {A B} (R : A -> B -> Prop) l l' : Forall2 R l l' -> Forall2 (fun a b => R a b /\ In a l) l l'.
Proof.
  induction 1 as [|x y l l' r0 _ IH]; constructor.
  - split; [exact r0|now left].
  - eapply Forall2_weaken; [|exact IH]. intros a b [U V]. split; [exact U|now right].
Qed.
Lemma stream_points ks i g h obs now ms : Forall api_call h -> api_call (PCollect r obs false now) -> covered i g -> g <> Drop -> counted_now i g h obs now ms ->
  exists reps, each_attrs ks ms reps /\ Forall2 (fun a p => exists l, with_attrs ks a ms l /\ l <> [] /\ point_for ks i g now a l p) reps (points ks i g h obs now).
Proof.
  intros F Fo C ND CN. destruct C as [GS|[GG|[(SY & bs & e & GH & SB)|E]]]; [| | |contradiction].
  - destruct CN as [(SY & _ & ->)|([AS|GG] & h0 & part & S & ->)]; [| |destruct (sum_not_gauge _ _ GS GG)].
    + destruct (sum_points float_int obj_hash obj ks r i CUMULATIVE h [] h obs now F Fo g SY GS) as (reps & E & P2); [left; auto|].
      exists reps. split; [exact E|]. eapply Forall2_weaken; [|exact (Forall2_in _ _ _ P2)]. intros a p ((l & s & W & _ & ->) & I). exists l. split; [exact W|].
      split; [exact (rep_amounts _ _ _ _ _ E I W)|]. left. split; [exact GS|]. now exists s.
    + destruct (observed_points_cumulative float_int obj_hash obj ks r i CUMULATIVE h h0 part obs now F Fo g AS GS eq_refl S) as (reps & E & P2).
      exists reps. split; [exact E|]. eapply Forall2_weaken; [|exact (Forall2_in _ _ _ P2)]. intros a p ((l & s & W & _ & ->) & I). exists l. split; [exact W|].
      split; [exact (rep_amounts _ _ _ _ _ E I W)|]. left. split; [exact GS|]. now exists s.
  - destruct CN as [(_ & N & _)|(_ & h0 & part & S & ->)]; [contradiction|].
    destruct (gauge_points_now float_int obj_hash obj ks r i CUMULATIVE h h0 part obs now F Fo g GG S) as (reps & E & P2).
    exists reps. split; [exact E|]. eapply Forall2_weaken; [|exact P2]. intros a p (l & W & N & ->). exists l. split; [exact W|]. split; [exact N|]. right. left. auto.
  - destruct CN as [(_ & _ & ->)|([AS|GG] & _)]; [|congruence|destruct (hist_not_gauge _ _ _ _ GH GG)].
    destruct (histogram_points_now float_int obj_hash obj ks r i CUMULATIVE h [] h obs now F Fo g bs e SY GH) as (reps & E & P2); [left; auto|].
    exists reps. split; [exact E|]. eapply Forall2_weaken; [|exact P2]. intros a p (l & s & W & N & _ & ->). exists l. split; [exact W|]. split; [exact N|]. right. right.
    exists bs, e, s. auto.
Qed.

(** ** What the reader is given *)
Definition the_metric (i : N) (v : @view aggregation) (g : aggregation) (h : list pcall) obs now : @metric point :=
  Metric (renamed (v_name v) (in_name (obj i))) (renamed (v_descr v) (in_descr (obj i))) (in_unit (obj i)) (agg_shape obj g i) CUMULATIVE
    (match in_kind (obj i) with ICounter | IObservableCounter => true | _ => false end) (points (v_keys v) i g h obs now).
Lemma covered_shape i g : covered i g -> g <> Drop -> agg_shape obj g i <> ShDrop.
Proof.
  intros [GS|[GG|[(SY & bs & e & GH & SB)|E]]] ND; [| | |contradiction].
  - rewrite (sum_shape obj g i GS). discriminate.
  - unfold agg_shape. destruct GG as [-> | [-> I]]; [discriminate|]. cbn in I. destruct I as [<- | [<- | []]]; discriminate.
  - unfold agg_shape. destruct GH as [->|(-> & -> & _)]; discriminate.
Qed.
Lemma out_metrics h obs now : nth_error readers r = Some prometheus_reader -> Forall api_call (h ++ [PCollect r obs false now]) ->
  exists out, output_after h (h ++ [PCollect r obs false now]) = Some (CMetrics r out)
  /\ (forall M, In M (flat_map snd out) -> exists i v g, stream i v g /\ g <> Drop /\ M = the_metric i v g h obs now)
  /\ (forall i v g, stream i v g -> agg_shape obj g i <> ShDrop -> points (v_keys v) i g h obs now <> [] -> (exists m, In m (gets i h ++ observed i obs now)) ->
        In (the_metric i v g h obs now) (flat_map snd out)).
Proof.
  intros R F.
  set (applying := fun i v => view_match fnmatch (fun s => sco_name (the_scope s)) (fun s => sco_version (the_scope s)) (fun s => sco_schema (the_scope s)) obj scope_of v i && compatible obj asks_explicit v i).
  assert (FH : Forall (cop_hashable float_int obj_hash) (flat_map (pcall_ops obj) h ++ [CCollect r obs false now])).
  { pose proof (api_hashables float_int obj_hash obj _ F) as X. rewrite flat_map_app in X. exact X. }
  destruct (collect_reports float_int obj_hash fnmatch (fun s => sco_name (the_scope s)) (fun s => sco_version (the_scope s)) (fun s => sco_schema (the_scope s))
    obj scope_of Default asks_default asks_explicit (fun g i => create g (in_kind (obj i)) (in_adv (obj i))) aggregate
    (fun t a now => collect a t now) (agg_shape obj) views readers applying (fun i v => view_match_spec _ _ _ _ _ _ _ v i) _ r obs now _ prometheus_reader FH R) as (out & Eo & No & Go).
  exists out. split.
  { unfold Model_Pipeline.output_after, sdk_run. rewrite flat_map_app. exact Eo. }
  assert (Op : forall i, ops_for r i (flat_map (pcall_ops obj) h ++ [CCollect r obs true now]) = vops obj r i h ++ map vm (observed i obs now)).
  { intro i. unfold ops_for. rewrite flat_map_app. cbn [flat_map ops_of]. rewrite Nat.eqb_refl, observed_vm, !app_nil_r. reflexivity. }
  split.
  - intros M I. apply in_flat_map in I as ([s ms] & Is & I). cbn [snd] in I. apply (In_dget _ _ _ No) in Is. rewrite Go in Is.
    set (L := flat_map _ _) in Is. destruct L as [|x L0] eqn:EL; [discriminate|]. cbn [nonempty] in Is. injection Is as <-. rewrite <- EL in I. clear EL. unfold L in I.
    apply in_flat_map in I as (i & _ & I). destruct (eq_dec (scope_of i) s) as [_|]; [|destruct I].
    unfold metrics_of in I. apply in_flat_map in I as (v & Iv & I). exists i, v, (agg_for obj asks_default prometheus_reader v i).
    assert (AS : asked obj prometheus_reader i v (agg_for obj asks_default prometheus_reader v i)).
    { unfold asked, agg_for. destruct (v_agg v) eqn:E; cbn [asks_default]; try (left; split; [discriminate|now rewrite <- E]); right; auto. }
    unfold series_of in I. rewrite Op in I. unfold reported in I.
    change (if asks_default (v_agg v) then _ else _) with (agg_for obj asks_default prometheus_reader v i) in I.
    set (g := agg_for obj asks_default prometheus_reader v i) in *.
    change (snd _) with (points (v_keys v) i g h obs now) in I.
    split; [split; [|exact AS]|].
    + unfold streams in Iv. destruct (filter (applying i) views) as [|w ws] eqn:Ef.
      * destruct Iv as [<-|[]]. right. split; [|auto]. intros v' I' Av. apply view_match_spec in Av.
        assert (X : In v' (filter (applying i) views)) by (apply filter_In; split; [exact I'|exact Av]). rewrite Ef in X. destruct X.
      * rewrite <- Ef in Iv. apply filter_In in Iv as [Iv Av]. left. split; [exact Iv|]. apply view_match_spec in Av. exact Av.
    + unfold the_metric. split.
      * intro D. rewrite D in I. cbn in I. destruct (points (v_keys v) i Drop h obs now); destruct I.
      * destruct (points (v_keys v) i g h obs now) as [|p ps]; [destruct I|]. destruct (agg_shape obj g i); try destruct I as [<-|[]]; try reflexivity. destruct I.
  - intros i v g [ST AS] SD NE (m0 & Im0). specialize (Go (scope_of i)).
    assert (St : exists v', In v' (streams Default views applying i) /\ v_name v' = v_name v /\ v_descr v' = v_descr v /\ v_keys v' = v_keys v /\ v_agg v' = v_agg v).
    { unfold streams. destruct ST as [[Iv Av]|(NV & E1 & E2 & E3 & E4)].
      - exists v. split; [|auto]. assert (I : In v (filter (applying i) views)) by (apply filter_In; split; [exact Iv|]; apply view_match_spec; exact Av).
        destruct (filter (applying i) views); [destruct I|exact I].
      - exists (DEFAULT_VIEW Default). rewrite E1, E2, E3, E4. split; [|auto].
        replace (filter (applying i) views) with (@nil (@view aggregation)); [now left|]. symmetry.
        clear - NV. induction views as [|v' vs IH]; [reflexivity|]. cbn [filter]. destruct (applying i v') eqn:E.
        + exfalso. apply (NV v'); [now left|]. apply view_match_spec. exact E.
        + apply IH. intros x I. apply NV. now right. }
    destruct St as (v' & Iv' & V1 & V2 & V3 & V4). set (M := the_metric i v g h obs now).
    assert (Ag : (if asks_default (v_agg v') then rd_aggregation prometheus_reader (in_kind (obj i)) else v_agg v') = g).
    { rewrite V4. destruct AS as [[A ->]|[A ->]]; [|now rewrite A]. destruct (v_agg v); reflexivity. }
    assert (Mo : In M (metrics_of float_int obj_hash obj Default asks_default (fun g i => create g (in_kind (obj i)) (in_adv (obj i))) aggregate
      (fun t a now => collect a t now) (agg_shape obj) views applying prometheus_reader r (flat_map (pcall_ops obj) h ++ [CCollect r obs true now]) now i)).
    { unfold metrics_of. apply in_flat_map. exists v'. split; [exact Iv'|]. unfold series_of. rewrite Op. unfold agg_for. rewrite Ag, V3.
      change (snd (vm_collect _ _ now)) with (points (v_keys v) i g h obs now).
      unfold reported. rewrite Ag, V1, V2. unfold M, the_metric. destruct (points (v_keys v) i g h obs now) as [|p ps]; [congruence|].
      destruct (agg_shape obj g i); try (now left). congruence. }
    assert (Iu : In i (Spec_Storage.once [] (used r (flat_map (pcall_ops obj) h ++ [CCollect r obs true now])))).
    { apply once_in; [|intros []]. unfold used. rewrite flat_map_app. apply in_or_app. apply in_app_or in Im0 as [I|I].
      - left. unfold Spec_Streams.gets in I. apply in_flat_map in I as (c & Ic & I). apply in_flat_map. destruct c as [j b z n|r' ob tmo n]; cbn [Spec_Streams.measured_in] in I.
        + destruct (N.eqb_spec j i) as [->|]; [|destruct I]. cbn [andb] in I. destruct (takes _ z) eqn:Tz; [|destruct I].
          exists (CMeasure i b z n). split; [|now left]. apply in_flat_map. exists (PCall i b z n). split; [exact Ic|]. cbn [pcall_ops]. rewrite (takes_offered float_int obj_hash obj i), Tz. now left.
        + destruct (Nat.eqb r' r) eqn:Er; [|destruct I]. exists (CCollect r' ob tmo n). split; [apply in_flat_map; exists (PCollect r' ob tmo n); split; [exact Ic|now left]|].
          rewrite Er. unfold observed in I. apply in_flat_map in I as ([[j b] z] & Io & I). destruct (N.eqb_spec j i) as [->|]; [|destruct I].
          apply in_map_iff. exists (i, b, z). auto.
      - right. cbn [flat_map]. rewrite Nat.eqb_refl, app_nil_r. unfold observed in I. apply in_flat_map in I as ([[j b] z] & Io & I). destruct (N.eqb_spec j i) as [->|]; [|destruct I].
        apply in_map_iff. exists (i, b, z). auto. }
    set (L := flat_map _ _) in Go. assert (IM : In M L).
    { unfold L. apply in_flat_map. exists i. split; [exact Iu|]. destruct (eq_dec (scope_of i) (scope_of i)) as [_|N]; [|contradiction]. exact Mo. }
    assert (Gs : dget (scope_of i) out = Some L) by (rewrite Go; destruct L; [destruct IM|reflexivity]).
    apply dget_In in Gs. apply in_flat_map. exists (scope_of i, L). auto.
Qed.

(** ** What is shown of a metric *)
Notation ppoint := (Spec_Prometheus.point other_digit dumps).
Lemma sum_not_hist x g bs e : gives_sum (in_kind x) g -> gives_histogram x g bs e -> False.
Proof. intros [->|[-> I]] [G|(G & K & _)]; try discriminate. rewrite K in I. cbn in I. intuition discriminate. Qed.
Lemma map_Forall2 {A B C} (R : A -> B -> Prop) (U : A -> C -> Prop) (f : B -> list C) l l' :
  Forall2 R l l' -> (forall a b, R a b -> exists c, f b = [c] /\ U a c) -> Forall2 U l (flat_map f l').
Proof. intros F K. induction F as [|a b l l' X _ IH]; [constructor|]. destruct (K a b X) as (c & E & Y). cbn [flat_map]. rewrite E. cbn [app]. now constructor. Qed.
Lemma flat_map_map {A B C} (f : B -> C) (g : A -> list B) l : map f (flat_map g l) = flat_map (fun x => map f (g x)) l.
Proof. induction l; [reflexivity|]. cbn. rewrite map_app. congruence. Qed.
Lemma metric_points i v g h obs now ms : Forall api_call h -> api_call (PCollect r obs false now) -> covered i g -> g <> Drop -> counted_now i g h obs now ms ->
  let M := otlp_metric (the_metric i v g h obs now) in
  exists reps, each_attrs (v_keys v) ms reps
  /\ Forall2 (fun a q => exists l k x, with_attrs (v_keys v) a ms l /\ l <> [] /\ q = ppoint M (in_unit (obj i)) k (shown (v_keys v) a) x /\ value_for obj i g l k x) reps (points_of M).
Proof.
  intros F Fo C ND CN M. destruct (stream_points (v_keys v) i g h obs now ms F Fo C ND CN) as (reps & E & P2). exists reps. split; [exact E|].
  unfold M, the_metric, Model_Pipeline.otlp_metric, Spec_Prometheus.points_of at 1. cbn [sm_unit sm_data m_unit m_shape m_points m_temporality m_monotonic].
  destruct C as [GS|[GG|[(SY & bs & e & GH & SB)|D]]]; [| | |contradiction].
  - rewrite (sum_shape obj g i GS). unfold otlp_nums. rewrite flat_map_map. eapply map_Forall2; [exact P2|].
    intros a p (l & W & N & [(_ & s & ->)|[(GG & _)|(b & e & s & GH & _)]]); [|destruct (sum_not_gauge _ _ GS GG)|destruct (sum_not_hist _ _ _ _ GS GH)].
    eexists. split; [reflexivity|]. exists l. eexists. eexists. split; [exact W|]. split; [exact N|]. split; [reflexivity|]. left. split; [exact GS|]. split; [reflexivity|].
    destruct (in_kind (obj i)); reflexivity.
  - assert (Sh : agg_shape obj g i = ShGauge).
    { unfold agg_shape. destruct GG as [-> | [-> I]]; [reflexivity|]. cbn in I. destruct I as [<- | [<- | []]]; reflexivity. }
    rewrite Sh. unfold otlp_nums. rewrite flat_map_map. eapply map_Forall2; [exact P2|].
    intros a p (l & W & N & [(GS & _)|[(_ & _ & ->)|(b & e & s & GH & _)]]); [destruct (sum_not_gauge _ _ GS GG)| |destruct (hist_not_gauge _ _ _ _ GH GG)].
    eexists. split; [reflexivity|]. exists l. eexists. eexists. split; [exact W|]. split; [exact N|]. split; [reflexivity|]. right. left. split; [exact GG|]. split; [reflexivity|].
    exists (removelast l), (last l 0). split; [now apply app_removelast_last|reflexivity].
  - assert (Sh : agg_shape obj g i = ShHistogram) by (unfold agg_shape; destruct GH as [->|(-> & -> & _)]; reflexivity).
    rewrite Sh. unfold otlp_hists. rewrite flat_map_map. eapply map_Forall2; [exact P2|].
    intros a p (l & W & N & [(GS & _)|[(GG & _)|(b & e' & s & GH' & SB' & ->)]]); [destruct (sum_not_hist _ _ _ _ GS GH)|destruct (hist_not_gauge _ _ _ _ GH GG)|].
    eexists. split; [reflexivity|]. exists l. eexists. eexists. split; [exact W|]. split; [exact N|]. split; [reflexivity|]. right. right. split; [reflexivity|].
    exists b, e'. split; [exact GH'|]. cbn [otlp_hist h_buckets h_bounds h_sum hpoint_of hp_counts hp_bounds hp_sum]. now rewrite convert_counts.
Qed.
Lemma metric_showable i v g h obs now : covered i g -> g <> Drop -> Spec_Prometheus.showable (otlp_metric (the_metric i v g h obs now)).
Proof.
  intros C ND. split; [discriminate|]. cbn [Model_Pipeline.otlp_metric sm_data the_metric m_shape].
  destruct C as [GS|[GG|[(SY & bs & e & GH & SB)|D]]]; [| | |contradiction].
  - rewrite (sum_shape obj g i GS). exact I.
  - replace (agg_shape obj g i) with ShGauge; [exact I|]. unfold agg_shape. destruct GG as [-> | [-> J]]; [reflexivity|]. cbn in J. destruct J as [<- | [<- | []]]; reflexivity.
  - replace (agg_shape obj g i) with ShHistogram; [exact I|]. unfold agg_shape; destruct GH as [->|(-> & -> & _)]; reflexivity.
Qed.
Lemma shown_key ks a k : In k (keys (shown ks a)) -> kept ks k /\ In k (keys (given a)).
Proof.
  unfold shown, kept. destruct ks as [l|]; [|auto]. unfold keys. intro I. apply in_map_iff in I as ([k' x] & <- & I). apply filter_In in I as [I D]. cbn [fst] in *.
  destruct (in_dec str_eq_dec k' l) as [J|]; [|discriminate]. split; [exact J|]. apply in_map_iff. now exists (k', x).
Qed.
Lemma same_key ks a b k : same_attributes ks a b -> kept ks k -> In k (keys (given a)) -> In k (keys (given b)).
Proof.
  intros S K I. specialize (S k K). destruct a as [a|]; [|destruct I]. cbn [given look] in *. apply keys_dget in I as (x & E). rewrite E in S. cbn in S.
  destruct b as [b|]; cbn [look] in S; [|destruct S]. destruct (dget k b) as [y|] eqn:Eb; [|destruct S]. cbn [given]. now apply dget_Some_keys in Eb.
Qed.
Lemma measured_key i h obs now m : Forall keys_not_empty (h ++ [PCollect r obs false now]) -> In m (gets i h ++ observed i obs now) -> ~ In [] (keys (given (m_attrs m))).
Proof.
  intros K I. assert (X : In m (gets i (h ++ [PCollect r obs false now]))).
  { rewrite gets_app. unfold Spec_Streams.gets at 2. cbn [flat_map measured_in]. now rewrite Nat.eqb_refl, app_nil_r. }
  clear I. unfold Spec_Streams.gets in X. apply in_flat_map in X as (c & Ic & X). rewrite Forall_forall in K. specialize (K c Ic). destruct c as [j b z n|r' ob tmo n]; cbn [measured_in keys_not_empty] in *.
  - destruct (N.eqb j i && takes _ z); [|destruct X]. destruct X as [<-|[]]. exact K.
  - destruct (Nat.eqb r' r); [|destruct X]. unfold observed in X. apply in_flat_map in X as ([[j b] z] & Io & X). destruct (N.eqb j i); [|destruct X]. destruct X as [<-|[]].
    rewrite Forall_forall in K. exact (K _ Io).
Qed.
Lemma metric_keys i v g h obs now : Forall api_call h -> api_call (PCollect r obs false now) -> covered i g -> g <> Drop ->
  Forall keys_not_empty (h ++ [PCollect r obs false now]) -> Spec_Prometheus.keys_given (otlp_metric (the_metric i v g h obs now)).
Proof.
  intros F Fo C ND K. destruct (counted_exists i g h obs now) as (ms & CN).
  destruct (stream_points (v_keys v) i g h obs now ms F Fo C ND CN) as (reps & E & P2).
  assert (A : Forall (fun p => match p with NumberPoint q => ~ In [] (keys (np_attrs q)) | HistogramPoint q => ~ In [] (keys (hp_attrs q)) end) (points (v_keys v) i g h obs now)).
  { apply Forall_forall. intros p Ip.
    assert (X : exists a, In a reps /\ exists l, point_for (v_keys v) i g now a l p).
    { clear - P2 Ip. induction P2 as [|a q l l' (x & _ & _ & Y) _ IH]; [destruct Ip|]. destruct Ip as [->|Ip].
      - exists a. split; [now left|]. now exists x.
      - destruct (IH Ip) as (a' & J & Z0). exists a'. split; [now right|exact Z0]. }
    destruct X as (a & Ia & l & PF). assert (NK : ~ In [] (keys (shown (v_keys v) a))).
    { intro I. apply shown_key in I as [Kp I]. destruct E as (_ & B & _). destruct (B a Ia) as (m & Im & S). apply (measured_key i h obs now m K (counted_from _ _ _ _ _ _ _ CN Im)).
      exact (same_key _ _ _ _ S Kp I). }
    destruct PF as [(_ & s & ->)|[(_ & _ & ->)|(b & e & s & _ & _ & ->)]]; exact NK. }
  unfold Spec_Prometheus.keys_given. apply Forall_forall. intros x Ix. rewrite Forall_forall in A.
  unfold Spec_Prometheus.attrs_of, Model_Pipeline.otlp_metric, the_metric in Ix. cbn [sm_data m_shape m_points m_temporality m_monotonic] in Ix.
  assert (Nums : In x (map n_attrs (otlp_nums (points (v_keys v) i g h obs now))) -> ~ In [] (keys x)).
  { intro J. apply in_map_iff in J as (q & <- & J). apply in_flat_map in J as (p & Ip & J). specialize (A p Ip). destruct p as [np|hp]; [|destruct J]. destruct J as [<-|[]]. exact A. }
  destruct (agg_shape obj g i); try (exact (Nums Ix)); try destruct Ix.
  apply in_map_iff in Ix as (q & <- & J). apply in_flat_map in J as (p & Ip & J). specialize (A p Ip). destruct p as [np|hp]; [destruct J|]. destruct J as [<-|[]]. exact A.
Qed.

(** ** The queue *)
Lemma collected_by before c r' out : output_after before (before ++ [c]) = Some (CMetrics r' out) -> exists obs timeout now, c = PCollect r' obs timeout now.
Proof.
  unfold Model_Pipeline.output_after, sdk_run. rewrite flat_map_app. cbn [flat_map]. rewrite app_nil_r.
  set (ops := flat_map (pcall_ops obj) before).
  set (cr := crun _ _ _ _ _ _ _ _ _ _ _ _ _ _ _ _ _).
  assert (Len : forall l, length (snd (cr l)) = length l).
  { unfold cr. induction l as [|x l IH] using rev_ind; [reflexivity|]. rewrite crun_snoc. cbn [snd]. rewrite !app_length, IH. reflexivity. }
  destruct c as [i b z n|r0 obs tmo n]; cbn [pcall_ops].
  - destruct (offered _ z) as [z'|].
    + unfold cr. rewrite crun_snoc. fold cr. cbn [snd]. rewrite nth_error_app2 by now rewrite Len. rewrite Len, Nat.sub_diag. cbn [nth_error cstep]. destruct (consume_all _ _ _ _ _ _ _ _ _ _ _ _ _ _ _ _ _ _ _) as [? [|]]; discriminate.
    + rewrite app_nil_r. intro E. assert (X : nth_error (snd (cr ops)) (length ops) <> None) by congruence. apply nth_error_Some in X. rewrite Len in X. lia.
  - unfold cr. rewrite crun_snoc. fold cr. cbn [snd]. rewrite nth_error_app2 by now rewrite Len. rewrite Len, Nat.sub_diag. cbn [nth_error cstep].
    destruct (nth_error readers r0) as [rd|]; [|discriminate]. destruct (nth_error _ r0) as [st|]; [|discriminate].
    destruct (observe _ _ _ _ _ _ _ _ _ _ _ _ _ _ _ _ _) as [st1 raised]. destruct (raised || tmo); [discriminate|].
    destruct (st_collect _ _ _ _ _ _ _ _ _) as [st2 o]. cbn [snd]. intros [= <- _]. eauto.
Qed.
Notation scraped := (scraped float_int obj_hash fnmatch the_scope obj scope_of views readers infty other_digit dumps res r).
Notation prom_step := (prom_step float_int obj_hash fnmatch the_scope obj scope_of views readers infty other_digit dumps res r).
Notation prom_run := (prom_run float_int obj_hash fnmatch the_scope obj scope_of views readers infty other_digit dumps res r).
Lemma queue_empty h : only_scrapes r h -> forall before c, co_queue c = [] -> co_queue (prom_run before h c) = [].
Proof.
  induction h as [|[k b] h IH]; intros O before c Q; [exact Q|]. cbn [Model_Scrape.prom_run]. apply IH; [intros ob t n b' I; apply (O ob t n b'); now right|].
  unfold Model_Scrape.prom_step. cbn [fst snd]. destruct (output_after before (before ++ [k])) as [[| |r' out]|] eqn:E; try exact Q.
  destruct (Nat.eqb_spec r' r) as [->|]; [|exact Q]. apply collected_by in E as (ob & t & n & ->). rewrite (O ob t n b (or_introl eq_refl)). reflexivity.
Qed.

Lemma delivered_metrics out d : delivered the_scope infty res out = Some d -> all_metrics d = map otlp_metric (flat_map snd out).
Proof.
  unfold delivered. intro E. assert (X : all_metrics [(res, map (fun e => (the_scope (fst e), map otlp_metric (snd e))) out)] = map otlp_metric (flat_map snd out)).
  { unfold all_metrics. cbn [flat_map snd]. rewrite app_nil_r. clear. induction out as [|[s l] out IH]; [reflexivity|]. cbn [map flat_map snd fst]. now rewrite map_app, IH. }
  destruct out; [discriminate|]. injection E as <-. exact X.
Qed.
Lemma families_of pre fams : (forall y, In y pre -> exists t, y = YTarget t) -> families (pre ++ map YFamily fams) = fams.
Proof.
  intro P. unfold families. rewrite flat_map_app. replace (flat_map _ pre) with (@nil pfamily).
  - cbn [app]. clear. induction fams as [|f l IH]; [reflexivity|]. cbn. now rewrite IH.
  - induction pre as [|y pre IH]; [reflexivity|]. destruct (P y (or_introl eq_refl)) as (t & ->). cbn. apply IH. intros z I. apply P. now right.
Qed.

(** ** The theorem *)
Theorem scrape_shows disabled h obs now :
  nth_error readers r = Some prometheus_reader ->
  Forall api_call (map fst h ++ [PCollect r obs false now]) -> Forall keys_not_empty (map fst h ++ [PCollect r obs false now]) ->
  only_scrapes r h -> (forall i v g, stream i v g -> boundaries_ok obj i g) ->
  exists ys, scraped disabled h obs now = Some ys
  /\ NoDup (map identity (families ys))
  /\ (forall i v g ms, stream i v g -> g <> Drop -> counted_now i g (map fst h) obs now ms ->
        exists reps, each_attrs (v_keys v) ms reps
        /\ forall a, In a reps -> exists l f s, with_attrs (v_keys v) a ms l /\ In f (families ys) /\ sample_for i v g a l f s)
  /\ (forall f, In f (families ys) -> pf_samples f <> []
        /\ forall s, In s (pf_samples f) -> exists i v g ms a l, stream i v g /\ g <> Drop /\ counted_now i g (map fst h) obs now ms
             /\ with_attrs (v_keys v) a ms l /\ l <> [] /\ sample_for i v g a l f s).
Proof.
  intros R F K O Bok. assert (Cov : forall i v g, stream i v g -> covered i g) by (intros i v g S; exact (all_covered i v g S (Bok i v g S))). destruct (out_metrics (map fst h) obs now R F) as (out & Eo & Snd & Cpl).
  apply Forall_app in F as [F Fo]. inversion Fo as [|? ? Fo' _]; subst. clear Fo. rename Fo' into Fo.
  unfold Model_Scrape.scraped. rewrite Eo. set (c := prom_run [] h _). assert (Q : co_queue c = []) by (apply queue_empty; [exact O|reflexivity]).
  set (MS := map otlp_metric (flat_map snd out)).
  assert (Ex : exists ys fams, snd (scrape other_digit dumps (delivered the_scope infty res out) c) = Some ys /\ families ys = values fams
    /\ translate other_digit dumps MS [] = Some fams).
  { destruct (delivered the_scope infty res out) as [d|] eqn:Ed.
    - apply delivered_metrics in Ed. rewrite <- Proof_Prometheus.every_all in Ed.
      destruct (Props_Prometheus.C71_scrape_partial other_digit dumps d c Q) as (fams & Et & Es & _).
      + rewrite Ed. apply Forall_forall. intros m Im. apply in_map_iff in Im as (M & <- & IM). destruct (Snd M IM) as (i & v & g & S & D & ->). apply metric_showable; [now apply (Cov i v)|exact D].
      + eexists. exists fams. split; [exact Es|]. split; [|unfold MS; now rewrite <- Ed]. apply families_of. intros y Iy. destruct (co_disabled c); [destruct Iy|]. destruct Iy as [<-|[]]. eauto.
    - assert (out = []) by (unfold delivered in Ed; destruct out; [reflexivity|discriminate]). subst out. exists [], []. unfold scrape, receive. rewrite Q. cbn. auto. }
  destruct Ex as (ys & fams & Ey & Ef & Et). exists ys. split; [exact Ey|]. rewrite Ef. clear Ey Ef.
  destruct (Props_Prometheus.C71_families_partial other_digit dumps MS) as (fams' & Et' & ND & Id & Sa).
  { apply Forall_forall. intros m Im. apply in_map_iff in Im as (M & <- & IM). destruct (Snd M IM) as (i & v & g & S & D & ->). apply metric_showable; [now apply (Cov i v)|exact D]. }
  { apply Forall_forall. intros m Im. apply in_map_iff in Im as (M & <- & IM). destruct (Snd M IM) as (i & v & g & S & D & ->). apply metric_keys; try assumption. now apply (Cov i v). }
  rewrite Et in Et'. injection Et' as <-.
  assert (Show : forall f i v g a l k x, In f (values fams) -> 
     Spec_Prometheus.ident_of f = fst (ppoint (otlp_metric (the_metric i v g (map fst h) obs now)) (in_unit (obj i)) k (shown (v_keys v) a) x) ->
     In (label_values dumps (shown (v_keys v) a), x) (pf_samples f) -> value_for obj i g l k x ->
     sample_for i v g a l f (label_values dumps (shown (v_keys v) a), x)).
  { intros f i v g a l k x If E Is V. unfold Spec_Prometheus.ident_of in E. cbn in E. injection E as E1 E2 E3 E4 E5. unfold Spec_Scrape.sample_for. rewrite E1. cbn [fst snd]. repeat (split; [assumption || reflexivity|]). exact Is. }
  split; [|split].
  - clear - ND. assert (E : map identity (values fams) = map (fun p : Spec_Prometheus.pident => (Spec_Prometheus.pi_kind p, Spec_Prometheus.pi_name p, Spec_Prometheus.pi_doc p, Spec_Prometheus.pi_labels p, Spec_Prometheus.pi_unit p)) (map Spec_Prometheus.ident_of (values fams))).
    { rewrite map_map. reflexivity. }
    rewrite E. apply FinFun.Injective_map_NoDup; [|exact ND]. intros [] [] X. cbn in X. congruence.
  - intros i v g ms S D CN. destruct (metric_points i v g (map fst h) obs now ms F Fo (Cov i v g S) D CN) as (reps & E & P2). exists reps. split; [exact E|].
    intros a Ia. set (M := the_metric i v g (map fst h) obs now) in *.
    assert (X : exists q, In q (points_of (otlp_metric M)) /\ exists l k x, with_attrs (v_keys v) a ms l /\ l <> [] /\ q = ppoint (otlp_metric M) (in_unit (obj i)) k (shown (v_keys v) a) x /\ value_for obj i g l k x).
    { clear - P2 Ia. induction P2 as [|b q l l' Y _ IH]; [destruct Ia|]. destruct Ia as [->|Ia].
      - exists q. split; [now left|exact Y].
      - destruct (IH Ia) as (q' & J & Z0). exists q'. split; [now right|exact Z0]. }
    destruct X as (q & Iq & l & k & x & W & Nl & Eq & V).
    assert (IM : In M (flat_map snd out)).
    { apply Cpl; [exact S|apply covered_shape; [now apply (Cov i v)|exact D]| |].
      - destruct (stream_points (v_keys v) i g (map fst h) obs now ms F Fo (Cov i v g S) D CN) as (reps' & E' & P').
        intro Z0. rewrite Z0 in P'. inversion P'; subst. destruct E as (_ & B & _), E' as (_ & _ & C'). destruct (B a Ia) as (m & Im & _). destruct (C' m Im) as (a' & [] & _).
      - destruct E as (_ & B & _). destruct (B a Ia) as (m & Im & _). exists m. exact (counted_from _ _ _ _ _ _ _ CN Im). }
    assert (Ip : In q (flat_map points_of MS)) by (apply in_flat_map; exists (otlp_metric M); split; [now apply in_map|exact Iq]).
    assert (If : In (fst q) (map Spec_Prometheus.ident_of (values fams))) by (apply Id; now apply in_map).
    apply in_map_iff in If as (f & Ei & If). exists l, f, (label_values dumps (shown (v_keys v) a), x). split; [exact W|]. split; [exact If|].
    apply (Show f i v g a l k x If); [rewrite Ei, Eq; reflexivity| |exact V].
    rewrite (Sa f If). unfold Spec_Prometheus.samples_at. apply in_map_iff. exists q. split; [rewrite Eq; reflexivity|]. apply filter_In. split; [exact Ip|].
    rewrite Ei. destruct (Spec_Prometheus.pident_eq_dec (fst q) (fst q)); [reflexivity|contradiction].
  - intros f If. assert (Ii : In (Spec_Prometheus.ident_of f) (map fst (flat_map points_of MS))) by (apply Id; now apply in_map).
    rewrite (Sa f If). split.
    + apply in_map_iff in Ii as (q & Eq & Iq). intro N. assert (X : In (snd q) (Spec_Prometheus.samples_at (Spec_Prometheus.ident_of f) (flat_map points_of MS))); [|rewrite N in X; destruct X].
      unfold Spec_Prometheus.samples_at. apply in_map. apply filter_In. split; [exact Iq|]. destruct (Spec_Prometheus.pident_eq_dec (fst q) (Spec_Prometheus.ident_of f)); [reflexivity|contradiction].
    + intros s Is. assert (Is0 := Is). rewrite <- (Sa f If) in Is0. unfold Spec_Prometheus.samples_at in Is. apply in_map_iff in Is as (q & Eq & Iq). apply filter_In in Iq as [Iq Dq].
      destruct (Spec_Prometheus.pident_eq_dec (fst q) (Spec_Prometheus.ident_of f)) as [Ei|]; [|discriminate]. clear Dq.
      apply in_flat_map in Iq as (m & Im & Iq). apply in_map_iff in Im as (M & <- & IM). destruct (Snd M IM) as (i & v & g & S & D & ->).
      destruct (counted_exists i g (map fst h) obs now) as (ms & CN). destruct (metric_points i v g (map fst h) obs now ms F Fo (Cov i v g S) D CN) as (reps & E & P2).
      set (M := the_metric i v g (map fst h) obs now) in *.
      assert (X : exists a l k x, with_attrs (v_keys v) a ms l /\ l <> [] /\ q = ppoint (otlp_metric M) (in_unit (obj i)) k (shown (v_keys v) a) x /\ value_for obj i g l k x).
      { clear - P2 Iq. induction P2 as [|b p l l' Y _ IH]; [destruct Iq|]. destruct Iq as [->|Iq]; [exists b; exact Y|auto]. }
      destruct X as (a & l & k & x & W & N & Eqq & V). exists i, v, g, ms, a, l. repeat (split; [assumption|]).
      assert (Es : s = (label_values dumps (shown (v_keys v) a), x)) by (rewrite <- Eq, Eqq; reflexivity). rewrite Es. rewrite Es in Is0.
      apply (Show f i v g a l k x If); [|exact Is0|exact V]. rewrite <- Ei, Eqq. reflexivity.
Qed.
End Scrape.
