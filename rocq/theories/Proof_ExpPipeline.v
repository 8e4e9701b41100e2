(** Proofs about exponential histograms in the metrics pipeline. *)
From Verif Require Import Proof_Dict Proof_Str Proof_Metrics Proof_View Proof_Otlp Proof_Storage Proof_Pipeline Proof_Streams.
From Verif Require Props_ExpHist.
From Verif Require Import Spec_ExpPipeline.
From Coq Require Import Lia.
Local Open Scope Z_scope.

(** ** One exponential histogram *)
Definition conv {D0} (r : ecollected) : option (xpoint D0) := match r with EPoint p => Some (ExpPoint p) | _ => None end.
Lemma alone_exp {A0 D0} log_floor aggregate0 (collect0 : temporality -> A0 -> Z -> A0 * option D0) t ops : forall s,
  fold_left (fun s o => match o with
                        | Measure v => (x_aggregate log_floor aggregate0 (fst s) v, snd s)
                        | Collect now => let (a', p) := x_collect collect0 t (fst s) now in (a', snd s ++ [p])
                        end) ops (ExpState (er_hist s) (negb (er_ok s)), map conv (er_points s))
  = let s' := fold_left (estep log_floor t) ops s in (ExpState (er_hist s') (negb (er_ok s')), map conv (er_points s')).
Proof.
  induction ops as [|[v|now] ops IH]; intros s; [reflexivity| |]; cbn [fold_left].
  - rewrite <- IH. f_equal. cbn [fst snd x_aggregate estep]. destruct (eh_aggregate log_floor (er_hist s) v) as [h ok]. cbn [er_hist er_ok er_points].
    now rewrite negb_andb.
  - rewrite <- IH. f_equal. cbn [fst snd x_collect estep]. destruct (eh_collect (er_hist s) t now) as [h [|p|]]; cbn [er_hist er_ok er_points];
      rewrite map_app; cbn [map conv]; rewrite ?andb_true_r, ?andb_false_r; reflexivity.
Qed.
Lemma run_exp {A0 D0} log_floor aggregate0 (collect0 : temporality -> A0 -> Z -> A0 * option D0) t h0 ops :
  run_alone (x_aggregate log_floor aggregate0) (x_collect collect0 t) (ExpState h0 false) ops
  = (ExpState (er_hist (eh_run log_floor t h0 ops)) (negb (er_ok (eh_run log_floor t h0 ops))), map conv (er_points (eh_run log_floor t h0 ops))).
Proof. exact (alone_exp log_floor aggregate0 collect0 t ops (ER h0 true [])). Qed.
Lemma run_snoc log_floor t h0 ops now : er_points (eh_run log_floor t h0 (ops ++ [Collect now]))
  = er_points (eh_run log_floor t h0 ops) ++ [snd (eh_collect (er_hist (eh_run log_floor t h0 ops)) t now)].
Proof.
  unfold eh_run. rewrite fold_left_app. cbn [fold_left estep]. set (s := fold_left _ _ _). destruct (eh_collect (er_hist s) t now). reflexivity.
Qed.
Lemma collect_conv {A0 D0} (collect0 : temporality -> A0 -> Z -> A0 * option D0) t h b now :
  snd (x_collect collect0 t (ExpState h b) now) = conv (snd (eh_collect h t now)).
Proof. cbn. destruct (eh_collect h t now) as [h' [| |]]; reflexivity. Qed.
Lemma Forall2_last {A B} (R : A -> B -> Prop) l a l' b : Forall2 R (l ++ [a]) (l' ++ [b]) -> R a b.
Proof.
  intros F. apply Forall2_app_inv_l in F as (l1 & l2 & _ & F2 & E). inversion F2 as [|? y ? ? r F3]; subst. inversion F3; subst.
  apply app_inj_tail in E as [_ ->]. exact r.
Qed.

Lemma delta_last {A0 D0} log_floor aggregate0 (collect0 : temporality -> A0 -> Z -> A0 * option D0) d st max_size max_scale h0 b s now :
  log_consistent log_floor -> eh_new d DELTA st max_size max_scale = Some h0 -> replay b = (b, []) -> Forall measurable (measured b ++ s) ->
  let o := snd (x_collect collect0 DELTA (fst (run_alone (x_aggregate log_floor aggregate0) (x_collect collect0 DELTA) (ExpState h0 false) (b ++ map Measure s))) now) in
  match s with
  | [] => o = None
  | _ => exists p, o = Some (ExpPoint p) /\ exp_histogram_of log_floor max_size s p /\ ep_attrs p = d
         /\ ep_start p = last (collections b) st /\ ep_time p = now
  end.
Proof.
  intros LC E R M. cbn zeta. rewrite run_exp. cbn [fst]. rewrite collect_conv.
  destruct (windows_window b s now R) as [WW _].
  destruct (Props_ExpHist.C44_delta log_floor d st max_size max_scale h0 ((b ++ map Measure s) ++ [Collect now]) LC E) as [_ F2].
  { rewrite <- app_assoc, measured_window. exact M. }
  rewrite run_snoc, <- app_assoc, WW in F2. apply Forall2_last in F2. cbn [w_since w_now w_before previous_time] in F2.
  destruct s as [|x s]; [now rewrite F2|]. destruct F2 as (p & -> & H1 & H2 & H3 & H4). exists p. auto.
Qed.
Lemma delta_ok log_floor d st max_size max_scale h0 ops :
  log_consistent log_floor -> eh_new d DELTA st max_size max_scale = Some h0 -> Forall measurable (measured ops) ->
  er_ok (eh_run log_floor DELTA h0 ops) = true.
Proof. intros LC E M. exact (proj1 (Props_ExpHist.C44_delta log_floor d st max_size max_scale h0 ops LC E M)). Qed.

(** Streams that begin with a measurement that is not zero, none of the other sign *)
Definition begins (l : list mop) : Prop := match l with Collect _ :: _ => False | _ => True end.
Lemma no_negatives l : Forall (fun z => 0 <= z) l -> negatives l = [].
Proof. unfold negatives. induction 1 as [|z l P _ E]; [auto|]. cbn [filter]. destruct (Z.ltb_spec z 0); [lia|exact E]. Qed.
Lemma no_positives l : Forall (fun z => z <= 0) l -> positives l = [].
Proof. unfold positives. induction 1 as [|z l P _ E]; [auto|]. cbn [filter]. destruct (Z.ltb_spec 0 z); [lia|exact E]. Qed.
Lemma positive_sided float_int obj_hash ks a : forall ms l, Forall (fun m => 0 < m_amount m) ms -> Spec_Streams.with_attrs float_int obj_hash ks a ms l -> one_sided l.
Proof.
  intros ms l F W. assert (P : Forall (fun z => 0 < z) l) by (induction W; inversion F; subst; auto).
  destruct l as [|z l]; [exact I|]. left. split; [now inversion P|]. eapply Forall_impl; [|exact P]. cbn. lia.
Qed.
Lemma settled_from h : forall before since, one_sided (measured before ++ since ++ measured h) ->
  (before <> [] -> measured before <> []) -> (before = [] -> since = [] -> begins h) -> Forall settled (windows_from before since h).
Proof.
  induction h as [|[v|t] h IH]; intros before since P B N; [constructor| |]; cbn [windows_from].
  - apply IH; [|exact B|intros _ E; destruct since; discriminate].
    unfold measured in *. cbn [flat_map app] in P. rewrite <- app_assoc. exact P.
  - constructor.
    + unfold settled. cbn [w_before w_since]. destruct before as [|o before].
      * intros ->. exact (N eq_refl eq_refl).
      * assert (NE : measured (o :: before) <> []) by (apply B; discriminate). destruct (measured (o :: before)) as [|z l] eqn:EM; [congruence|].
        cbn [app one_sided] in P. destruct P as [[Z0 P]|[Z0 P]]; inversion P as [|? ? _ P']; subst; apply Forall_app in P' as [_ P']; apply Forall_app in P' as [P' _].
        -- rewrite (no_negatives _ P'). split; [intros _|congruence]. cbn. destruct (Z.ltb_spec 0 z); [discriminate|lia].
        -- rewrite (no_positives _ P'). split; [congruence|intros _]. cbn. destruct (Z.ltb_spec z 0); [discriminate|lia].
    + apply IH.
      * rewrite measured_window. cbn [app]. rewrite <- app_assoc. unfold measured in P at 2. cbn [flat_map app] in P. exact P.
      * intros _. rewrite measured_window. destruct before as [|o before].
        -- destruct since; [destruct (N eq_refl eq_refl)|discriminate].
        -- intros X. apply app_eq_nil in X as [X _]. now apply B.
      * intros E. destruct before, since; discriminate E.
Qed.
Lemma cumulative_ok log_floor d st max_size max_scale h0 ops :
  log_consistent log_floor -> eh_new d DELTA st max_size max_scale = Some h0 -> Forall measurable (measured ops) ->
  one_sided (measured ops) -> begins ops -> er_ok (eh_run log_floor CUMULATIVE h0 ops) = true.
Proof.
  intros LC E M P B. apply (Props_ExpHist.C45_never_raises_partial log_floor d st max_size max_scale h0 ops LC E M).
  apply settled_from; [exact P|congruence|auto].
Qed.
Lemma cumulative_last {A0 D0} log_floor aggregate0 (collect0 : temporality -> A0 -> Z -> A0 * option D0) d st max_size max_scale h0 b s now :
  log_consistent log_floor -> eh_new d DELTA st max_size max_scale = Some h0 -> replay b = (b, []) -> Forall measurable (measured b ++ s) ->
  one_sided (measured b ++ s) -> begins (b ++ map Measure s) -> measured b ++ s <> [] ->
  exists p, snd (x_collect collect0 CUMULATIVE (fst (run_alone (x_aggregate log_floor aggregate0) (x_collect collect0 CUMULATIVE) (ExpState h0 false) (b ++ map Measure s))) now)
    = Some (ExpPoint p) /\ exp_histogram_of log_floor max_size (measured b ++ s) p /\ ep_attrs p = d /\ ep_start p = st /\ ep_time p = now.
Proof.
  intros LC E R M P B NE. rewrite run_exp. cbn [fst]. rewrite collect_conv.
  destruct (windows_window b s now R) as [WW _].
  assert (MM : measured ((b ++ map Measure s) ++ [Collect now]) = measured b ++ s) by (rewrite <- app_assoc; apply measured_window).
  pose proof (Props_ExpHist.C45_cumulative_partial log_floor d st max_size max_scale h0 ((b ++ map Measure s) ++ [Collect now]) LC E) as F2.
  rewrite MM in F2. specialize (F2 M). rewrite run_snoc, <- app_assoc, WW in F2. apply Forall2_last in F2.
  - destruct F2 as (p & -> & H1 & H2 & H3 & H4). exists p. auto.
  - apply (cumulative_ok log_floor d st max_size max_scale); try assumption.
    + rewrite app_assoc, MM. exact M.
    + rewrite app_assoc, MM. exact P.
    + destruct b as [|o b]; [|exact B]. destruct s; [destruct (NE eq_refl)|exact I].
Qed.
Lemma stream_begins P l : begins (stream_ops P false l).
Proof. induction l as [|[a v n|n] l IH]; cbn [stream_ops]; [exact I| |exact IH]. destruct (P a); [exact I|exact IH]. Qed.
Lemma measured_stream (R : Z -> Prop) P l : forall s, (forall b v n, In (VMeasure b v n) l -> R v) -> Forall R (measured (stream_ops P s l)).
Proof.
  induction l as [|[a v n|n] l IH]; intros s K; cbn [stream_ops]; [constructor| |].
  - destruct (P a).
    + unfold measured. cbn [flat_map app]. constructor; [apply (K a v n); now left|]. apply IH. intros b w m I. apply (K b w m). now right.
    + apply IH. intros b w m I. apply (K b w m). now right.
  - destruct s; unfold measured; cbn [flat_map app]; apply IH; intros b w m I; apply (K b w m); now right.
Qed.
Lemma legal_new d t st max_size max_scale : legal max_size max_scale -> exists h0, eh_new d t st max_size max_scale = Some h0.
Proof.
  intros [A B]. unfold eh_new. destruct (Z.ltb_spec max_size 2); [lia|]. destruct (Z.ltb_spec 16384 max_size); [lia|]. cbn [orb].
  unfold new_mapping. destruct (Z.leb_spec max_scale 0).
  - destruct (Z.ltb_spec max_scale (-10)); [lia|]. eexists. reflexivity.
  - destruct (Z.ltb_spec 20 max_scale); [lia|]. eexists. reflexivity.
Qed.

Section Pipe.
Variable float_int : Z -> option Z.
Variable obj_hash : N -> bool.
Variable obj : N -> instr.
Notation gets := (gets obj).
Notation api_call := (api_call float_int obj_hash obj).

Section One.
Variable ks : option (list str).
Variable r : nat.
Variable i : N.
Notation vops := (vops obj r i).
Notation Q := (Proof_Streams.Q float_int obj_hash ks).
Notation sel := (Proof_Streams.sel float_int obj_hash ks).
Notation same_attributes := (same_stream float_int obj_hash ks).
Notation each_attrs := (Spec_Streams.each_attrs float_int obj_hash ks).
Notation first_at := (Spec_Streams.first_at float_int obj_hash ks).

Lemma sel_incl a cur all : (forall m, In m cur -> In m all) -> sel a cur <> [] -> sel a all <> [].
Proof.
  intros K N E. apply sel_some in N as (m & I & S). exact (proj1 (sel_none float_int obj_hash ks a all) E m (K m I) S).
Qed.
Lemma sel_all (R : Z -> Prop) a ms : Forall (fun m => R (m_amount m)) ms -> Forall R (sel a ms).
Proof.
  intros F. pose proof (proj2 (with_is float_int obj_hash ks a ms (sel a ms)) eq_refl) as W. induction W; inversion F; subst; auto.
Qed.

(** The points, for any aggregation. *)
Lemma points_of {A DP} (mk : mattrs -> Z -> A) ag (co : A -> Z -> A * option DP) h h0 part obs now (R : option mattrs -> Z -> DP -> Prop) :
  Forall api_call h -> Forall (fun ob : observation => usable float_int obj_hash None (snd (fst ob))) obs -> since r h h0 part ->
  forall cur, (forall m, In m cur -> In m (gets r i h ++ observed i obs now)) ->
  (forall a st, sel a (gets r i h ++ observed i obs now) <> [] ->
     let o := snd (co (fst (run_alone ag co (mk (shown ks a) st) (stream_ops (Q a) false (vops h0) ++ map Measure (sel a (gets r i part ++ observed i obs now))))) now) in
     (sel a cur = [] /\ o = None) \/ (sel a cur <> [] /\ exists p, o = Some p /\ R a st p)) ->
  exists reps, each_attrs cur reps
  /\ Forall2 (fun a p => exists st, first_at a (gets r i h ++ observed i obs now) st /\ R a st p)
       reps (snd (vm_collect co (vm_run float_int obj_hash mk ag co ks (vops h ++ map vm (observed i obs now))) now)).
Proof.
  intros F FO S cur Hc K.
  set (hv := vops h ++ map vm (observed i obs now)).
  set (all := gets r i h ++ observed i obs now) in *.
  assert (HV : hv = vops (h ++ [PCollect r obs true now])).
  { rewrite vops_app, vops_one; try assumption. cbn [Spec_Streams.measured_in ends_of]. rewrite Nat.eqb_refl, app_nil_r. reflexivity. }
  assert (AL : all = gets r i (h ++ [PCollect r obs true now])).
  { rewrite gets_app. unfold all. f_equal. unfold Spec_Streams.gets. cbn [flat_map Spec_Streams.measured_in]. now rewrite Nat.eqb_refl, app_nil_r. }
  assert (U : Forall (op_usable float_int obj_hash ks) hv).
  { apply Forall_forall. intros o I. unfold hv in I. apply in_app_or in I as [I|I].
    - pose proof (vops_measure float_int obj_hash obj r i h o I) as J. destruct o as [b v n|n]; [|exact Logic.I]. apply (api_usable float_int obj_hash obj ks r i h F (b, v, n) J).
    - apply in_map_iff in I as (m & <- & I). cbn. unfold observed in I. apply in_flat_map in I as ([[j b] z] & Io & I).
      destruct (N.eqb j i); [|destruct I]. destruct I as [<-|[]]. rewrite Forall_forall in FO. destruct (FO _ Io) as [A1 B]. split; [exact A1|].
      intros k v _ E. exact (B k v Logic.I E). }
  destruct (streams_public float_int obj_hash ks A DP mk ag co hv now U) as (reps & D & I & C & E).
  destruct (E Q (Q_decides float_int obj_hash ks)) as [_ ->]. clear E.
  assert (FI : forall rep, In rep reps -> first_at (fst rep) all (snd rep)).
  { intros rep Ir. destruct (I rep Ir) as (v & l1 & l2 & Eh & N). rewrite HV in Eh. change (VMeasure (fst rep) v (snd rep)) with (vm (fst rep, v, snd rep)) in Eh.
    destruct (vops_cut float_int obj_hash obj r i _ l1 _ l2 Eh) as (e1 & e2 & Ee & X). rewrite AL, Ee. exists e1, (fst rep, v, snd rep), e2. split; [reflexivity|]. split; [apply sames_refl|].
    split; [reflexivity|]. apply with_is. symmetry. apply sel_none. intros m Im. eapply N. apply X. exact Im. }
  assert (NE : forall rep, In rep reps -> sel (fst rep) all <> []).
  { intros rep Ir X. destruct (FI rep Ir) as (e1 & m & e2 & Ee & Sm & _).
    apply (proj1 (sel_none float_int obj_hash ks _ _) X m); [rewrite Ee; apply in_or_app; right; now left|exact Sm]. }
  set (ff := fun rep : option mattrs * Z => snd (co (fst (run_alone ag co (mk (shown ks (fst rep)) (snd rep))
    (stream_ops (Q (fst rep)) false (vops h0) ++ map Measure (sel (fst rep) (gets r i part ++ observed i obs now))))) now)).
  assert (PT : forall rep, snd (co (fst (run_alone ag co (mk (stream_attrs ks (fst rep)) (snd rep)) (stream_ops (Q (fst rep)) false hv))) now) = ff rep).
  { intro rep. unfold hv. rewrite (stream_now float_int obj_hash obj ks r i (fst rep) h h0 part obs now S), shown_attrs. reflexivity. }
  destruct (choose_points float_int obj_hash obj ks i cur reps (fun rep => match ff rep with Some d => [d] | None => [] end) R) as (reps' & A1 & B).
  - exact D.
  - intros m Im. apply Hc in Im. assert (Iv : In (vm m) hv).
    { rewrite HV. apply gets_vops; try assumption. now rewrite <- AL. }
    destruct (C _ _ _ Iv) as (rep & Ir & Sr). exists rep. auto.
  - intros rep Ir. specialize (K (fst rep) (snd rep) (NE rep Ir)). cbn zeta in K. fold (ff rep) in K. destruct K as [[X ->]|(X & p & -> & Y)]; [left; auto|].
    right. split; [exact X|]. exists p. auto.
  - exists reps'. split; [exact A1|]. rewrite (flat_map_ext _ (fun rep => match ff rep with Some d => [d] | None => [] end)) by (intro rep; rewrite PT; reflexivity).
    eapply Forall2_weaken; [|exact B]. intros a p (st & Ir & X). exists st. split; [exact (FI (a, st) Ir)|exact X].
Qed.
End One.

Section Storage.
Variable fnmatch : str -> str -> bool.
Context {Scope : Type} `{EqDec Scope}.
Variable the_scope : Scope -> scope.
Variable scope_of : N -> Scope.
Variable log_floor : Z -> Z -> Z.
Context {G0 A0 D0 : Type}.
Variable default0 : G0.
Variable is_default0 is_explicit0 : G0 -> bool.
Variable create0 : G0 -> N -> mattrs -> Z -> A0.
Variable aggregate0 : A0 -> Z -> A0.
Variable collect0 : temporality -> A0 -> Z -> A0 * option D0.
Variable shape0 : G0 -> N -> shape.
Variable views : list (@view (xconf G0)).
Variable readers : list (@reader (xconf G0)).
Notation x_run := (x_run float_int obj_hash fnmatch the_scope obj scope_of log_floor default0 is_default0 is_explicit0 create0 aggregate0 collect0 shape0 views readers).
Notation x_output := (x_output float_int obj_hash fnmatch the_scope obj scope_of log_floor default0 is_default0 is_explicit0 create0 aggregate0 collect0 shape0 views readers).
Notation applies := (applies fnmatch (fun s => sco_name (the_scope s)) (fun s => sco_version (the_scope s)) (fun s => sco_schema (the_scope s)) obj scope_of (x_explicit is_explicit0)).
Notation view_match := (view_match fnmatch (fun s => sco_name (the_scope s)) (fun s => sco_version (the_scope s)) (fun s => sco_schema (the_scope s)) obj scope_of).
Notation seen_through := (x_seen_through fnmatch the_scope obj scope_of default0 is_explicit0 views).
Notation asked := (x_asked obj is_default0).
Notation x_create := (x_create obj create0).
Notation x_aggregate := (x_aggregate log_floor aggregate0).
Notation x_collect := (x_collect collect0).
Let applying := fun i v => view_match v i && compatible obj (x_explicit is_explicit0) v i.

Lemma seen_stream i v : seen_through i v -> exists v', In v' (streams (Other default0) views applying i) /\ v_name v' = v_name v /\ v_descr v' = v_descr v /\ v_keys v' = v_keys v /\ v_agg v' = v_agg v.
Proof.
  intros ST. unfold streams. destruct ST as [[Iv Av]|(NV & E1 & E2 & E3 & E4)].
  - exists v. split; [|auto]. assert (I : In v (filter (applying i) views)) by (apply filter_In; split; [exact Iv|]; apply view_match_spec; exact Av).
    destruct (filter (applying i) views); [destruct I|exact I].
  - exists (DEFAULT_VIEW (Other default0)). rewrite E1, E2, E3, E4. split; [|auto].
    replace (filter (applying i) views) with (@nil (@view (xconf G0))); [now left|]. symmetry.
    clear - NV. induction views as [|v' vs IH]; [reflexivity|]. cbn [filter]. destruct (applying i v') eqn:E.
    + exfalso. apply (NV v'); [now left|]. apply view_match_spec. exact E.
    + apply IH. intros x I. apply NV. now right.
Qed.
Lemma stream_seen i v : In v (streams (Other default0) views applying i) -> seen_through i v.
Proof.
  unfold streams. destruct (filter (applying i) views) as [|x l] eqn:E; intros I.
  - destruct I as [<-|[]]. right. split; [|auto]. intros v' I A. assert (X : In v' (filter (applying i) views)) by (apply filter_In; split; [exact I|]; apply view_match_spec; exact A).
    rewrite E in X. destruct X.
  - left. rewrite <- E in I. apply filter_In in I as [I A]. split; [exact I|]. apply view_match_spec. exact A.
Qed.

Theorem metrics_delivered h r obs now h' rd i v max_size max_scale :
  seen_through i v -> asked rd i v max_size max_scale ->
  nth_error readers r = Some rd ->
  Forall api_call (h ++ PCollect r obs false now :: h') ->
  (exists m, In m (gets r i h ++ observed i obs now)) ->
  let t := rd_temporality rd (in_kind (obj i)) in
  let points := snd (vm_collect (x_collect t) (vm_run float_int obj_hash (x_create (Exponential max_size max_scale) i) x_aggregate (x_collect t) (v_keys v)
                       (vops obj r i h ++ map vm (observed i obs now))) now) in
  exists out, x_output h (h ++ PCollect r obs false now :: h') = Some (CMetrics r out) /\ NoDup (keys out)
  /\ forall pts, points = map ExpPoint pts -> pts <> [] -> reports obj scope_of out i v t pts.
Proof.
  intros ST AS R F (m0 & Im0) t points.
  assert (FH : Forall (cop_hashable float_int obj_hash) (flat_map (pcall_ops obj) h ++ CCollect r obs false now :: flat_map (pcall_ops obj) h')).
  { pose proof (api_hashables float_int obj_hash obj _ F) as X. rewrite flat_map_app in X. exact X. }
  destruct (collect_reports float_int obj_hash fnmatch (fun s => sco_name (the_scope s)) (fun s => sco_version (the_scope s)) (fun s => sco_schema (the_scope s))
    obj scope_of (Other default0) (x_default is_default0) (x_explicit is_explicit0) x_create x_aggregate
    x_collect (x_shape shape0) views readers applying (fun i v => view_match_spec _ _ _ _ _ _ _ v i) _ r obs now _ rd FH R) as (out & Eo & No & Go).
  exists out. split.
  { unfold Model_ExpPipeline.x_output, Model_ExpPipeline.x_run. rewrite flat_map_app. exact Eo. }
  split; [exact No|]. intros pts Ep NE.
  specialize (Go (scope_of i)).
  assert (Op : ops_for r i (flat_map (pcall_ops obj) h ++ [CCollect r obs true now]) = vops obj r i h ++ map vm (observed i obs now)).
  { unfold ops_for. rewrite flat_map_app. cbn [flat_map ops_of]. rewrite Nat.eqb_refl, observed_vm, !app_nil_r. reflexivity. }
  destruct (seen_stream i v ST) as (v' & Iv' & V1 & V2 & V3 & V4).
  set (M := Metric (renamed (v_name v) (in_name (obj i))) (renamed (v_descr v) (in_descr (obj i))) (in_unit (obj i)) ShExponential t
            (match in_kind (obj i) with ICounter | IObservableCounter => true | _ => false end) points).
  assert (Ag : (if x_default is_default0 (v_agg v') then rd_aggregation rd (in_kind (obj i)) else v_agg v') = Exponential max_size max_scale).
  { rewrite V4. destruct AS as [-> |(g0 & -> & Dg & Rg)]; [reflexivity|]. cbn. now rewrite Dg. }
  assert (Mo : In M (metrics_of float_int obj_hash obj (Other default0) (x_default is_default0) x_create x_aggregate
    x_collect (x_shape shape0) views applying rd r (flat_map (pcall_ops obj) h ++ [CCollect r obs true now]) now i)).
  { unfold metrics_of. apply in_flat_map. exists v'. split; [exact Iv'|]. unfold series_of. rewrite Op. unfold agg_for. rewrite Ag, V3. fold t.
    change (snd (vm_collect _ _ now)) with points.
    unfold reported. rewrite Ag, V1, V2. fold t. unfold M. destruct points as [|p ps]; [destruct pts; [congruence|discriminate]|].
    now left. }
  assert (Iu : In i (Spec_Storage.once [] (used r (flat_map (pcall_ops obj) h ++ [CCollect r obs true now])))).
  { apply once_in; [|intros []]. unfold used. rewrite flat_map_app. apply in_or_app. apply in_app_or in Im0 as [I|I].
    - left. unfold Spec_Streams.gets in I. apply in_flat_map in I as (c & Ic & I). apply in_flat_map. destruct c as [j b z n|r' ob tmo n]; cbn [Spec_Streams.measured_in] in I.
      + destruct (N.eqb_spec j i) as [->|]; [|destruct I]. cbn [andb] in I. destruct (takes _ z) eqn:Tz; [|destruct I].
        exists (CMeasure i b z n). split; [|now left]. apply in_flat_map. exists (PCall i b z n). split; [exact Ic|]. cbn [pcall_ops]. rewrite (takes_offered float_int obj_hash obj i), Tz. now left.
      + destruct (Nat.eqb r' r) eqn:Er; [|destruct I]. exists (CCollect r' ob tmo n). split; [apply in_flat_map; exists (PCollect r' ob tmo n); split; [exact Ic|now left]|].
        rewrite Er. unfold observed in I. apply in_flat_map in I as ([[j b] z] & Io & I). destruct (N.eqb_spec j i) as [->|]; [|destruct I].
        apply in_map_iff. exists (i, b, z). auto.
    - right. cbn [flat_map]. rewrite Nat.eqb_refl, app_nil_r. unfold observed in I. apply in_flat_map in I as ([[j b] z] & Io & I). destruct (N.eqb_spec j i) as [->|]; [|destruct I].
      apply in_map_iff. exists (i, b, z). auto. }
  set (L := flat_map _ _) in Go. assert (IM : In M L).
  { unfold L. apply in_flat_map. exists i. split; [exact Iu|]. destruct (eq_dec (scope_of i) (scope_of i)) as [_|N]; [|contradiction]. exact Mo. }
  assert (Gs : dget (scope_of i) out = Some L) by (rewrite Go; destruct L; [destruct IM|reflexivity]).
  exists L, M. split; [exact Gs|]. split; [exact IM|]. unfold M. cbn. auto 10.
Qed.

Hypothesis LC : log_consistent log_floor.
Notation each_attrs := (Spec_Streams.each_attrs float_int obj_hash).
Notation with_attrs := (Spec_Streams.with_attrs float_int obj_hash).
Notation interval_start := (Spec_Streams.interval_start float_int obj_hash obj).

Lemma exp_points (ks : option (list str)) r (rd : @reader (xconf G0)) i max_size max_scale h h0 part obs now :
  let t := rd_temporality rd (in_kind (obj i)) in
  legal max_size max_scale -> synchronous (in_kind (obj i)) = true ->
  Forall api_call h -> api_call (PCollect r obs false now) ->
  Forall (fun m => measurable (m_amount m)) (gets r i h) ->
  (t = CUMULATIVE -> forall a l, with_attrs ks a (gets r i h) l -> one_sided l) ->
  covers t r h h0 part ->
  exists reps pts, each_attrs ks (gets r i part) reps
  /\ Forall2 (fun a p => exists l s, with_attrs ks a (gets r i part) l /\ interval_start ks r i a h0 (gets r i part) s
                /\ exp_point_is log_floor max_size ks now a s l p) reps pts
  /\ snd (vm_collect (x_collect t) (vm_run float_int obj_hash (x_create (Exponential max_size max_scale) i) x_aggregate (x_collect t) ks
            (vops obj r i h ++ map vm (observed i obs now))) now) = map ExpPoint pts.
Proof.
  intros t LG SY F Fo M P CV. assert (NO := not_observed float_int obj_hash obj r i obs now SY Fo). assert (FO := obs_usable float_int obj_hash obj r obs now Fo).
  assert (MK : forall d st, exists e, eh_new d DELTA st max_size max_scale = Some e /\ x_create (Exponential max_size max_scale) i d st = ExpState e false).
  { intros d st. destruct (legal_new d DELTA st max_size max_scale LG) as (e & E). exists e. split; [exact E|].
    cbn. unfold instr_temporality. rewrite SY, E. reflexivity. }
  assert (SPLIT : forall reps (pts : list (xpoint D0)) (R : option mattrs -> epoint -> Prop),
     Forall2 (fun a p => exists q, p = ExpPoint q /\ R a q) reps pts -> exists qs, pts = map ExpPoint qs /\ Forall2 R reps qs).
  { clear. intros reps pts R F2. induction F2 as [|a p l1 l2 (q & E1 & X) F2 (qs & E2 & IH)]; [exists []; auto|]. exists (q :: qs). subst. auto. }
  destruct CV as [(T & -> & ->)|[T S]].
  - destruct (since_exists r h) as (h1 & part1 & S).
    destruct (points_of ks r i (x_create (Exponential max_size max_scale) i) x_aggregate (x_collect t) h h1 part1 obs now
      (fun a st p => exists q, p = ExpPoint q /\ exp_point_is log_floor max_size ks now a st (Proof_Streams.sel float_int obj_hash ks a (gets r i h)) q) F FO S (gets r i h)) as (reps & E & P2).
    + intros m I. apply in_or_app. now left.
    + intros a st N. rewrite NO, app_nil_r in *. right. split; [exact N|]. destruct (MK (shown ks a) st) as (e & En & ->). rewrite T.
      assert (SEL : Proof_Streams.sel float_int obj_hash ks a (gets r i h)
        = measured (stream_ops (Proof_Streams.Q float_int obj_hash ks a) false (vops obj r i h1)) ++ Proof_Streams.sel float_int obj_hash ks a (gets r i part1)).
      { destruct S as (-> & _ & C0). destruct (closed_ops float_int obj_hash obj ks r i a h1 C0) as (_ & -> & _). now rewrite gets_app, sel_app. }
      destruct (cumulative_last log_floor aggregate0 collect0 (shown ks a) st max_size max_scale e
        (stream_ops (Proof_Streams.Q float_int obj_hash ks a) false (vops obj r i h1)) (Proof_Streams.sel float_int obj_hash ks a (gets r i part1)) now LC En) as (p & Ep & X).
      * destruct S as (_ & _ & C0). exact (proj1 (closed_ops float_int obj_hash obj ks r i a h1 C0)).
      * rewrite <- SEL. now apply sel_all.
      * rewrite <- SEL. apply (P T a). apply with_sel.
      * pose proof (stream_now float_int obj_hash obj ks r i a h h1 part1 [] now S) as X. cbn [observed flat_map map] in X. rewrite !app_nil_r in X.
        rewrite <- X. apply stream_begins.
      * rewrite <- SEL. exact N.
      * exists (ExpPoint p). split; [exact Ep|]. exists p. split; [reflexivity|]. rewrite SEL. exact X.
    + exists reps. assert (P3 := P2). revert P3.
      apply (Forall2_weaken _ (fun a p => exists q, p = ExpPoint q /\ exists l s, with_attrs ks a (gets r i h) l /\ interval_start ks r i a [] (gets r i h) s
                /\ exp_point_is log_floor max_size ks now a s l q)) in P2.
      2:{ intros a p (st & Fa & q & -> & X). rewrite NO, app_nil_r in Fa. exists q. split; [reflexivity|].
          exists (Proof_Streams.sel float_int obj_hash ks a (gets r i h)), st. split; [apply with_sel|]. split; [|exact X]. right. split; [constructor|exact Fa]. }
      intros _. apply SPLIT in P2 as (qs & E1 & E2). exists qs. auto.
  - destruct (points_of ks r i (x_create (Exponential max_size max_scale) i) x_aggregate (x_collect t) h h0 part obs now
      (fun a st p => exists q, p = ExpPoint q /\ exp_point_is log_floor max_size ks now a (last (collections (stream_ops (Proof_Streams.Q float_int obj_hash ks a) false (vops obj r i h0))) st)
          (Proof_Streams.sel float_int obj_hash ks a (gets r i part)) q) F FO S (gets r i part)) as (reps & E & P2).
    + intros m I. apply in_or_app. left. destruct S as (-> & _). rewrite gets_app. apply in_or_app. now right.
    + intros a st N. rewrite NO, app_nil_r in *. destruct (MK (shown ks a) st) as (e & En & ->). rewrite T.
      pose proof S as (Eh & _ & C0). destruct (closed_ops float_int obj_hash obj ks r i a h0 C0) as (Rp & Mb & _).
      assert (SEL : Proof_Streams.sel float_int obj_hash ks a (gets r i h)
        = measured (stream_ops (Proof_Streams.Q float_int obj_hash ks a) false (vops obj r i h0)) ++ Proof_Streams.sel float_int obj_hash ks a (gets r i part)).
      { rewrite Eh, Mb. now rewrite gets_app, sel_app. }
      pose proof (delta_last log_floor aggregate0 collect0 (shown ks a) st max_size max_scale e
        (stream_ops (Proof_Streams.Q float_int obj_hash ks a) false (vops obj r i h0)) (Proof_Streams.sel float_int obj_hash ks a (gets r i part)) now LC En Rp) as X.
      cbn zeta in X. rewrite <- SEL in X. specialize (X (sel_all ks measurable a _ M)).
      destruct (Proof_Streams.sel float_int obj_hash ks a (gets r i part)) as [|z l]; [left; auto|]. right. split; [discriminate|].
      destruct X as (p & Ep & X). exists (ExpPoint p). split; [exact Ep|]. exists p. auto.
    + exists reps.
      apply (Forall2_weaken _ (fun a p => exists q, p = ExpPoint q /\ exists l s, with_attrs ks a (gets r i part) l /\ interval_start ks r i a h0 (gets r i part) s
                /\ exp_point_is log_floor max_size ks now a s l q)) in P2.
      2:{ intros a p (st & Fa & q & -> & X). pose proof (delta_start float_int obj_hash obj ks r i a h h0 part obs now st S Fa) as DS. rewrite NO, app_nil_r in DS. exists q. split; [reflexivity|].
          exists (Proof_Streams.sel float_int obj_hash ks a (gets r i part)). eexists. split; [apply with_sel|]. split; [exact DS|exact X]. }
      apply SPLIT in P2 as (qs & E1 & E2). exists qs. auto.
Qed.

Theorem exp_delivered h r obs now h' h0 part rd i v max_size max_scale :
  seen_through i v -> asked rd i v max_size max_scale -> legal max_size max_scale ->
  nth_error readers r = Some rd -> synchronous (in_kind (obj i)) = true ->
  Forall api_call (h ++ PCollect r obs false now :: h') ->
  Forall (fun m => measurable (m_amount m)) (gets r i h) ->
  let t := rd_temporality rd (in_kind (obj i)) in
  (t = CUMULATIVE -> forall a l, with_attrs (v_keys v) a (gets r i h) l -> one_sided l) ->
  covers t r h h0 part -> (exists m, In m (gets r i part)) ->
  exists out points reps, x_output h (h ++ PCollect r obs false now :: h') = Some (CMetrics r out) /\ NoDup (keys out)
  /\ reports obj scope_of out i v t points
  /\ each_attrs (v_keys v) (gets r i part) reps
  /\ Forall2 (fun a p => exists l s, with_attrs (v_keys v) a (gets r i part) l /\ interval_start (v_keys v) r i a h0 (gets r i part) s
                /\ exp_point_is log_floor max_size (v_keys v) now a s l p) reps points.
Proof.
  intros ST AS LG R SY F M t P CV (m0 & I0).
  pose proof F as F'. apply Forall_app in F' as [F1 F2]. inversion F2 as [|? ? Fo _]; subst.
  destruct (exp_points (v_keys v) r rd i max_size max_scale h h0 part obs now LG SY F1 Fo M P CV) as (reps & pts & E1 & E2 & E3).
  destruct (metrics_delivered h r obs now h' rd i v max_size max_scale ST AS R F) as (out & Eo & No & K).
  { exists m0. apply in_or_app. left. destruct CV as [(_ & _ & ->)|[_ (-> & _)]]; [exact I0|]. rewrite gets_app. apply in_or_app. now right. }
  exists out, pts, reps. split; [exact Eo|]. split; [exact No|]. split; [|auto]. apply K; [exact E3|]. intros ->. inversion E2; subst. destruct E1 as (_ & _ & C). destruct (C m0 I0) as (a & [] & _).
Qed.

Theorem nothing_raised h : Forall api_call h ->
  (forall r rd i v max_size max_scale, nth_error readers r = Some rd -> seen_through i v -> asked rd i v max_size max_scale ->
     legal max_size max_scale /\ synchronous (in_kind (obj i)) = true
     /\ Forall (fun m => measurable (m_amount m)) (gets r i h)
     /\ (rd_temporality rd (in_kind (obj i)) = DELTA
         \/ (rd_temporality rd (in_kind (obj i)) = CUMULATIVE /\ forall a l, with_attrs (v_keys v) a (gets r i h) l -> one_sided l))) ->
  ~ something_raised (fst (x_run h)).
Proof.
  intros F K (st & i & ms & m & k & a & I1 & I2 & I3 & I4 & BAD).
  pose proof (crun_state float_int obj_hash fnmatch (fun s => sco_name (the_scope s)) (fun s => sco_version (the_scope s)) (fun s => sco_schema (the_scope s))
    obj scope_of (Other default0) (x_default is_default0) (x_explicit is_explicit0) x_create x_aggregate
    x_collect (x_shape shape0) views readers applying (fun i v => view_match_spec _ _ _ _ _ _ _ v i) _ (api_hashables float_int obj_hash obj _ F)) as [LN ST].
  unfold Model_ExpPipeline.x_run in I1. apply In_nth_error in I1 as (r & Er).
  destruct (nth_error readers r) as [rd|] eqn:R.
  2:{ apply nth_error_None in R. assert (X : nth_error (fst (crun float_int obj_hash fnmatch (fun s => sco_name (the_scope s)) (fun s => sco_version (the_scope s)) (fun s => sco_schema (the_scope s))
        obj scope_of (Other default0) (x_default is_default0) (x_explicit is_explicit0) x_create x_aggregate x_collect (x_shape shape0) views readers (flat_map (pcall_ops obj) h))) r <> None) by congruence.
      apply nth_error_Some in X. lia. }
  rewrite (ST r rd R) in Er. injection Er as <-. unfold storage_of in I2. apply in_map_iff in I2 as (j & Ej & _). injection Ej as -> <-.
  apply in_map_iff in I3 as (v & <- & Iv). cbn [vm_ser] in I4. apply stream_seen in Iv.
  unfold series_of in I4. change (ops_for r i (flat_map (pcall_ops obj) h)) with (vops obj r i h) in I4.
  assert (U : Forall (op_usable float_int obj_hash (v_keys v)) (vops obj r i h)).
  { apply Forall_forall. intros o I. pose proof (vops_measure float_int obj_hash obj r i h o I) as J. destruct o as [b z n|n]; [|exact Logic.I].
    apply (api_usable float_int obj_hash obj (v_keys v) r i h F (b, z, n) J). }
  set (g := agg_for obj (x_default is_default0) rd v i) in *.
  destruct (streams_public float_int obj_hash (v_keys v) _ _ (x_create g i) x_aggregate (x_collect (rd_temporality rd (in_kind (obj i)))) (vops obj r i h) 0 U) as (reps & _ & _ & _ & E).
  destruct (E _ (Q_decides float_int obj_hash (v_keys v))) as [E1 _]. clear E. apply (in_map snd) in I4. rewrite E1 in I4. apply in_map_iff in I4 as (rep & Ea & _).
  cbn [snd] in Ea. clear E1.
  destruct g as [g0|max_size max_scale] eqn:Eg.
  - assert (X : forall ops a0, exists a1, fst (run_alone x_aggregate (x_collect (rd_temporality rd (in_kind (obj i)))) (OtherState a0) ops) = OtherState a1).
    { clear. intros ops a0. unfold run_alone. set (s := (_, _)). assert (E : exists a, fst s = OtherState a) by (exists a0; reflexivity). clearbody s. revert s E.
      induction ops as [|[z|n] ops IH]; intros [s l] (a & E); cbn [fst] in E; subst s; [eexists; reflexivity| |]; cbn [fold_left]; apply IH.
      - eexists. reflexivity.
      - cbn [fst snd Model_ExpPipeline.x_collect]. destruct (collect0 _ a n). eexists. reflexivity. }
    cbn [Model_ExpPipeline.x_create] in Ea. destruct (X (stream_ops (Proof_Streams.Q float_int obj_hash (v_keys v) (fst rep)) false (vops obj r i h)) (create0 g0 i (stream_attrs (v_keys v) (fst rep)) (snd rep))) as (a1 & E2).
    rewrite E2 in Ea. subst a. destruct BAD as [B|(? & B)]; discriminate.
  - assert (AS : asked rd i v max_size max_scale).
    { unfold g, agg_for in Eg. destruct (v_agg v) as [g1|s1 m1] eqn:Ev; cbn in Eg; [|left; congruence].
      destruct (is_default0 g1) eqn:Dg; [|discriminate]. right. exists g1. auto. }
    destruct (K r rd i v max_size max_scale R Iv AS) as (LG & SY & M & P).
    destruct (legal_new (stream_attrs (v_keys v) (fst rep)) DELTA (snd rep) max_size max_scale LG) as (e & En).
    cbn [Model_ExpPipeline.x_create] in Ea. unfold instr_temporality in Ea. rewrite SY, En, run_exp in Ea. cbn [fst] in Ea. subst a.
    destruct BAD as [B|(? & B)]; [discriminate|]. injection B as _ B.
    set (ops := stream_ops _ false _) in B.
    assert (MM : Forall measurable (measured ops)).
    { apply measured_stream. intros b z n I. apply (vops_measure float_int obj_hash) in I. rewrite Forall_forall in M. exact (M _ I). }
    assert (OK : er_ok (eh_run log_floor (rd_temporality rd (in_kind (obj i))) e ops) = true).
    { destruct P as [-> | [-> P]].
      - apply (delta_ok log_floor _ _ max_size max_scale e ops LC En MM).
      - apply (cumulative_ok log_floor _ _ max_size max_scale e ops LC En MM); [|apply stream_begins].
        destruct (since_exists r h) as (h1 & part1 & S).
        assert (SEL : measured ops = Proof_Streams.sel float_int obj_hash (v_keys v) (fst rep) (gets r i h)).
        { pose proof (stream_now float_int obj_hash obj (v_keys v) r i (fst rep) h h1 part1 [] 0 S) as X. cbn [observed flat_map map] in X. rewrite !app_nil_r in X.
          unfold ops. rewrite X. destruct S as (-> & _ & C0). destruct (closed_ops float_int obj_hash obj (v_keys v) r i (fst rep) h1 C0) as (_ & E & _).
          rewrite measured_app, measured_map, E, gets_app, sel_app. reflexivity. }
        rewrite SEL. apply (P (fst rep)). apply with_sel. }
    rewrite OK in B. discriminate.
Qed.

(** ** The request *)
Variable dbl : Z -> Z.
Variable infty : bool -> Z.
Variable data0 : shape -> temporality -> bool -> list (xpoint D0) -> mdata.
Variable to_float : Z -> option Z.
Notation request := (x_otlp_request float_int the_scope dbl infty data0 to_float).
Notation metric_of := (x_otlp_metric dbl infty data0).
Lemma x_scopes_different (out : dict Scope (list (@metric (xpoint D0)))) :
  (forall s s', same_scope_key float_int (Some (the_scope s)) (Some (the_scope s')) = true -> s = s') -> NoDup (keys out) ->
  all_different (fun a b => same_scope_key float_int (Some a) (Some b)) (map fst (map (fun e => (the_scope (fst e), map metric_of (snd e))) out)).
Proof.
  intros I N. rewrite map_map. cbn [fst]. unfold all_different. induction out as [|[s ms] out IH]; [constructor|]. cbn [map fst] in *.
  inversion N as [|? ? N1 N2]; subst. constructor; [|now apply IH]. apply Forall_forall. intros s' E. apply in_map_iff in E as ([s0 m0] & <- & E). cbn [fst].
  destruct (same_scope_key _ _ _) eqn:K; [|reflexivity]. apply I in K. subst s0. exfalso. apply N1. apply in_map_iff. exists (s, m0). auto.
Qed.
Lemma in_request (out : dict Scope (list (@metric (xpoint D0)))) res req i (v : @view (xconf G0)) t points :
  (forall s s', same_scope_key float_int (Some (the_scope s)) (Some (the_scope s')) = true -> s = s') -> NoDup (keys out) ->
  reports obj scope_of out i v t points -> points <> [] -> request res out = Some req ->
  exists ps, x_metric_in the_scope obj scope_of res i v req (PbExponential ps (temporality_code t))
  /\ Forall2 (fun p q => exp_read to_float (otlp_exp dbl infty p) q) points ps.
Proof.
  intros Inj No (L & M & Gs & IM & M1 & M2 & M3 & M4 & M5 & M6) NE Q0.
  apply dget_In in Gs. unfold x_otlp_request in Q0. apply Proof_OtlpFields.encode_metrics_ok in Q0.
  2:{ cbn. repeat constructor. }
  2:{ constructor; [|constructor]. cbn [snd]. now apply x_scopes_different. }
  inversion Q0 as [|? gr ? tl [Rg Sg] Tl]; subst. inversion Tl; subst. cbn [fst snd] in Rg, Sg. clear Q0 Tl.
  assert (X : exists sg, In sg (pr_scopes gr) /\ scope_metrics_read to_float (the_scope (scope_of i), map metric_of L) sg).
  { clear - Sg Gs. remember (map _ out) as l eqn:E. assert (I : In (the_scope (scope_of i), map metric_of L) l).
    { subst l. apply in_map_iff. exists (scope_of i, L). auto. }
    clear E Gs. induction Sg as [|x y l l' R _ IH]; [destruct I|]. destruct I as [->|I].
    - exists y. split; [now left|exact R].
    - destruct (IH I) as (sg & A & B). exists sg. split; [now right|exact B]. }
  destruct X as (sg & Isg & Ssg & Msg). cbn [fst snd] in Ssg, Msg.
  assert (Y : exists m, In m (pg_items sg) /\ metric_read to_float (metric_of M) m).
  { clear - Msg IM. remember (map _ L) as l eqn:E. assert (I : In (metric_of M) l) by (subst l; now apply in_map).
    clear E IM. induction Msg as [|x y l l' R _ IH]; [destruct I|]. destruct I as [->|I].
    - exists y. split; [now left|exact R].
    - destruct (IH I) as (m & A & B). exists m. split; [now right|exact B]. }
  destruct Y as (m & Im & N1 & N2 & N3 & D). cbn [sm_name sm_descr sm_unit sm_data x_otlp_metric or_empty] in N1, N2, N3, D. rewrite M4 in D.
  assert (EX : otlp_exps dbl infty (m_points M) = map (otlp_exp dbl infty) points).
  { rewrite M6. clear. induction points as [|p ps IH]; [reflexivity|]. cbn. f_equal. exact IH. }
  rewrite EX in D. destruct points as [|p ps]; [congruence|]. cbn [map data_read] in D. destruct D as (qs & Ed & F2).
  exists qs. split.
  - exists gr, sg, m. split; [reflexivity|]. split; [exact Rg|]. split; [exact Isg|]. split; [exact Ssg|]. split; [exact Im|].
    rewrite N1, N2, N3, Ed, M1, M2, M3. repeat (split; [reflexivity|]). reflexivity.
  - change (otlp_exp dbl infty p :: map (otlp_exp dbl infty) ps) with (map (otlp_exp dbl infty) (p :: ps)) in F2. clear - F2.
    remember (p :: ps) as l eqn:E. clear E. revert qs F2. induction l as [|x l IH]; intros qs F2; inversion F2; subst; constructor; auto.
Qed.
Lemma message_of max_size ks now a s l p q : l <> [] -> exp_point_is log_floor max_size ks now a s l p -> exp_read to_float (otlp_exp dbl infty p) q ->
  exp_message_is log_floor dbl max_size ks now a s l q.
Proof.
  intros NE ((H1 & H2 & H3 & H4 & H5 & scale & H6 & H7 & H8 & H9) & E1 & E2 & E3).
  intros (R1 & R2 & R3 & R4 & R5 & R6 & R7 & R8 & R9 & _ & _ & R10 & R11). cbn in R1, R2, R3, R4, R5, R6, R7, R8, R9, R10, R11. rewrite H6 in R6.
  unfold exp_message_is. rewrite E1 in R1. rewrite R2, R3, R4, R5, R6, R7, E2, E3, H1, H2, H5. split; [exact R1|]. repeat (split; [reflexivity|]).
  assert (BS : forall ll off cs b, shows (map_to_index log_floor scale) max_size ll off cs -> buckets_read (EB off cs) b -> buckets_show (map_to_index log_floor scale) max_size ll b).
  { intros ll off cs b SH BR. unfold buckets_read in BR. cbn [eb_counts] in BR. destruct cs as [|c cs]; subst b; [|exact SH].
    cbn. destruct ll as [|x ll]; [reflexivity|]. destruct SH as (_ & K & _). specialize (K x (or_introl eq_refl)). cbn in K. lia. }
  split; [|split; [|split; [|split; [|split]]]]; try reflexivity; try assumption.
  - destruct l as [|x0 l0]; [congruence|]. destruct H3 as [[? _]|(x & E & Ix & K)]; [discriminate|].
    exists x. rewrite E in R10. destruct (px_min q); [|destruct R10]. cbn in R10. subst. auto.
  - destruct l as [|x0 l0]; [congruence|]. destruct H4 as [[? _]|(x & E & Ix & K)]; [discriminate|].
    exists x. rewrite E in R11. destruct (px_max q); [|destruct R11]. cbn in R11. subst. auto.
  - eapply BS; eassumption.
  - eapply BS; eassumption.
Qed.
Theorem exp_requested h r obs now h' h0 part rd i v max_size max_scale :
  (forall s s', same_scope_key float_int (Some (the_scope s)) (Some (the_scope s')) = true -> s = s') ->
  seen_through i v -> asked rd i v max_size max_scale -> legal max_size max_scale ->
  nth_error readers r = Some rd -> synchronous (in_kind (obj i)) = true ->
  Forall api_call (h ++ PCollect r obs false now :: h') ->
  Forall (fun m => measurable (m_amount m)) (gets r i h) ->
  let t := rd_temporality rd (in_kind (obj i)) in
  (t = CUMULATIVE -> forall a l, with_attrs (v_keys v) a (gets r i h) l -> one_sided l) ->
  covers t r h h0 part -> (exists m, In m (gets r i part)) ->
  exists out, x_output h (h ++ PCollect r obs false now :: h') = Some (CMetrics r out)
  /\ forall res req, request res out = Some req ->
     exists ps reps, x_metric_in the_scope obj scope_of res i v req (PbExponential ps (temporality_code t))
     /\ each_attrs (v_keys v) (gets r i part) reps
     /\ Forall2 (fun a p => exists l s, with_attrs (v_keys v) a (gets r i part) l /\ interval_start (v_keys v) r i a h0 (gets r i part) s
                /\ exp_message_is log_floor dbl max_size (v_keys v) now a s l p) reps ps.
Proof.
  intros Inj ST AS LG R SY F M t P CV E.
  destruct (exp_delivered h r obs now h' h0 part rd i v max_size max_scale ST AS LG R SY F M P CV E) as (out & points & reps & Eo & No & Rp & EA & F2).
  exists out. split; [exact Eo|]. intros res req Q0. fold t in Rp.
  assert (NE : points <> []).
  { intros ->. inversion F2; subst. destruct E as (m & I). destruct EA as (_ & _ & C). destruct (C m I) as (a & [] & _). }
  destruct (in_request out res req i v t points Inj No Rp NE Q0) as (ps & X1 & X2). exists ps, reps. split; [exact X1|]. split; [exact EA|].
  assert (NA : forall a, In a reps -> exists m, In m (gets r i part) /\ same_stream float_int obj_hash (v_keys v) a (m_attrs m)) by (apply EA).
  clear E Eo No Rp EA Q0 X1 NE. revert ps X2. induction F2 as [|a p l1 l2 (l & s & W & I & X) _ IH]; intros ps X2; inversion X2; subst; constructor.
  - exists l, s. split; [exact W|]. split; [exact I|]. eapply message_of; [|exact X|eassumption]. intros ->.
    destruct (NA a (or_introl eq_refl)) as (m & Im & Sm). apply with_is in W. symmetry in W. exact (proj1 (sel_none _ _ _ _ _) W m Im Sm).
  - apply IH; [|assumption]. intros b Ib. apply NA. now right.
Qed.
End Storage.
End Pipe.
