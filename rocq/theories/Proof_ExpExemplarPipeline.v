(** Proofs about the exemplars of exponential histograms in the pipeline. *)
From Verif Require Import Proof_Exemplar Proof_Sampled Proof_Streams Proof_Pipeline Proof_ExpPipeline Proof_ExemplarPipeline Proof_ExpExemplar.
From Verif Require Import Proof_Metrics Proof_View Proof_Storage.
From Verif Require Props_ExpHist.
From Verif Require Import Spec_ExpExemplarPipeline Spec_ExpExemplar Spec_ExemplarPipeline Model_ExemplarPipeline Model_Exemplar Spec_Exemplar.
From Coq Require Import Lia.
Local Open Scope Z_scope.

(** ** One stream *)
Section One.
Variable log_floor : Z -> Z -> Z.
Variable the_call : N -> mcall.
Variable f : efilter.
Variable t : temporality.
Variable rd : nat -> Z -> Z.
Context {A0 D0 : Type}.
Variable aggregate0 : A0 -> Z -> A0.
Variable collect0 : temporality -> A0 -> Z -> A0 * option D0.
Notation m_aggregate := (m_aggregate log_floor the_call f aggregate0).
Notation m_collect := (m_collect log_floor f collect0 t).
Notation step := (xe_step log_floor f t).
Notation xrun := (xe_run log_floor f t).
Notation call_no k := (the_call (Z.to_N k)).
Definition xop_of (s : xestate) (n : nat) (o : mop) : xop :=
  match o with Measure k => XMeasure (call_no k) (rd n (draw_bound (xe_res s))) | Collect now => XCollect now end.
Definition next (n : nat) (o : mop) : nat := match o with Measure _ => S n | Collect _ => n end.
Fixpoint xops (s : xestate) (n : nat) (l : list mop) : list xop :=
  match l with [] => [] | o :: l' => xop_of s n o :: xops (step s (xop_of s n o)) (next n o) l' end.
Definition vop (o : mop) : mop := match o with Measure k => Measure (mc_value (call_no k)) | Collect now => Collect now end.

Lemma run_m : forall l s n acc, exists n', fst (fold_left (fun s o => match o with
      | Measure v => (m_aggregate (fst s) v, snd s)
      | Collect now => let (a', p) := m_collect (fst s) now in (a', snd s ++ [p]) end) l (MExp s rd n, acc)) = MExp (xrun s (xops s n l)) rd n'.
Proof.
  induction l as [|[k|now] l IH]; intros s n acc; cbn [fold_left fst snd xops]; [exists n; reflexivity|apply IH|].
  cbn [Model_ExpExemplarPipeline.m_collect]. apply IH.
Qed.
Lemma plain_ops : forall l s n, map x_plain (xops s n l) = map vop l.
Proof. induction l as [|[k|now] l IH]; intros s n; cbn [xops map xop_of x_plain vop]; [reflexivity| |]; now rewrite IH. Qed.
Lemma xops_app : forall l l' s n, exists n', xops s n (l ++ l') = xops s n l ++ xops (xrun s (xops s n l)) n' l'.
Proof.
  induction l as [|o l IH]; intros l' s n; [exists n; reflexivity|]. cbn [app xops]. destruct (IH l' (step s (xop_of s n o)) (next n o)) as (n' & E).
  exists n'. rewrite E. reflexivity.
Qed.

Lemma candidates_snoc sn c d : candidates f (sn ++ [(c, d)])
  = candidates f sn ++ (if is_zero c then [] else if lets_through f (as_meant c) then [(as_meant c, d)] else []).
Proof.
  unfold candidates. rewrite filter_app, map_app, filter_app. f_equal. cbn [filter fst snd negb]. destruct (is_zero c); [reflexivity|]. cbn. now destruct (lets_through f (as_meant c)).
Qed.
Definition counted (size : Z) (s : xestate) (sn : list (mcall * Z)) : Prop := exists st, xe_res s = Simple size (Z.of_nat (length (candidates f sn))) st.
Definition given_ok (l : list mop) : Prop := forall k, In (Measure k) l -> ~ left_span (call_no k).
Lemma draws_good size : bounded rd -> forall l s n sn, xe_ok (xrun s (xops s n l)) = true -> is_delta (eh_instr (xe_hist s)) = true ->
  (sn <> [] -> ei_pos (eh_cur (xe_hist s)) <> None) -> counted size s sn -> draws_ok (candidates f sn) ->
  (forall c d, In (c, d) sn -> ~ left_span c) -> given_ok l ->
  forall iv, In iv (x_intervals sn (xops s n l)) -> draws_ok (candidates f iv) /\ forall c d, In (c, d) iv -> ~ left_span c.
Proof.
  intros B. induction l as [|o l IH]; intros s n sn OK I P C D LS GV iv V; [destruct V|]. cbn [xops xe_run fold_left] in *. fold (xrun (step s (xop_of s n o)) (xops (step s (xop_of s n o)) (next n o) l)) in OK.
  assert (GV' : given_ok l) by (intros k Ik; apply GV; now right).
  pose proof (run_ok _ _ _ _ _ OK) as OK1. destruct o as [k|now]; cbn [xop_of x_intervals next] in *.
  - pose proof (GV k (or_introl eq_refl)) as LK. set (draw := rd n (draw_bound (xe_res s))) in *.
    refine (IH _ _ _ OK _ _ _ _ _ GV' iv V); clear IH V OK; cbn [xe_step] in *.
    all: pose proof (aggregate_keeps log_floor (xe_hist s) (me_value (measurement_of (call_no k)))) as K; destruct (eh_aggregate log_floor (xe_hist s) _) as [h1 ok] eqn:EA; cbn [fst xe_hist xe_res xe_ok] in *; destruct K as (_ & K2 & _ & K3 & _).
    + congruence.
    + intros _. exact K3.
    + apply andb_prop in OK1 as [_ ->]. cbn [negb]. rewrite orb_false_r. destruct C as (st & E). unfold counted. rewrite candidates_snoc. cbn [xe_res]. unfold is_zero. change (me_value (measurement_of (call_no k))) with (mc_value (call_no k)).
      destruct (mc_value (call_no k) =? 0); [rewrite app_nil_r; eauto|]. rewrite (meant_is _ LK). unfold sample_exemplar. rewrite should_sample_iff.
      destruct (lets_through f (as_meant (call_no k))); [|rewrite app_nil_r; eauto]. rewrite app_length, E. cbn [length offer]. rewrite Nat2Z.inj_add. cbn [Z.of_nat Pos.of_succ_nat].
      destruct (simple_index _ _ _); eexists; reflexivity.
    + rewrite candidates_snoc. destruct (is_zero _); [now rewrite app_nil_r|]. destruct (lets_through _ _); [|now rewrite app_nil_r]. apply draws_snoc; [exact D|].
      destruct C as (st & E). unfold draw. rewrite E. cbn [draw_bound]. specialize (B n (Z.of_nat (length (candidates f sn)) + 1)). lia.
    + intros c d J. apply in_app_or in J as [J|[[= <- <-]|[]]]; [eapply LS; exact J|exact LK].
  - destruct V as [<-|V]; [split; [exact D|exact LS]|].
    refine (IH _ _ _ OK _ _ _ _ _ GV' iv V); clear IH V OK; try solve [intros i0 m z E; destruct i0; discriminate]; try solve [intros c d []]; try congruence; cbn [xe_step] in *.
    all: pose proof (collect_keeps t (xe_hist s) now) as K; pose proof (collect_none t (xe_hist s) now I) as CN; destruct (eh_collect (xe_hist s) t now) as [h1 r]; cbn [fst snd] in *; destruct K as (_ & K2 & _ & _).
    + destruct r as [|p|]; [|destruct (rcollect _ _)|]; cbn; congruence.
    + destruct C as (st & E). unfold counted. destruct r as [|p|]; [| |discriminate].
      * destruct (CN eq_refl) as (_ & CP & _). assert (sn = []) as -> by (destruct sn; [reflexivity|exfalso; apply P; [discriminate|exact CP]]). cbn in E |- *. eauto.
      * rewrite E. cbn [rcollect]. destruct (store_collect _ st) as [st' es]. cbn [xe_res]. eexists. reflexivity.
Qed.

(** The last interval *)
Lemma last_measures now : forall l s n sn, exists Y, x_intervals sn (xops s n (map Measure l ++ [Collect now])) = [sn ++ Y] /\ map fst Y = map (fun k => call_no k) l.
Proof.
  induction l as [|k l IH]; intros s n sn; cbn [map app xops xop_of x_intervals].
  - exists []. now rewrite app_nil_r.
  - destruct (IH (step s (xop_of s n (Measure k))) (next n (Measure k)) (sn ++ [(call_no k, rd n (draw_bound (xe_res s)))])) as (Y & E1 & E2). cbn [xop_of] in E1. rewrite E1. rewrite <- app_assoc. cbn [app].
    eexists. split; [reflexivity|]. cbn [map fst]. now rewrite E2.
Qed.
Lemma last_interval now l : forall b s n sn, ends_collected b -> (b = [] -> sn = []) ->
  exists X Y, x_intervals sn (xops s n (b ++ map Measure l ++ [Collect now])) = X ++ [Y] /\ map fst Y = map (fun k => call_no k) l.
Proof.
  induction b as [|o b IH]; intros s n sn EC Z0.
  - rewrite (Z0 eq_refl). destruct (last_measures now l s n []) as (Y & E & M). exists [], Y. auto.
  - cbn [app xops]. assert (EB : b = [] \/ ends_collected b).
    { destruct EC as [EC|(b' & n0 & EC)]; [discriminate|]. destruct b' as [|o' b']; injection EC as -> ->; [now left|right; right; eauto]. }
    assert (EC' : ends_collected b) by (destruct EB as [->|]; [now left|assumption]).
    destruct o as [k|n0]; cbn [xop_of x_intervals].
    + apply IH; [exact EC'|]. intros ->. destruct EC as [EC|(b' & n0 & EC)]; [discriminate|]. destruct b' as [|o' [|]]; discriminate.
    + destruct (IH (step s (XCollect n0)) (next n (Collect n0)) [] EC' (fun _ => eq_refl)) as (X & Y & E & M). rewrite E. exists (sn :: X), Y. auto.
Qed.
Lemma exemplars_draws attrs room since es : exp_exemplars_are f attrs room since es -> exp_exemplars_are f attrs room (no_draws (map fst since)) es.
Proof.
  assert (E : map fst (candidates f (no_draws (map fst since))) = map fst (candidates f since)).
  { unfold candidates, no_draws. induction since as [|[c d] l IH]; [reflexivity|]. cbn [map fst filter]. destruct (is_zero c); cbn [negb]; [exact IH|]. cbn [map filter fst]. destruct (lets_through _ _); cbn [map fst]; now rewrite IH. }
  unfold exp_exemplars_are. now rewrite E.
Qed.
Lemma Forall2_last_r {A B} (R : A -> B -> Prop) l a l' : Forall2 R (l ++ [a]) l' -> exists l1 b, l' = l1 ++ [b] /\ R a b.
Proof. intro F. apply Forall2_app_inv_l in F as (l1 & l2 & _ & F2 & E). inversion F2 as [|? y ? ? Ray F3]; subst. inversion F3; subst. eauto. Qed.

(** What a collection gets after a history [b] that ends with one, and the measurements [l] *)
Lemma stream_point attrs start max_size max_scale h0 b l now :
  eh_new attrs DELTA start max_size max_scale = Some h0 -> bounded rd -> ends_collected b -> given_ok (b ++ map Measure l) ->
  er_ok (eh_run log_floor t h0 (map vop (b ++ map Measure l ++ [Collect now]))) = true ->
  exists r pts, er_points (eh_run log_floor t h0 (map vop (b ++ map Measure l ++ [Collect now]))) = pts ++ [r] /\
  match snd (m_collect (fst (run_alone m_aggregate m_collect (MExp (xe_new h0) rd 0) (b ++ map Measure l))) now) with
  | None => l = [] /\ t = DELTA
  | Some o => exists p es, o = MExpPoint (p, es) /\ r = EPoint p /\ exp_exemplars_are f attrs (Z.min 20 max_size) (no_draws (map (fun k => call_no k) l)) es
  end.
Proof.
  intros EN B EC GV OK.
  destruct (run_m (b ++ map Measure l) (xe_new h0) 0%nat []) as (n1 & ER). unfold run_alone. rewrite ER. cbn [Model_ExpExemplarPipeline.m_collect snd].
  set (H := xops (xe_new h0) 0 (b ++ map Measure l ++ [Collect now])).
  assert (EH : exists n, H = xops (xe_new h0) 0 (b ++ map Measure l) ++ xops (xrun (xe_new h0) (xops (xe_new h0) 0 (b ++ map Measure l))) n [Collect now]).
  { unfold H. rewrite app_assoc. apply xops_app. }
  assert (ES : step (xrun (xe_new h0) (xops (xe_new h0) 0 (b ++ map Measure l))) (XCollect now) = xrun (xe_new h0) H).
  { destruct EH as (n & ->). unfold xe_run. rewrite fold_left_app. reflexivity. }
  rewrite ES. clear ER ES EH.
  rewrite <- (plain_ops _ (xe_new h0) 0) in OK |- *. fold H in OK |- *.
  assert (HN : eh_instr h0 = DELTA).
  { unfold eh_new in EN. destruct ((max_size <? 2) || (16384 <? max_size)); [discriminate|]. destruct (new_mapping max_scale); [|discriminate]. now injection EN as <-. }
  destruct (plain_run log_floor f t H (xe_new h0) (ER h0 true []) eq_refl eq_refl eq_refl) as (_ & O & _).
  assert (DG : forall iv, In iv (x_intervals [] H) -> draws_ok (candidates f iv) /\ forall c d, In (c, d) iv -> ~ left_span c).
  { unfold H. apply (draws_good (Z.min 20 (eh_max_size h0)) B).
    - fold H. rewrite O. exact OK.
    - cbn. now rewrite HN.
    - congruence.
    - eexists. reflexivity.
    - intros i m z E. destruct i; discriminate.
    - intros c d [].
    - intros k Ik. rewrite app_assoc in Ik. apply in_app_or in Ik as [Ik|[Ik|[]]]; [exact (GV k Ik)|discriminate]. }
  destruct (exp_exemplars log_floor f t attrs start max_size max_scale h0 H EN OK DG) as [PT X].
  destruct (last_interval now l b (xe_new h0) 0 [] EC (fun _ => eq_refl)) as (X0 & Y & EI & EY). fold H in EI. rewrite EI in X.
  apply Forall2_last_r in X as (out & o & EO & X). rewrite EO in PT |- *. rewrite last_last. rewrite map_app in PT. cbn [map] in PT.
  symmetry in PT. apply map_eq_app in PT as (pts & rs & EP & _ & E2). destruct rs as [|r [|]]; try discriminate. cbn [map] in E2. injection E2 as E2.
  exists r, pts. split; [exact EP|]. destruct o as [[p es]|]; cbn [option_map fst] in *.
  - exists p, es. split; [reflexivity|]. split; [destruct r; try discriminate; cbn in E2; congruence|]. apply exemplars_draws in X. now rewrite EY in X.
  - destruct X as [-> T]. split; [|exact T]. destruct l; [reflexivity|discriminate].
Qed.
End One.

Section Storage.
Variable float_int : Z -> option Z.
Variable obj_hash : N -> bool.
Variable fnmatch : str -> str -> bool.
Context {Scope : Type} `{EqDec Scope}.
Variable the_scope : Scope -> scope.
Variable obj : N -> instr.
Variable scope_of : N -> Scope.
Variable log_floor : Z -> Z -> Z.
Variable the_call : N -> mcall.
Variable f : efilter.
Variable rand : N -> mattrs -> Z -> nat -> Z -> Z.
Context {G0 A0 D0 : Type}.
Variable default0 : G0.
Variable is_default0 is_explicit0 : G0 -> bool.
Variable create0 : G0 -> N -> mattrs -> Z -> A0.
Variable aggregate0 : A0 -> Z -> A0.
Variable collect0 : temporality -> A0 -> Z -> A0 * option D0.
Variable shape0 : G0 -> N -> shape.
Variable views : list (@view (xconf G0)).
Variable readers : list (@reader (xconf G0)).
Notation m_output := (m_output float_int obj_hash fnmatch the_scope obj scope_of log_floor the_call f rand default0 is_default0 is_explicit0 create0 aggregate0 collect0 shape0 views readers).
Notation applies := (applies fnmatch (fun s => sco_name (the_scope s)) (fun s => sco_version (the_scope s)) (fun s => sco_schema (the_scope s)) obj scope_of (x_explicit is_explicit0)).
Notation view_match := (view_match fnmatch (fun s => sco_name (the_scope s)) (fun s => sco_version (the_scope s)) (fun s => sco_schema (the_scope s)) obj scope_of).
Notation seen_through := (x_seen_through fnmatch the_scope obj scope_of default0 is_explicit0 views).
Notation asked := (x_asked obj is_default0).
Notation m_create := (m_create obj rand create0).
Notation m_aggregate := (m_aggregate log_floor the_call f aggregate0).
Notation m_collect := (m_collect log_floor f collect0).
Notation gets := (gets obj).
Notation api_call := (api_call float_int obj_hash obj).
Let applying := fun i v => view_match v i && compatible obj (x_explicit is_explicit0) v i.

Lemma seen_stream i v : seen_through i v -> exists v', In v' (streams (Other default0) views applying i) /\ v_name v' = v_name v /\ v_descr v' = v_descr v /\ v_keys v' = v_keys v /\ v_agg v' = v_agg v.
Proof.
  intros ST. unfold streams. destruct ST as [[Iv Av]|(NV & E1 & E2 & E3 & E4)].
  - exists v. split; [|auto]. assert (I : In v (filter (applying i) views)) by (apply filter_In; split; [exact Iv|]; apply view_match_spec; exact Av).
    destruct (filter (applying i) views); [destruct I|exact I].
  - exists (DEFAULT_VIEW (Other default0)). rewrite E1, E2, E3, E4. split; [|auto].
    replace (filter (applying i) views) with (@nil (@view (xconf G0))); [now left|]. symmetry.
    clear - NV. induction views as [|v' vs IH]; [reflexivity|]. cbn [filter]. destruct (applying i v') eqn:E.
    + exfalso. apply (NV v'); [now left|]. apply view_match_spec. exact E.
    + apply IH. intros x I. apply NV. now right.
Qed.
Lemma metrics_delivered h r obs now h' rd i v max_size max_scale :
  seen_through i v -> asked rd i v max_size max_scale ->
  nth_error readers r = Some rd ->
  Forall api_call (h ++ PCollect r obs false now :: h') ->
  (exists m, In m (gets r i h ++ observed i obs now)) ->
  let t := rd_temporality rd (in_kind (obj i)) in
  let points := snd (vm_collect (m_collect t) (vm_run float_int obj_hash (m_create (Exponential max_size max_scale) i) m_aggregate (m_collect t) (v_keys v)
                       (vops obj r i h ++ map vm (observed i obs now))) now) in
  exists out, nth_error (snd (crun float_int obj_hash fnmatch (fun s => sco_name (the_scope s)) (fun s => sco_version (the_scope s)) (fun s => sco_schema (the_scope s))
    obj scope_of (Other default0) (x_default is_default0) (x_explicit is_explicit0) m_create m_aggregate m_collect (x_shape shape0) views readers
    (flat_map (pcall_ops obj) (h ++ PCollect r obs false now :: h')))) (length (flat_map (pcall_ops obj) h)) = Some (CMetrics r out) /\ NoDup (keys out)
  /\ forall pts, points = map MExpPoint pts -> pts <> [] -> m_reports obj scope_of out i v t pts.
Proof.
  intros ST AS R F (m0 & Im0) t points.
  assert (FH : Forall (cop_hashable float_int obj_hash) (flat_map (pcall_ops obj) h ++ CCollect r obs false now :: flat_map (pcall_ops obj) h')).
  { pose proof (api_hashables float_int obj_hash obj _ F) as X. rewrite flat_map_app in X. exact X. }
  destruct (collect_reports float_int obj_hash fnmatch (fun s => sco_name (the_scope s)) (fun s => sco_version (the_scope s)) (fun s => sco_schema (the_scope s))
    obj scope_of (Other default0) (x_default is_default0) (x_explicit is_explicit0) m_create m_aggregate
    m_collect (x_shape shape0) views readers applying (fun i v => view_match_spec _ _ _ _ _ _ _ v i) _ r obs now _ rd FH R) as (out & Eo & No & Go).
  exists out. split; [rewrite flat_map_app; exact Eo|].
  split; [exact No|]. intros pts Ep NE.
  specialize (Go (scope_of i)).
  assert (Op : ops_for r i (flat_map (pcall_ops obj) h ++ [CCollect r obs true now]) = vops obj r i h ++ map vm (observed i obs now)).
  { unfold ops_for. rewrite flat_map_app. cbn [flat_map ops_of]. rewrite Nat.eqb_refl, observed_vm, !app_nil_r. reflexivity. }
  destruct (seen_stream i v ST) as (v' & Iv' & V1 & V2 & V3 & V4).
  set (M := Metric (renamed (v_name v) (in_name (obj i))) (renamed (v_descr v) (in_descr (obj i))) (in_unit (obj i)) ShExponential t
            (match in_kind (obj i) with ICounter | IObservableCounter => true | _ => false end) points).
  assert (Ag : (if x_default is_default0 (v_agg v') then rd_aggregation rd (in_kind (obj i)) else v_agg v') = Exponential max_size max_scale).
  { rewrite V4. destruct AS as [-> |(g0 & -> & Dg & Rg)]; [reflexivity|]. cbn. now rewrite Dg. }
  assert (Mo : In M (metrics_of float_int obj_hash obj (Other default0) (x_default is_default0) m_create m_aggregate
    m_collect (x_shape shape0) views applying rd r (flat_map (pcall_ops obj) h ++ [CCollect r obs true now]) now i)).
  { unfold metrics_of. apply in_flat_map. exists v'. split; [exact Iv'|]. unfold series_of. rewrite Op. unfold agg_for. rewrite Ag, V3. fold t.
    change (snd (vm_collect _ _ now)) with points.
    unfold reported. rewrite Ag, V1, V2. fold t. unfold M. destruct points as [|p ps]; [destruct pts; [congruence|discriminate]|].
    now left. }
  assert (Iu : In i (Spec_Storage.once [] (used r (flat_map (pcall_ops obj) h ++ [CCollect r obs true now])))).
  { apply once_in; [|intros []]. unfold used. rewrite flat_map_app. apply in_or_app. apply in_app_or in Im0 as [I|I].
    - left. unfold Spec_Streams.gets in I. apply in_flat_map in I as (c & Ic & I). apply in_flat_map. destruct c as [j b z n|r' ob tmo n]; cbn [Spec_Streams.measured_in] in I.
      + destruct (N.eqb_spec j i) as [->|]; [|destruct I]. cbn [andb] in I. destruct (takes _ z) eqn:Tz; [|destruct I].
        exists (CMeasure i b z n). split; [|now left]. apply in_flat_map. exists (PCall i b z n). split; [exact Ic|]. cbn [pcall_ops]. rewrite (takes_offered float_int obj_hash obj i), Tz. now left.
      + destruct (Nat.eqb r' r) eqn:Er; [|destruct I]. exists (CCollect r' ob tmo n). split; [apply in_flat_map; exists (PCollect r' ob tmo n); split; [exact Ic|now left]|].
        rewrite Er. unfold observed in I. apply in_flat_map in I as ([[j b] z] & Io & I). destruct (N.eqb_spec j i) as [->|]; [|destruct I].
        apply in_map_iff. exists (i, b, z). auto.
    - right. cbn [flat_map]. rewrite Nat.eqb_refl, app_nil_r. unfold observed in I. apply in_flat_map in I as ([[j b] z] & Io & I). destruct (N.eqb_spec j i) as [->|]; [|destruct I].
      apply in_map_iff. exists (i, b, z). auto. }
  set (L := flat_map _ _) in Go. assert (IM : In M L).
  { unfold L. apply in_flat_map. exists i. split; [exact Iu|]. destruct (eq_dec (scope_of i) (scope_of i)) as [_|N]; [|contradiction]. exact Mo. }
  assert (Gs : dget (scope_of i) out = Some L) by (rewrite Go; destruct L; [destruct IM|reflexivity]).
  exists L, M. split; [exact Gs|]. split; [exact IM|]. unfold M. cbn. auto 10.
Qed.


Lemma replay_all h : fst (replay h) ++ map Measure (snd (replay h)) = h.
Proof.
  induction h as [|o h IH] using rev_ind; [reflexivity|]. rewrite replay_snoc. destruct o as [v|n]; cbn [fst snd].
  - rewrite map_app, app_assoc, IH. reflexivity.
  - rewrite app_assoc, IH. cbn. now rewrite app_nil_r.
Qed.
Lemma ended_replay b : ends_collected b -> replay b = (b, []).
Proof.
  intros [->|(b' & n & ->)]; [reflexivity|]. rewrite replay_snoc. now rewrite app_assoc, replay_all.
Qed.
Notation val k := (mc_value (the_call k)).
Notation vop := (vop the_call).
Lemma vop_ends b : ends_collected b -> ends_collected (map vop b).
Proof. intros [->|(b' & n & ->)]; [now left|]. right. rewrite map_app. cbn. eauto. Qed.
Lemma measured_vop l : measured (map vop l) = map (fun k => val (Z.to_N k)) (measured l).
Proof. unfold measured in *. induction l as [|[k|n] l IH]; [reflexivity| |]; cbn; [|exact IH]. f_equal. exact IH. Qed.
Lemma vop_measures (l : list N) : map vop (map Measure (map Z.of_N l)) = map Measure (map (fun k => val k) l).
Proof. rewrite !map_map. apply map_ext. intro k. cbn. now rewrite N2Z.id. Qed.

Lemma vop_collections b : collections (map vop b) = collections b.
Proof. unfold collections. induction b as [|[k|n] b IH]; [reflexivity| |]; cbn; [exact IH|]. f_equal. exact IH. Qed.

(** Starts of intervals *)
Notation pcalls := (flat_map (e_pcall obj the_call)).
Lemma none_observed i obs : synchronous (in_kind (obj i)) = true ->
  Forall (fun ob : N * N => synchronous (in_kind (obj (fst ob))) = false /\ usable float_int obj_hash None (mc_attrs (the_call (snd ob)))) obs -> e_observed i obs = [].
Proof.
  intros SY F. unfold e_observed. induction F as [|[j k] obs [E _] _ IH]; [reflexivity|]. cbn [filter fst] in *.
  destruct (N.eqb_spec j i) as [->|]; [congruence|exact IH].
Qed.
Lemma first_call ks r i a s : synchronous (in_kind (obj i)) = true -> forall part, Forall (e_allowed float_int obj_hash obj the_call) part ->
  first_at float_int obj_hash ks a (gets r i (pcalls part)) s ->
  exists p1 k p2, part = p1 ++ ECall i k s :: p2 /\ takes (in_kind (obj i)) (mc_value (the_call k)) = true
    /\ same_stream float_int obj_hash ks a (mc_attrs (the_call k)) /\ e_with float_int obj_hash the_call ks a (e_gets obj the_call r i p1) [].
Proof.
  intros SY. induction 1 as [|c part A F IH]; intros (ms1 & m & ms2 & E & S1 & S2 & S3).
  { cbn in E. destruct ms1; discriminate. }
  assert (SK : gets r i (pcalls (c :: part)) = gets r i (pcalls part) -> e_measured obj the_call r i c = [] ->
    exists p1 k p2, c :: part = p1 ++ ECall i k s :: p2 /\ takes (in_kind (obj i)) (mc_value (the_call k)) = true
    /\ same_stream float_int obj_hash ks a (mc_attrs (the_call k)) /\ e_with float_int obj_hash the_call ks a (e_gets obj the_call r i p1) []).
  { intros E1 E2. rewrite E1 in E. destruct IH as (p1 & k & p2 & -> & X1 & X2 & X3); [exists ms1, m, ms2; auto|].
    exists (c :: p1), k, p2. split; [reflexivity|]. split; [exact X1|]. split; [exact X2|]. unfold e_gets in *. cbn [flat_map]. now rewrite E2. }
  destruct c as [j k n|r' ob tm n].
  - cbn [flat_map Model_ExemplarPipeline.e_pcall] in E, SK. destruct (N.eqb_spec j i) as [->|NJ].
    + rewrite (takes_offered float_int obj_hash obj i) in E, SK. cbn [e_measured] in SK. rewrite N.eqb_refl in SK. destruct (takes (in_kind (obj i)) (mc_value (the_call k))) eqn:TK.
      2:{ apply SK; reflexivity. }
      clear SK. unfold Spec_Streams.gets in E. cbn [app flat_map measured_in] in E. rewrite N.eqb_refl, takes_number in E by assumption. cbn [andb app] in E. fold (gets r i (pcalls part)) in E.
      destruct ms1 as [|m1 ms1]; cbn [app] in E; injection E as <- E.
      * cbn in S1, S2. subst n. exists [], k, part. split; [reflexivity|]. split; [exact TK|]. split; [exact S1|]. constructor.
      * inversion S3 as [| |? ? ? NS S3']; subst. destruct IH as (p1 & k1 & p2 & -> & X1 & X2 & X3); [exists ms1, m, ms2; auto|].
        exists (ECall i k n :: p1), k1, p2. split; [reflexivity|]. split; [exact X1|]. split; [exact X2|]. unfold e_gets in *. cbn [flat_map e_measured]. rewrite N.eqb_refl, TK. cbn [andb app].
        apply ew_skip; [exact NS|exact X3].
    + apply SK; [|cbn; apply N.eqb_neq in NJ; now rewrite NJ]. destruct (offered _ _); [|reflexivity]. unfold Spec_Streams.gets. cbn [app flat_map measured_in].
      apply N.eqb_neq in NJ. now rewrite NJ.
  - pose proof (none_observed i ob SY A) as NO. apply SK.
    + cbn [flat_map Model_ExemplarPipeline.e_pcall app]. unfold Spec_Streams.gets. cbn [flat_map measured_in]. destruct (Nat.eqb r' r); [|reflexivity].
      pose proof (observed_plain the_call i ob n) as X. rewrite NO in X. unfold e_obs in X. destruct (observed i _ n); [reflexivity|discriminate].
    + cbn. destruct (Nat.eqb r' r); [exact NO|reflexivity].
Qed.
Lemma starts_call ks r i a h h0 part s : synchronous (in_kind (obj i)) = true -> Forall (e_allowed float_int obj_hash obj the_call) part -> e_since r h h0 part ->
  interval_start float_int obj_hash obj ks r i a (pcalls h0) (gets r i (pcalls part)) s -> e_starts float_int obj_hash obj the_call ks r i a h0 part s.
Proof.
  intros SY F (_ & _ & C) IS.
  assert (SE : Proof_Streams.sel float_int obj_hash ks a (gets r i (pcalls h0)) = map Z.of_N (e_sel float_int obj_hash the_call ks a (e_gets obj the_call r i h0))).
  { apply sel_plain. apply (gets_plain float_int obj_hash). }
  destruct IS as [(l & h1 & c & W & NE & E & CO)|[W FA]].
  - left. exists (e_sel float_int obj_hash the_call ks a (e_gets obj the_call r i h0)). apply with_is in W. rewrite SE in W.
    destruct C as [->|(h2 & obs & now & ->)]; [destruct h1; discriminate|]. exists h2, obs. split; [apply e_sel_with|]. split.
    + intro Z0. rewrite Z0 in W. now apply NE.
    + rewrite flat_map_app in E. cbn [flat_map Model_ExemplarPipeline.e_pcall app] in E. apply app_inj_tail in E as [_ <-]. destruct CO as (o & CO). now injection CO as _ ->.
  - right. apply with_is in W. rewrite SE in W. symmetry in W. apply map_eq_nil in W. split.
    + rewrite <- W. apply e_sel_with.
    + eapply first_call; eassumption.
Qed.

(** The points of one stream *)
Lemma exp_stream t rd attrs start max_size max_scale h0 b (before l : list N) now :
  log_consistent log_floor -> eh_new attrs DELTA start max_size max_scale = Some h0 -> bounded rd -> ends_collected b -> begins (b ++ map Measure (map Z.of_N l)) ->
  measured b = map Z.of_N before ->
  (forall k, In k (before ++ l) -> measurable (val k) /\ ~ left_span (the_call k)) ->
  (t = DELTA \/ t = CUMULATIVE /\ before ++ l <> [] /\ one_sided (map (fun k => val k) (before ++ l))) ->
  match snd (m_collect t (fst (run_alone m_aggregate (m_collect t) (MExp (xe_new h0) rd 0) (b ++ map Measure (map Z.of_N l)))) now) with
  | None => l = [] /\ t = DELTA
  | Some o => exists p es, o = MExpPoint (p, es) /\ (t = DELTA -> l <> [])
      /\ exp_histogram_of log_floor max_size (map (fun k => val k) (match t with DELTA => l | _ => before ++ l end)) p /\ ep_attrs p = attrs /\ ep_time p = now
      /\ ep_start p = match t with DELTA => last (collections b) start | _ => start end
      /\ exp_exemplars_are f attrs (Z.min 20 max_size) (no_draws (map the_call l)) es
  end.
Proof.
  intros LC EN B EC BG MB K T.
  assert (EV : map vop (b ++ map Measure (map Z.of_N l) ++ [Collect now]) = map vop b ++ map Measure (map (fun k => val k) l) ++ [Collect now]).
  { rewrite !map_app, vop_measures. reflexivity. }
  assert (MV : measured (map vop b) = map (fun k => val k) before).
  { rewrite measured_vop, MB, map_map. apply map_ext. intro k. now rewrite N2Z.id. }
  destruct (windows_window (map vop b) (map (fun k => val k) l) now (ended_replay _ (vop_ends b EC))) as [WW _].
  assert (MM : measured (map vop (b ++ map Measure (map Z.of_N l) ++ [Collect now])) = map (fun k => val k) (before ++ l)).
  { rewrite EV, measured_window, MV, map_app. reflexivity. }
  assert (M1 : Forall measurable (measured (map vop (b ++ map Measure (map Z.of_N l) ++ [Collect now])))).
  { rewrite MM. apply Forall_map, Forall_forall. intros k I. now apply K. }
  assert (OK : er_ok (eh_run log_floor t h0 (map vop (b ++ map Measure (map Z.of_N l) ++ [Collect now]))) = true).
  { destruct T as [->|(-> & NE & P)]; [eapply delta_ok; eassumption|]. eapply cumulative_ok; try eassumption.
    - rewrite MM. exact P.
    - destruct b as [|[k|n] b]; [|exact Logic.I|exact BG]. destruct l as [|k l]; [|exact Logic.I]. destruct before; [destruct (NE eq_refl)|discriminate]. }
  assert (GV : given_ok the_call (b ++ map Measure (map Z.of_N l))).
  { intros k I. assert (J : In k (measured (b ++ map Measure (map Z.of_N l)))).
    { clear - I. induction (b ++ map Measure (map Z.of_N l)) as [|[x|n] q IH]; [destruct I| |]; cbn [measured]; destruct I as [E|I]; try discriminate; [injection E as ->; now left|right; auto|auto]. }
    rewrite measured_app, measured_map, MB, <- map_app in J. apply in_map_iff in J as (k' & <- & J). rewrite N2Z.id. now apply K. }
  destruct (stream_point log_floor the_call f t rd aggregate0 collect0 attrs start max_size max_scale h0 b (map Z.of_N l) now EN B EC GV OK) as (r & pts & EP & X).
  destruct (snd (m_collect t _ now)) as [o|]; [|destruct X as [X1 X2]; split; [now apply map_eq_nil in X1|exact X2]].
  destruct X as (p & es & -> & -> & X). exists p, es. split; [reflexivity|].
  replace (map (fun k : Z => the_call (Z.to_N k)) (map Z.of_N l)) with (map the_call l) in X by (rewrite map_map; apply map_ext; intro k; now rewrite N2Z.id).
  destruct T as [->|(-> & NE & P)].
  - destruct (Props_ExpHist.C44_delta log_floor attrs start max_size max_scale h0 _ LC EN M1) as [_ F2]. rewrite EP, EV, WW in F2. apply Proof_ExemplarPipeline.Forall2_last in F2.
    cbn [w_since w_now w_before] in F2. destruct l as [|k l]; [discriminate|]. cbn [map] in F2. destruct F2 as (q & [= <-] & H1 & H2 & H3 & H4).
    unfold previous_time in H3. cbn [w_before] in H3. rewrite vop_collections in H3. split; [discriminate|]. auto.
  - pose proof (Props_ExpHist.C45_cumulative_partial log_floor attrs start max_size max_scale h0 _ LC EN M1 OK) as F2. rewrite EP, EV, WW in F2. apply Proof_ExemplarPipeline.Forall2_last in F2.
    destruct F2 as (q & [= <-] & H1 & H2 & H3 & H4). unfold so_far in H1. cbn [w_before w_since] in H1. rewrite MV, <- map_app in H1. split; [discriminate|]. auto.
Qed.

Theorem exp_delivered h r obs now h' rd i v max_size max_scale h0 part :
  let t := rd_temporality rd (in_kind (obj i)) in
  let new := e_gets obj the_call r i part in
  let cur := match t with DELTA => new | _ => e_gets obj the_call r i h end in
  log_consistent log_floor ->
  (forall i d s n b, 0 < b -> 0 <= rand i d s n b < b) ->
  seen_through i v -> asked rd i v max_size max_scale -> legal max_size max_scale ->
  nth_error readers r = Some rd -> synchronous (in_kind (obj i)) = true ->
  Forall (e_allowed float_int obj_hash obj the_call) (h ++ ECollect r obs false now :: h') ->
  e_since r h h0 part ->
  (forall k, In k (e_gets obj the_call r i h) -> measurable (val k) /\ ~ left_span (the_call k)) ->
  (t = DELTA \/ t = CUMULATIVE /\ forall a l, e_with float_int obj_hash the_call (v_keys v) a (e_gets obj the_call r i h) l -> one_sided (map (fun k => val k) l)) ->
  (exists k, In k cur) ->
  exists out points reps,
    m_output h (h ++ ECollect r obs false now :: h') = Some (CMetrics r out) /\ NoDup (keys out)
    /\ m_reports obj scope_of out i v t points
    /\ e_each float_int obj_hash the_call (v_keys v) cur reps
    /\ Forall2 (fun a pe => exists l new_l, e_with float_int obj_hash the_call (v_keys v) a cur l /\ e_with float_int obj_hash the_call (v_keys v) a new new_l
         /\ exp_histogram_of log_floor max_size (map (fun k => val k) l) (fst pe) /\ ep_attrs (fst pe) = shown (v_keys v) a /\ ep_time (fst pe) = now
         /\ e_starts float_int obj_hash obj the_call (v_keys v) r i a (match t with DELTA => h0 | _ => [] end) (match t with DELTA => part | _ => h end) (ep_start (fst pe))
         /\ exp_exemplars_are f (shown (v_keys v) a) (Z.min 20 max_size) (no_draws (map the_call new_l)) (snd pe)) reps points.
Proof.
  intros t new cur LC RB ST AS LG R SY F S KM T (k0 & Ik0).
  pose proof (allowed_api float_int obj_hash obj the_call _ F) as FA. rewrite flat_map_app in FA. cbn [flat_map Model_ExemplarPipeline.e_pcall app] in FA.
  fold (e_obs the_call obs) in FA.
  pose proof (since_pcalls obj the_call _ _ _ _ S) as SP.
  set (H1 := flat_map (e_pcall obj the_call) h) in *. set (P1 := flat_map (e_pcall obj the_call) part) in *. set (H0 := flat_map (e_pcall obj the_call) h0) in *.
  assert (FH : Forall api_call H1) by (apply Forall_app in FA as [X _]; exact X).
  assert (Fo : api_call (PCollect r (e_obs the_call obs) false now)) by (apply Forall_app in FA as [_ X]; inversion X; assumption).
  pose proof (not_observed float_int obj_hash obj r i _ now SY Fo) as NO. pose proof (obs_usable float_int obj_hash obj r _ now Fo) as FO.
  assert (EN : map Proof_ExemplarPipeline.plain (gets r i P1) = map (Proof_ExemplarPipeline.number the_call) new) by apply (gets_plain float_int obj_hash).
  assert (EA : map Proof_ExemplarPipeline.plain (gets r i H1) = map (Proof_ExemplarPipeline.number the_call) (e_gets obj the_call r i h)) by apply (gets_plain float_int obj_hash).
  assert (E0 : map Proof_ExemplarPipeline.plain (gets r i H0) = map (Proof_ExemplarPipeline.number the_call) (e_gets obj the_call r i h0)) by apply (gets_plain float_int obj_hash).
  assert (EH : e_gets obj the_call r i h = e_gets obj the_call r i h0 ++ new) by (destruct S as (-> & _); apply flat_map_app).
  set (pcur := match t with DELTA => gets r i P1 | _ => gets r i H1 end).
  assert (EC : map Proof_ExemplarPipeline.plain pcur = map (Proof_ExemplarPipeline.number the_call) cur) by (unfold pcur, cur; destruct t; assumption).
  assert (INC : forall m, In m pcur -> In m (gets r i H1 ++ observed i (e_obs the_call obs) now)).
  { rewrite NO, app_nil_r. intros m I. unfold pcur in I. destruct t; try exact I. destruct SP as (E & _ & _). rewrite E, gets_app. apply in_or_app. now right. }
  destruct (points_of float_int obj_hash obj (v_keys v) r i (m_create (Exponential max_size max_scale) i) m_aggregate (m_collect t) H1 H0 P1 (e_obs the_call obs) now
    (fun a st o => exists pe, o = MExpPoint pe
         /\ exp_histogram_of log_floor max_size (map (fun k => val k) (e_sel float_int obj_hash the_call (v_keys v) a cur)) (fst pe) /\ ep_attrs (fst pe) = shown (v_keys v) a /\ ep_time (fst pe) = now
         /\ ep_start (fst pe) = match t with DELTA => last (collections (stream_ops (Proof_Streams.Q float_int obj_hash (v_keys v) a) false (vops obj r i H0))) st | _ => st end
         /\ exp_exemplars_are f (shown (v_keys v) a) (Z.min 20 max_size) (no_draws (map the_call (e_sel float_int obj_hash the_call (v_keys v) a new))) (snd pe)) FH FO SP pcur INC) as (reps & E1 & E2).
  { intros a st NE. rewrite NO, app_nil_r in *. cbn zeta.
    set (d := shown (v_keys v) a). set (b := stream_ops (Proof_Streams.Q float_int obj_hash (v_keys v) a) false (vops obj r i H0)).
    assert (CL : replay b = (b, []) /\ measured b = Proof_Streams.sel float_int obj_hash (v_keys v) a (gets r i H0)).
    { destruct SP as (_ & _ & C). pose proof (closed_ops float_int obj_hash obj (v_keys v) r i a H0 C) as X. cbn zeta in X. fold b in X. tauto. }
    destruct CL as [RP MB]. apply replay_ends in RP.
    set (l := e_sel float_int obj_hash the_call (v_keys v) a new). set (bf := e_sel float_int obj_hash the_call (v_keys v) a (e_gets obj the_call r i h0)).
    assert (SE : Proof_Streams.sel float_int obj_hash (v_keys v) a (gets r i P1) = map Z.of_N l) by (apply sel_plain; exact EN).
    assert (SB : Proof_Streams.sel float_int obj_hash (v_keys v) a (gets r i H0) = map Z.of_N bf) by (apply sel_plain; exact E0).
    assert (SA : Proof_Streams.sel float_int obj_hash (v_keys v) a (gets r i H1) = map Z.of_N (bf ++ l)).
    { unfold bf, l, e_sel. rewrite <- filter_app, <- EH. apply sel_plain. exact EA. }
    assert (BG : begins (b ++ map Measure (map Z.of_N l))).
    { pose proof (stream_now float_int obj_hash obj (v_keys v) r i a H1 H0 P1 (e_obs the_call obs) now SP) as X. rewrite NO in X. cbn [map] in X. rewrite !app_nil_r in X. fold b in X. rewrite SE in X.
      rewrite <- X. apply stream_begins. }
    assert (IN : forall k, In k (bf ++ l) -> In k (e_gets obj the_call r i h)).
    { intros k I. rewrite EH. unfold bf, l, e_sel in I. rewrite <- filter_app in I. now apply filter_In in I. }
    destruct (legal_new d DELTA st max_size max_scale LG) as (e & En).
    cbn [Model_ExpExemplarPipeline.m_create]. unfold instr_temporality. rewrite SY, En, SE.
    pose proof (exp_stream t (rand i d st) d st max_size max_scale e b bf l now LC En (RB i d st) RP BG (eq_trans MB SB) (fun k I => KM k (IN k I))) as X.
    assert (NB : bf ++ l <> []) by (intro Z0; apply NE; rewrite SA, Z0; reflexivity).
    assert (T' : t = DELTA \/ t = CUMULATIVE /\ bf ++ l <> [] /\ one_sided (map (fun k => val k) (bf ++ l))).
    { destruct T as [T|[T P]]; [now left|right]. split; [exact T|]. split; [exact NB|]. apply (P a). unfold bf, l, e_sel. rewrite <- filter_app, <- EH. apply e_sel_with. }
    specialize (X T').
    assert (SC : match t with DELTA => l | _ => bf ++ l end = e_sel float_int obj_hash the_call (v_keys v) a cur).
    { unfold cur. destruct t; unfold bf, l, e_sel; rewrite <- ?filter_app, <- ?EH; reflexivity. }
    destruct (snd (m_collect t _ now)) as [o|].
    - right. destruct X as (p & es & -> & L0 & X1 & X2 & X3 & X3' & X4). split.
      + unfold pcur. destruct T as [E|[E _]]; rewrite E in *; [rewrite SE|exact NE]. intro Z0. apply map_eq_nil in Z0. now apply L0.
      + eexists. split; [reflexivity|]. exists (p, es). split; [reflexivity|]. cbn [fst snd]. rewrite SC in X1. auto.
    - left. destruct X as (L0 & E). split; [|reflexivity]. unfold pcur. rewrite E, SE, L0. reflexivity. }
  assert (EX : exists m, In m (gets r i H1 ++ observed i (e_obs the_call obs) now)).
  { apply (in_map (Proof_ExemplarPipeline.number the_call)) in Ik0. rewrite <- EC in Ik0. apply in_map_iff in Ik0 as (m & _ & Im). eauto. }
  destruct (metrics_delivered H1 r (e_obs the_call obs) now (flat_map (e_pcall obj the_call) h') rd i v max_size max_scale ST AS R FA EX) as (out & M1 & M2 & M3).
  pose proof (each_plain float_int obj_hash the_call (v_keys v) reps _ _ EC E1) as EE.
  set (points := snd (vm_collect _ _ _)) in E2.
  assert (SPL : exists pes, points = map MExpPoint pes /\ Forall2 (fun a pe => exp_histogram_of log_floor max_size (map (fun k => val k) (e_sel float_int obj_hash the_call (v_keys v) a cur)) (fst pe) /\ ep_attrs (fst pe) = shown (v_keys v) a /\ ep_time (fst pe) = now
         /\ e_starts float_int obj_hash obj the_call (v_keys v) r i a (match t with DELTA => h0 | _ => [] end) (match t with DELTA => part | _ => h end) (ep_start (fst pe))
         /\ exp_exemplars_are f (shown (v_keys v) a) (Z.min 20 max_size) (no_draws (map the_call (e_sel float_int obj_hash the_call (v_keys v) a new))) (snd pe)) reps pes).
  { assert (FH' : Forall (e_allowed float_int obj_hash obj the_call) h) by (apply Forall_app in F as [X _]; exact X).
    assert (FP : Forall (e_allowed float_int obj_hash obj the_call) part) by (destruct S as (-> & _); apply Forall_app in FH' as [_ X]; exact X).
    assert (STA : forall a st s, first_at float_int obj_hash (v_keys v) a (gets r i H1 ++ observed i (e_obs the_call obs) now) st ->
      s = match t with DELTA => last (collections (stream_ops (Proof_Streams.Q float_int obj_hash (v_keys v) a) false (vops obj r i H0))) st | _ => st end ->
      e_starts float_int obj_hash obj the_call (v_keys v) r i a (match t with DELTA => h0 | _ => [] end) (match t with DELTA => part | _ => h end) s).
    { intros a st s FA1 ->. assert (T2 : t = DELTA \/ t = CUMULATIVE) by tauto. destruct T2 as [-> | ->].
      - apply (starts_call _ _ _ _ h); try assumption. pose proof (delta_start float_int obj_hash obj (v_keys v) r i a H1 H0 P1 _ now st SP FA1) as X. rewrite NO, app_nil_r in X. exact X.
      - right. split; [constructor|]. apply first_call; try assumption. rewrite NO, app_nil_r in FA1. exact FA1. }
    clear - E2 STA. induction E2 as [|a o l1 l2 (st & FA1 & pe & -> & X1 & X2 & X3 & X4 & X5) E2 (pes & -> & IH)]; [exists []; split; [reflexivity|constructor]|].
    exists (pe :: pes). split; [reflexivity|]. constructor; [|exact IH]. split; [exact X1|]. split; [exact X2|]. split; [exact X3|]. split; [exact (STA _ _ _ FA1 X4)|exact X5]. }
  destruct SPL as (pes & EPS & F2). exists out, pes, reps. split.
  { unfold Model_ExpExemplarPipeline.m_output, Model_ExpExemplarPipeline.m_run. rewrite (flat_map_app (e_pcall obj the_call)). exact M1. }
  split; [exact M2|]. split; [|split; [exact EE|]].
  - apply M3; [exact EPS|]. intros ->. inversion F2; subst. destruct EE as (_ & _ & C). destruct (C k0 Ik0) as (a & [] & _).
  - eapply Forall2_weaken; [|exact F2]. intros a pe (X1 & X2 & X3 & X4 & X5). eexists. eexists. split; [apply e_sel_with|]. split; [apply e_sel_with|]. auto.
Qed.

(** ** The request *)
Variable dbl : Z -> Z.
Variable infty : bool -> Z.
Variable data0 : shape -> temporality -> bool -> list (mpoint D0) -> mdata.
Variable to_float : Z -> option Z.
Notation request := (m_otlp_request float_int the_scope dbl infty data0 to_float).
Notation metric_of := (m_otlp_metric dbl infty data0).
Lemma m_scopes_different (out : dict Scope (list (@metric (mpoint D0)))) :
  (forall s s', same_scope_key float_int (Some (the_scope s)) (Some (the_scope s')) = true -> s = s') -> NoDup (keys out) ->
  all_different (fun a b => same_scope_key float_int (Some a) (Some b)) (map fst (map (fun e => (the_scope (fst e), map metric_of (snd e))) out)).
Proof.
  intros I N. rewrite map_map. cbn [fst]. unfold all_different. induction out as [|[s ms] out IH]; [constructor|]. cbn [map fst] in *.
  inversion N as [|? ? N1 N2]; subst. constructor; [|now apply IH]. apply Forall_forall. intros s' E. apply in_map_iff in E as ([s0 m0] & <- & E). cbn [fst].
  destruct (same_scope_key _ _ _) eqn:K; [|reflexivity]. apply I in K. subst s0. exfalso. apply N1. apply in_map_iff. exists (s, m0). auto.
Qed.
Lemma m_in_request (out : dict Scope (list (@metric (mpoint D0)))) res req i (v : @view (xconf G0)) t points :
  (forall s s', same_scope_key float_int (Some (the_scope s)) (Some (the_scope s')) = true -> s = s') -> NoDup (keys out) ->
  m_reports obj scope_of out i v t points -> points <> [] -> request res out = Some req ->
  exists ps, x_metric_in the_scope obj scope_of res i v req (PbExponential ps (temporality_code t))
  /\ Forall2 (fun p q => exp_read to_float (m_otlp_exp dbl infty p) q) points ps.
Proof.
  intros Inj No (L & M & Gs & IM & M1 & M2 & M3 & M4 & M5 & M6) NE Q0.
  apply dget_In in Gs. unfold m_otlp_request in Q0. apply Proof_OtlpFields.encode_metrics_ok in Q0.
  2:{ cbn. repeat constructor. }
  2:{ constructor; [|constructor]. cbn [snd]. now apply m_scopes_different. }
  inversion Q0 as [|? gr ? tl [Rg Sg] Tl]; subst. inversion Tl; subst. cbn [fst snd] in Rg, Sg. clear Q0 Tl.
  assert (X : exists sg, In sg (pr_scopes gr) /\ scope_metrics_read to_float (the_scope (scope_of i), map metric_of L) sg).
  { clear - Sg Gs. remember (map _ out) as l eqn:E. assert (I : In (the_scope (scope_of i), map metric_of L) l).
    { subst l. apply in_map_iff. exists (scope_of i, L). auto. }
    clear E Gs. induction Sg as [|x y l l' R _ IH]; [destruct I|]. destruct I as [->|I].
    - exists y. split; [now left|exact R].
    - destruct (IH I) as (sg & A & B). exists sg. split; [now right|exact B]. }
  destruct X as (sg & Isg & Ssg & Msg). cbn [fst snd] in Ssg, Msg.
  assert (Y : exists m, In m (pg_items sg) /\ metric_read to_float (metric_of M) m).
  { clear - Msg IM. remember (map _ L) as l eqn:E. assert (I : In (metric_of M) l) by (subst l; now apply in_map).
    clear E IM. induction Msg as [|x y l l' R _ IH]; [destruct I|]. destruct I as [->|I].
    - exists y. split; [now left|exact R].
    - destruct (IH I) as (m & A & B). exists m. split; [now right|exact B]. }
  destruct Y as (m & Im & N1 & N2 & N3 & D). cbn [sm_name sm_descr sm_unit sm_data m_otlp_metric or_empty] in N1, N2, N3, D. rewrite M4 in D.
  assert (EX : m_otlp_exps dbl infty (m_points M) = map (m_otlp_exp dbl infty) points).
  { rewrite M6. clear. induction points as [|p ps IH]; [reflexivity|]. cbn. f_equal. exact IH. }
  rewrite EX in D. destruct points as [|p ps]; [congruence|]. cbn [map data_read] in D. destruct D as (qs & Ed & F2).
  exists qs. split.
  - exists gr, sg, m. split; [reflexivity|]. split; [exact Rg|]. split; [exact Isg|]. split; [exact Ssg|]. split; [exact Im|].
    rewrite N1, N2, N3, Ed, M1, M2, M3. repeat (split; [reflexivity|]). reflexivity.
  - change (m_otlp_exp dbl infty p :: map (m_otlp_exp dbl infty) ps) with (map (m_otlp_exp dbl infty) (p :: ps)) in F2. clear - F2.
    remember (p :: ps) as l eqn:E. clear E. revert qs F2. induction l as [|x l IH]; intros qs F2; inversion F2; subst; constructor; auto.
Qed.

Lemma exemplars_sent : forall es qs, Forall2 exemplar_read (map (m_otlp_exemplar dbl) es) qs -> Forall2 (double_exemplar_message dbl) es qs.
Proof.
  induction es as [|e es IH]; intros qs F; inversion F as [|? q ? ? (A & B & C & D) F']; subst; constructor; auto. cbn in A, B, C, D.
  split; [exact A|]. split; [exact B|]. split; [exact C|]. destruct (ex_span_id e), (ex_trace_id e); exact D.
Qed.
Lemma point_sent max_size ks now a l p es q : l <> [] -> exp_histogram_of log_floor max_size l p -> ep_attrs p = shown ks a -> ep_time p = now ->
  exp_read to_float (m_otlp_exp dbl infty (p, es)) q ->
  exp_message_is log_floor dbl max_size ks now a (ep_start p) l q /\ Forall2 (double_exemplar_message dbl) es (px_exemplars q).
Proof.
  intros NE X1 X2 X3 RD. split; [|apply exemplars_sent; apply RD].
  destruct q as [q1 q2 q3 q4 q5 q6 q7 q8 q9 q10 q11 q12 q13].
  assert (G : exp_message_is log_floor dbl max_size ks now a (ep_start p) l (PbExp q1 q2 q3 q4 q5 q6 q7 q8 q9 q10 [] q12 q13)).
  { eapply (message_of float_int log_floor default0 is_default0 create0 aggregate0 shape0 dbl infty to_float); [exact NE|split; [exact X1|split; [exact X2|split; [reflexivity|exact X3]]]|].
    destruct RD as (R1 & R2 & R3 & R4 & R5 & R6 & R7 & R8 & R9 & R10 & _ & R11 & R12). repeat (split; [assumption|]). split; [constructor|]. split; assumption. }
  exact G.
Qed.
Lemma with_some ks a cur l : e_with float_int obj_hash the_call ks a cur l -> (exists k, In k cur /\ same_stream float_int obj_hash ks a (mc_attrs (the_call k))) -> l <> [].
Proof.
  intros W. induction W as [|k ms l S W IH|k ms l S W IH]; intros (k' & I & S'); [destruct I|discriminate|]. destruct I as [->|I]; [contradiction|]. apply IH. eauto.
Qed.
Theorem exp_requested h r obs now h' rd i v max_size max_scale h0 part :
  let t := rd_temporality rd (in_kind (obj i)) in
  let new := e_gets obj the_call r i part in
  let cur := match t with DELTA => new | _ => e_gets obj the_call r i h end in
  log_consistent log_floor ->
  (forall i d s n b, 0 < b -> 0 <= rand i d s n b < b) ->
  seen_through i v -> asked rd i v max_size max_scale -> legal max_size max_scale ->
  nth_error readers r = Some rd -> synchronous (in_kind (obj i)) = true ->
  Forall (e_allowed float_int obj_hash obj the_call) (h ++ ECollect r obs false now :: h') ->
  e_since r h h0 part ->
  (forall k, In k (e_gets obj the_call r i h) -> measurable (val k) /\ ~ left_span (the_call k)) ->
  (t = DELTA \/ t = CUMULATIVE /\ forall a l, e_with float_int obj_hash the_call (v_keys v) a (e_gets obj the_call r i h) l -> one_sided (map (fun k => val k) l)) ->
  (exists k, In k cur) ->
  (forall s s', same_scope_key float_int (Some (the_scope s)) (Some (the_scope s')) = true -> s = s') ->
  exists out, m_output h (h ++ ECollect r obs false now :: h') = Some (CMetrics r out)
  /\ forall res req, request res out = Some req ->
     exists ps reps, x_metric_in the_scope obj scope_of res i v req (PbExponential ps (temporality_code t))
     /\ e_each float_int obj_hash the_call (v_keys v) cur reps
     /\ Forall2 (fun a q => exists l new_l start es, e_with float_int obj_hash the_call (v_keys v) a cur l /\ e_with float_int obj_hash the_call (v_keys v) a new new_l
          /\ exp_message_is log_floor dbl max_size (v_keys v) now a start (map (fun k => val k) l) q
          /\ e_starts float_int obj_hash obj the_call (v_keys v) r i a (match t with DELTA => h0 | _ => [] end) (match t with DELTA => part | _ => h end) start
          /\ exp_exemplars_are f (shown (v_keys v) a) (Z.min 20 max_size) (no_draws (map the_call new_l)) es
          /\ Forall2 (double_exemplar_message dbl) es (px_exemplars q)) reps ps.
Proof.
  intros t new cur LC RB ST AS LG R SY F S KM T IC Inj.
  destruct (exp_delivered h r obs now h' rd i v max_size max_scale h0 part LC RB ST AS LG R SY F S KM T IC) as (out & points & reps & Eo & No & Rp & EE & F2).
  exists out. split; [exact Eo|]. intros res req Q0. fold t in Rp. fold t in EE, F2.
  assert (NE : points <> []).
  { intros ->. inversion F2; subst. destruct IC as (k & I). destruct EE as (_ & _ & C). destruct (C k I) as (a & [] & _). }
  destruct (m_in_request out res req i v t points Inj No Rp NE Q0) as (ps & X1 & X2). exists ps, reps. split; [exact X1|]. split; [exact EE|].
  destruct EE as (_ & NA & _). change (match t with DELTA => e_gets obj the_call r i part | _ => e_gets obj the_call r i h end) with cur in *.
  clear Eo No Rp Q0 X1 NE IC T KM. revert ps X2. induction F2 as [|a pe l1 l2 (l & nl & W & Wn & Y1 & Y2 & Y3 & Y3' & Y4) _ IH]; intros ps X2; inversion X2 as [|? q ? qs RD X2']; subst; constructor.
  - destruct pe as [p es]. cbn [fst snd] in *.
    destruct (point_sent max_size (v_keys v) (ep_time p) a (map (fun k => val k) l) p es q) as [Z1 Z2]; try assumption; try reflexivity.
    { intro E. apply map_eq_nil in E. revert E. eapply with_some; [exact W|]. apply NA. now left. }
    exists l, nl, (ep_start p), es. auto 10.
  - apply IH; [|assumption]. intros b Ib. apply NA. now right.
Qed.
End Storage.
