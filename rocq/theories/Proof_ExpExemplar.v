(** Proofs about the exemplars of exponential histograms. *)
From Verif Require Import Proof_Exemplar Proof_Sampled Proof_ExemplarPipeline Spec_ExpExemplar.
From Verif Require Import Model_Exemplar Spec_Exemplar.
From Coq Require Import Lia.
Local Open Scope Z_scope.

Section One.
Variable log_floor : Z -> Z -> Z.
Variable f : efilter.
Variable t : temporality.
Notation step := (xe_step log_floor f t).
Notation run := (xe_run log_floor f t).
Notation aggregate := (eh_aggregate log_floor).

Lemma aggregate_keeps h v : let h' := fst (aggregate h v) in
  eh_attrs h' = eh_attrs h /\ eh_instr h' = eh_instr h /\ eh_max_size h' = eh_max_size h /\ ei_pos (eh_cur h') <> None /\ ei_neg (eh_cur h') <> None.
Proof.
  unfold eh_aggregate. destruct (v =? 0); [cbn; repeat split; discriminate|].
  repeat match goal with |- context[match ?x with _ => _ end] => destruct x; cbn [fst eh_attrs eh_instr eh_max_size eh_cur ei_pos ei_neg] end;
    repeat split; discriminate.
Qed.
Lemma collect_keeps h now : let h' := fst (eh_collect h t now) in
  eh_attrs h' = eh_attrs h /\ eh_instr h' = eh_instr h /\ eh_max_size h' = eh_max_size h /\ ei_pos (eh_cur h') = None /\ ei_neg (eh_cur h') = None.
Proof.
  unfold eh_collect. destruct (is_delta (eh_instr h)); [|cbn; auto 10]. destruct (is_delta t); [cbn; auto 10|].
  repeat match goal with |- context[let (_, _) := ?x in _] => destruct x end.
  repeat match goal with |- context[if ?x then _ else _] => destruct x end;
  repeat match goal with |- context[let (_, _) := ?x in _] => destruct x end;
  repeat match goal with |- context[if ?x then _ else _] => destruct x end; cbn; auto 10.
Qed.
Lemma collect_none h now : is_delta (eh_instr h) = true -> snd (eh_collect h t now) = ENone ->
  is_delta t = true /\ ei_pos (eh_cur h) = None /\ ei_neg (eh_cur h) = None.
Proof.
  intros I. unfold eh_collect. rewrite I. destruct (is_delta t).
  - cbn. destruct (ei_pos (eh_cur h)), (ei_neg (eh_cur h)); intros [=]; auto.
  - repeat match goal with |- context[let (_, _) := ?x in _] => destruct x end.
    repeat match goal with |- context[if ?x then _ else _] => destruct x end;
    repeat match goal with |- context[let (_, _) := ?x in _] => destruct x end;
    repeat match goal with |- context[if ?x then _ else _] => destruct x end; cbn; intros [=].
Qed.

(** The reservoir's history *)
Definition r_ops (d : mattrs) (o : xop) : list rop :=
  match o with
  | XMeasure c draw => if mc_value c =? 0 then [] else [Offer (measurement_of c) draw]
  | XCollect _ => [RCollect d]
  end.
Definition es_of (o : option (epoint * list exemplar)) : list exemplar := match o with Some (_, es) => es | None => [] end.
Lemma value_is c : me_value (measurement_of c) = mc_value c.
Proof. reflexivity. Qed.
Lemma step_ok s o : xe_ok (step s o) = true -> xe_ok s = true.
Proof.
  destruct o as [c d|now]; cbn [xe_step].
  - destruct (aggregate _ _) as [h ok]. cbn. intro E. now apply andb_prop in E as [E _].
  - destruct (eh_collect _ _ _) as [h [|p|]]; [|destruct (rcollect _ _)|]; cbn; congruence.
Qed.
Lemma run_ok l : forall s, xe_ok (run s l) = true -> xe_ok s = true.
Proof. induction l as [|o l IH]; intros s E; [exact E|]. apply step_ok with o. apply IH. exact E. Qed.
(** Nothing measured: a clean reservoir *)
Definition settled_res (s : xestate) : Prop := ei_pos (eh_cur (xe_hist s)) = None -> clean (xe_res s).
Lemma run_is l d : forall s acc, xe_ok (run s l) = true -> eh_attrs (xe_hist s) = d -> is_delta (eh_instr (xe_hist s)) = true -> settled_res s ->
  exists out, xe_out (run s l) = xe_out s ++ out
  /\ snd (fold_left (fstep f) (flat_map (r_ops d) l) (xe_res s, acc)) = acc ++ map es_of out.
Proof.
  induction l as [|o l IH]; intros s acc OK A I S; [exists []; cbn; now rewrite !app_nil_r|].
  cbn [xe_run fold_left flat_map] in *. fold (run (step s o) l) in *. rewrite fold_left_app.
  pose proof (run_ok _ _ OK) as OK1. destruct o as [c draw|now]; cbn [xe_step r_ops] in *.
  - pose proof (aggregate_keeps (xe_hist s) (mc_value c)) as K. rewrite value_is in *. destruct (aggregate (xe_hist s) (mc_value c)) as [h ok]. cbn [fst xe_ok] in *.
    apply andb_prop in OK1 as [_ OK1]. subst ok. cbn [negb] in *. rewrite orb_false_r in *. destruct K as (K1 & K2 & _ & K3 & _).
    destruct (mc_value c =? 0).
    + cbn [fold_left]. apply (IH (XE h (xe_res s) _ _) acc OK); cbn; [congruence|congruence|]. intro N. contradiction.
    + cbn [fold_left fstep fst snd]. apply (IH (XE h (sample_exemplar f (measurement_of c) draw (xe_res s)) _ _) acc OK); cbn; [congruence|congruence|]. intro N. contradiction.
  - pose proof (collect_keeps (xe_hist s) now) as K. pose proof (collect_none (xe_hist s) now I) as CN. destruct (eh_collect (xe_hist s) t now) as [h r]. cbn [fst snd] in *.
    destruct K as (K1 & K2 & _ & K3 & _). destruct r as [|p|].
    + destruct (CN eq_refl) as (_ & CP & _). specialize (S CP). cbn [fold_left fstep fst snd]. rewrite (S d).
      destruct (IH (XE h (xe_res s) (xe_ok s) (xe_out s ++ [None])) (acc ++ [[]]) OK) as (out & E1 & E2); cbn; [congruence|congruence|intro; exact S|].
      exists (None :: out). rewrite E1. cbn [xe_out xe_res] in *. split; [now rewrite <- app_assoc|]. rewrite E2. cbn [map es_of]. now rewrite <- app_assoc.
    + rewrite A in *. pose proof (collected_clean d (xe_res s)) as CC. cbn [fold_left fstep fst snd]. destruct (rcollect d (xe_res s)) as [res es]. cbn [fst] in CC.
      destruct (IH (XE h res (xe_ok s) (xe_out s ++ [Some (p, es)])) (acc ++ [es]) OK) as (out & E1 & E2); cbn; [congruence|congruence|intro; exact CC|].
      exists (Some (p, es) :: out). rewrite E1. cbn [xe_out xe_res] in *. split; [now rewrite <- app_assoc|]. rewrite E2. cbn [map es_of]. now rewrite <- app_assoc.
    + discriminate.
Qed.
Lemma intervals_are d h : forall since since', since' = map (fun cd => (measurement_of (fst cd), snd cd)) (filter (fun cd => negb (is_zero (fst cd))) since) ->
  intervals since' (flat_map (r_ops d) h)
  = map (fun since => (map (fun cd => (measurement_of (fst cd), snd cd)) (filter (fun cd => negb (is_zero (fst cd))) since), d)) (x_intervals since h).
Proof.
  induction h as [|[c dr|now] h IH]; intros since since' ->; [reflexivity| |]; cbn [flat_map r_ops x_intervals].
  - set (X := map _ (filter _ since)). destruct (mc_value c =? 0) eqn:Z0; cbn [app intervals]; apply IH; rewrite filter_app, map_app; cbn [filter fst]; unfold is_zero at 2; rewrite Z0; cbn [negb map].
    + now rewrite app_nil_r.
    + reflexivity.
  - cbn [app intervals map]. f_equal. apply IH. reflexivity.
Qed.
(** A collection without a point had no measurements. *)
Lemma none_empty h : forall s since, xe_ok (run s h) = true -> is_delta (eh_instr (xe_hist s)) = true -> (since <> [] -> ei_pos (eh_cur (xe_hist s)) <> None) ->
  exists out, xe_out (run s h) = xe_out s ++ out /\ Forall2 (fun since o => o = None -> since = [] /\ is_delta t = true) (x_intervals since h) out.
Proof.
  induction h as [|o h IH]; intros s since OK I S; [exists []; rewrite app_nil_r; split; [reflexivity|constructor]|].
  cbn [xe_run fold_left] in *. fold (run (step s o) h) in *. pose proof (run_ok _ _ OK) as OK1. destruct o as [c draw|now]; cbn [xe_step x_intervals] in *.
  - pose proof (aggregate_keeps (xe_hist s) (me_value (measurement_of c))) as K. destruct (aggregate (xe_hist s) _) as [h1 ok]. cbn [fst] in *. destruct K as (_ & K2 & _ & K3 & _).
    apply (IH (XE h1 _ _ _) (since ++ [(c, draw)]) OK); cbn; [congruence|]. intros _. exact K3.
  - pose proof (collect_keeps (xe_hist s) now) as K. pose proof (collect_none (xe_hist s) now I) as CN. destruct (eh_collect (xe_hist s) t now) as [h1 r]. cbn [fst snd] in *.
    destruct K as (_ & K2 & _ & _). destruct r as [|p|]; [|destruct (rcollect _ _) as [res es]|discriminate].
    + destruct (IH (XE h1 (xe_res s) (xe_ok s) (xe_out s ++ [None])) [] OK) as (out & E1 & E2); [cbn; congruence|congruence|].
      exists (None :: out). rewrite E1. cbn [xe_out]. split; [now rewrite <- app_assoc|]. constructor; [|exact E2]. intros _. destruct (CN eq_refl) as (D & P & _). split; [|exact D].
      destruct since; [reflexivity|]. exfalso. apply S; [discriminate|exact P].
    + destruct (IH (XE h1 res (xe_ok s) (xe_out s ++ [Some (p, es)])) [] OK) as (out & E1 & E2); [cbn; congruence|congruence|].
      exists (Some (p, es) :: out). rewrite E1. cbn [xe_out]. split; [now rewrite <- app_assoc|]. constructor; [discriminate|exact E2].
Qed.
(** The histogram itself *)
Lemma plain_run h : forall s e, xe_hist s = er_hist e -> xe_ok s = er_ok e -> map (option_map fst) (xe_out s) = map point_in (er_points e) ->
  let e' := fold_left (estep log_floor t) (map x_plain h) e in
  xe_hist (run s h) = er_hist e' /\ xe_ok (run s h) = er_ok e' /\ map (option_map fst) (xe_out (run s h)) = map point_in (er_points e').
Proof.
  induction h as [|o h IH]; intros s e E1 E2 E3; [auto|]. cbn [map fold_left xe_run]. fold (run (step s o) h). apply IH; clear IH; destruct o as [c d|now]; cbn [xe_step x_plain estep].
  all: rewrite ?value_is, <- ?E1; try (destruct (aggregate (xe_hist s) (mc_value c)) as [h1 ok]); try (destruct (eh_collect (xe_hist s) t now) as [h1 [|p|]]); try (destruct (rcollect _ _) as [res es]);
    cbn [xe_hist xe_ok xe_out er_hist er_ok er_points]; rewrite ?map_app, ?E3, ?E2, ?andb_true_r, ?andb_false_r; reflexivity.
Qed.

Lemma meant_all f' since : (forall c d, In (c, d) since -> ~ left_span c) ->
  filter (fun md => lets_through f' (fst md)) (map (fun cd => (measurement_of (fst cd), snd cd)) (filter (fun cd : mcall * Z => negb (is_zero (fst cd))) since)) = candidates f' since.
Proof.
  intro L. unfold candidates. f_equal. apply map_ext_in. intros [c d] I. apply filter_In in I as [I _]. cbn [fst snd]. f_equal. apply meant_is. exact (L c d I).
Qed.
Theorem exp_exemplars attrs start max_size max_scale h0 h :
  eh_new attrs DELTA start max_size max_scale = Some h0 ->
  er_ok (eh_run log_floor t h0 (map x_plain h)) = true ->
  (forall since, In since (x_intervals [] h) -> draws_ok (candidates f since) /\ forall c d, In (c, d) since -> ~ left_span c) ->
  let out := xe_out (run (xe_new h0) h) in
  map (option_map fst) out = map point_in (er_points (eh_run log_floor t h0 (map x_plain h)))
  /\ Forall2 (fun since o => match o with
        | Some (p, es) => exp_exemplars_are f attrs (Z.min 20 max_size) since es
        | None => since = [] /\ t = DELTA
        end) (x_intervals [] h) out.
Proof.
  intros EN OK L. destruct (plain_run h (xe_new h0) (ER h0 true []) eq_refl eq_refl eq_refl) as (_ & O & P). split; [exact P|].
  unfold eh_run in OK. rewrite <- O in OK.
  assert (HN : eh_attrs h0 = attrs /\ eh_instr h0 = DELTA /\ eh_max_size h0 = max_size /\ 2 <= max_size).
  { unfold eh_new in EN. destruct ((max_size <? 2) || (16384 <? max_size)) eqn:B; [discriminate|]. destruct (new_mapping max_scale); [|discriminate]. injection EN as <-.
    apply orb_false_iff in B as [B _]. apply Z.ltb_ge in B. auto. }
  destruct HN as (A & I & M & M2). set (size := Z.min 20 max_size).
  destruct (run_is h attrs (xe_new h0) [] OK A) as (out & E1 & E2); [cbn; now rewrite I|intros _ d; reflexivity|]. cbn [xe_new xe_out xe_res app] in E1, E2. rewrite M in E2. fold size in E2.
  destruct (none_empty h (xe_new h0) [] OK) as (out' & E1' & E3); [cbn; now rewrite I|congruence|]. cbn [xe_new xe_out app] in E1'. rewrite E1 in *. subst out'.
  set (H := flat_map (r_ops attrs) h) in *.
  assert (IV : intervals [] H = map (fun since => (map (fun cd => (measurement_of (fst cd), snd cd)) (filter (fun cd => negb (is_zero (fst cd))) since), attrs)) (x_intervals [] h))
    by (apply intervals_are; reflexivity).
  assert (DG : forall iv, In iv (intervals [] H) -> draws_ok (filter (fun md => lets_through f (fst md)) (fst iv))).
  { intros iv V. rewrite IV in V. apply in_map_iff in V as (since & <- & V). cbn [fst]. destruct (L since V) as [D LS]. now rewrite meant_all. }
  pose proof (filtered_span (simple_new size) draws_ok f H (simple_span size) DG) as T1.
  pose proof (simple_sound size (filter (passes f) H)) as T2.
  pose proof (intervals_filter f H []) as EF. cbn [filter] in EF.
  assert (DG' : forall iv, In iv (intervals [] (filter (passes f) H)) -> draws_ok (fst iv)).
  { rewrite EF. intros iv V. apply in_map_iff in V as (iv0 & <- & V). cbn [fst]. rewrite (filter_ext _ (fun md => lets_through f (fst md))) by (intro; apply should_sample_iff). exact (DG iv0 V). }
  specialize (T2 DG'). unfold rrun in T2. rewrite <- frun_filter, EF, IV, map_map in T2. unfold frun in T1. rewrite IV in T1. rewrite E2 in T1, T2.
  clear - T1 T2 E3 L M2. remember (x_intervals [] h) as ivs eqn:EI. clear EI. revert out T1 T2 E3.
  induction ivs as [|since ivs IH]; intros out T1 T2 E3; inversion E3 as [|? o ? os N E3']; subst; [constructor|]. cbn [map] in T1, T2.
  inversion T1 as [|? ? ? ? A1 T1']; subst. inversion T2 as [|? ? ? ? A2 T2']; subst. cbn [fst snd] in A1, A2. constructor.
  - destruct (L since (or_introl eq_refl)) as [_ LS].
    destruct o as [[p es]|]; [|destruct (N eq_refl) as [-> D]; split; [reflexivity|destruct t; try discriminate; reflexivity]].
    cbn [es_of] in A1, A2. unfold exp_exemplars_are. cbn zeta.
    assert (X : filter (lets_through f) (map fst (map (fun cd => (measurement_of (fst cd), snd cd)) (filter (fun cd => negb (is_zero (fst cd))) since))) = map fst (candidates f since)).
    { rewrite <- meant_all by exact LS. clear. set (ll := map (fun cd : mcall * Z => (measurement_of (fst cd), snd cd)) _). induction ll as [|[m d] l IH]; [reflexivity|]. cbn [map filter fst]. destruct (lets_through f m); cbn [map fst]; now rewrite IH. }
    rewrite X in A1. split; [exact A1|]. destruct A2 as (B1 & B2 & B3 & _).
    rewrite (filter_ext _ (fun md => lets_through f (fst md))) in B2, B3 by (intro; apply should_sample_iff). rewrite meant_all in B2, B3 by exact LS.
    rewrite map_length. split; [lia|]. split; [exact B2|]. intro NE. apply B3; [|lia]. intro Z0. rewrite Z0 in NE. now apply NE.
  - apply IH; [intros s J; apply L; now right|assumption|assumption|assumption].
Qed.
End One.

Lemma intervals_windows : forall h, map w_since (windows (map x_plain h)) = map amounts (x_intervals [] h).
Proof.
  intro h. unfold windows. assert (G : forall h before since since', since = amounts since' ->
    map w_since (windows_from before since (map x_plain h)) = map amounts (x_intervals since' h)).
  { clear. induction h as [|[c d|now] h IH]; intros b s s' E; [reflexivity| |]; cbn [map x_plain windows_from x_intervals].
    - apply IH. subst s. unfold amounts. rewrite map_app. reflexivity.
    - f_equal; [exact E|]. apply IH. reflexivity. }
  apply G. reflexivity.
Qed.
Lemma Forall2_impl_ {A B} (P Q : A -> B -> Prop) : (forall a b, P a b -> Q a b) -> forall l l', Forall2 P l l' -> Forall2 Q l l'.
Proof. intros H l l' F. induction F; constructor; auto. Qed.
