(** Runs of an exponential histogram use [log_floor] only at the measured values; scales never rise. *)
From Coq Require Import ZArith Lia List Bool.
From Verif Require Import Spec_ExpHist Proof_ExpMapping Proof_ExpHist Proof_ExpCumulative.
Import ListNotations.
Local Open Scope Z_scope.

Lemma scale_change_0 mx lo hi : 0 <= get_scale_change mx lo hi.
Proof.
  unfold get_scale_change. generalize (Z.to_nat (Z.log2 (hi - lo) + 2)). intros f. revert lo hi.
  induction f as [|f IH]; intros lo hi; cbn [scale_change_loop]; [lia|].
  destruct (mx <=? hi - lo); [|lia]. pose proof (IH (Z.shiftr lo 1) (Z.shiftr hi 1)). lia.
Qed.
Lemma new_mapping_eq s m : new_mapping s = Some m -> m = s.
Proof. unfold new_mapping. destruct (s <=? 0), (s <? -10), (20 <? s); congruence. Qed.

Section Ext.
Variables lf lf' : Z -> Z -> Z.
Lemma aggregate_ext h v :
  (forall s, s <= eh_mapping h -> v <> 0 -> map_to_index lf s (Z.abs v) = map_to_index lf' s (Z.abs v)) ->
  eh_aggregate lf h v = eh_aggregate lf' h v.
Proof.
  intros A. unfold eh_aggregate. destruct (Z.eqb_spec v 0) as [->|Nz]; [reflexivity|].
  assert (Ea : (if 0 <? v then v else - v) = Z.abs v) by (destruct (Z.ltb_spec 0 v); lia). rewrite Ea.
  rewrite (A (eh_mapping h)) by (auto; lia).
  set (index := map_to_index lf' (eh_mapping h) (Z.abs v)).
  destruct (0 <? v); cbv beta iota zeta;
  (match goal with |- match ?r with _ => _ end = match ?r' with _ => _ end => change r' with r; destruct r as [[low high]|] end;
    [|reflexivity]);
  (destruct (new_mapping _) as [m|] eqn:Em; [|reflexivity]; apply new_mapping_eq in Em;
   pose proof (scale_change_0 (eh_max_size h) low high); rewrite (A m) by (auto; lia); reflexivity).
Qed.

Definition scales_le (M : Z) (h : ehist) : Prop :=
  eh_mapping h <= M
  /\ (forall s, ei_scale (eh_cur h) = Some s -> s <= Z.max 0 M) /\ (forall s, ei_scale (eh_prev h) = Some s -> s <= Z.max 0 M).
Lemma aggregate_scales M h v : scales_le M h -> scales_le M (fst (eh_aggregate lf h v)).
Proof.
  intros (Hm & Hc & Hp). unfold eh_aggregate. destruct (Z.eqb_spec v 0) as [->|Nz].
  - unfold scales_le. cbn [fst eh_mapping eh_cur eh_prev ei_scale]. split; [exact Hm|]. split; [|exact Hp].
    intros s. destruct (_ =? _); [intros [= <-]; lia|apply Hc].
  - destruct (0 <? v); cbv beta iota zeta;
    (match goal with |- scales_le M (fst match ?r with _ => _ end) => destruct r as [[low high]|] end;
     [destruct (new_mapping _) as [m|] eqn:Em;
      [apply new_mapping_eq in Em; pose proof (scale_change_0 (eh_max_size h) low high)|]|];
     try destruct (add_index _ _ _); unfold scales_le; cbn [fst eh_mapping eh_cur eh_prev ei_scale];
     first [split; [lia|]; split; [intros s [= <-]; lia|exact Hp] | auto]).
Qed.
End Ext.

Definition point_scale_le (M : Z) (r : ecollected) : Prop :=
  match r with EPoint p => forall s, ep_scale p = Some s -> s <= Z.max 0 M | _ => True end.
Lemma collect_scales M h t now : scales_le M h ->
  scales_le M (fst (eh_collect h t now)) /\ point_scale_le M (snd (eh_collect h t now)).
Proof.
  intros (Hm & Hc & Hp). unfold eh_collect. cbv zeta.
  assert (No : forall s, ei_scale ei_empty = Some s -> s <= Z.max 0 M) by (intros s; discriminate).
  destruct (is_delta (eh_instr h)); [destruct (is_delta t)|].
  - cbn [fst snd]. split; [unfold scales_le; cbn; auto|]. destruct (ei_pos _), (ei_neg _); simpl; auto.
  - destruct (pair_up (ei_pos _) _ _ _) as [pos ppos], (pair_up (ei_neg _) _ _ _) as [neg pneg].
    destruct (pair_up (ei_scale _) _ _ _) as [scale pscale] eqn:Es.
    assert (Hs : scale <= Z.max 0 M /\ pscale <= Z.max 0 M).
    { unfold pair_up in Es. destruct (ei_scale (eh_cur h)) as [a|], (ei_scale (eh_prev h)) as [b|]; injection Es as <- <-;
        try specialize (Hc _ eq_refl); try specialize (Hp _ eq_refl); lia. }
    destruct (get_low_high_both ppos _ _ _ _) as [lp hp], (get_low_high_both pneg _ _ _ _) as [ln hn].
    pose proof (scale_change_0 (eh_max_size h) lp hp).
    destruct (merge _ (downscale_by ppos _) _ _ _) as [ppos' ok]. destruct ok; cbn [negb].
    + destruct (merge _ (downscale_by pneg _) _ _ _) as [pneg' ok']. destruct ok'; cbn [negb fst snd];
        unfold scales_le, point_scale_le, point_of; cbn [eh_mapping eh_cur eh_prev ei_scale ep_scale].
      * split; [split; [exact Hm|]; split; [exact No|]|]; intros s [= <-]; lia.
      * split; [|exact I]. split; [exact Hm|]; split; [exact No|]; intros s [= <-]; lia.
    + cbn [fst snd]. unfold scales_le, point_scale_le. cbn [eh_mapping eh_cur eh_prev ei_scale].
      split; [|exact I]. split; [exact Hm|]; split; [exact No|]; intros s [= <-]; lia.
  - cbn [fst snd]. split; [unfold scales_le; cbn; auto|exact I].
Qed.

Section Run.
Variables lf lf' : Z -> Z -> Z.
Variable M : Z.
Lemma run_ext t ops : forall s, scales_le M (er_hist s) ->
  (forall k v, k <= M -> In v (measured ops) -> v <> 0 -> map_to_index lf k (Z.abs v) = map_to_index lf' k (Z.abs v)) ->
  fold_left (estep lf t) ops s = fold_left (estep lf' t) ops s.
Proof.
  induction ops as [|o ops IH]; intros s Hs A; [reflexivity|]. cbn [fold_left].
  assert (E : estep lf t s o = estep lf' t s o).
  { destruct o as [v|now]; [|reflexivity]. unfold estep. rewrite (aggregate_ext lf lf'); [reflexivity|].
    intros k Hk Nz. apply A; [destruct Hs as [Hm _]; lia|now left|exact Nz]. }
  rewrite E. apply IH.
  - unfold estep. destruct o as [v|now].
    + pose proof (aggregate_scales lf' M (er_hist s) v Hs) as H. destruct (eh_aggregate lf' _ v). exact H.
    + pose proof (proj1 (collect_scales M (er_hist s) t now Hs)) as H. destruct (eh_collect _ t now). exact H.
  - intros k v Hk Hv. apply A; [exact Hk|]. change (measured (o :: ops)) with ((match o with Measure v => [v] | Collect _ => [] end) ++ measured ops).
    apply in_or_app. now right.
Qed.
Lemma run_scales t ops : forall s, scales_le M (er_hist s) -> Forall (point_scale_le M) (er_points s) ->
  Forall (point_scale_le M) (er_points (fold_left (estep lf t) ops s)).
Proof.
  induction ops as [|o ops IH]; intros s Hs Hp; [exact Hp|]. cbn [fold_left]. destruct o as [v|now].
  - apply IH; unfold estep; pose proof (aggregate_scales lf M (er_hist s) v Hs) as H; destruct (eh_aggregate lf _ v); assumption.
  - destruct (collect_scales M (er_hist s) t now Hs) as [H1 H2].
    apply IH; unfold estep; destruct (eh_collect _ t now); cbn [er_hist er_points fst snd] in *; [exact H1|].
    apply Forall_app. split; [exact Hp|constructor; [exact H2|constructor]].
Qed.
End Run.
Lemma new_scales attrs i start mx ms h : eh_new attrs i start mx ms = Some h -> scales_le ms h.
Proof.
  unfold eh_new. destruct (_ || _); [discriminate|]. destruct (new_mapping ms) eqn:E; [|discriminate].
  apply new_mapping_eq in E. subst. intros [= <-]. unfold scales_le. cbn. split; [lia|]. split; discriminate.
Qed.

(** A logarithm that is consistent at the measured values may be replaced by one that is consistent everywhere. *)
Definition consistent_at (lf : Z -> Z -> Z) (n : Z) : Prop :=
  forall s, 1 <= s <= 20 -> map_to_index lf (s - 1) n = Z.shiftr (map_to_index lf s n) 1.
Definition good (lf : Z -> Z -> Z) (M : Z) (l : list Z) : Prop :=
  M <= 0 \/ forall v, In v l -> v <> 0 -> consistent_at lf (Z.abs v).
Definition agree (lf lf' : Z -> Z -> Z) (M : Z) (l : list Z) : Prop :=
  forall s v, s <= Z.max 0 M -> In v l -> v <> 0 -> map_to_index lf s (Z.abs v) = map_to_index lf' s (Z.abs v).
Lemma map_same lf lf' s n : (forall k, lf k n = lf' k n) -> map_to_index lf s n = map_to_index lf' s n.
Proof. intros H. unfold map_to_index, log_index. now rewrite H. Qed.
Lemma replace_log lf M l : good lf M l -> exists lf', log_consistent lf' /\ agree lf lf' M l.
Proof.
  intros [H|H].
  - exists exact_log_floor. split; [exact exact_consistent|]. intros s v Hs _ _. unfold map_to_index.
    destruct (Z.leb_spec s 0); [reflexivity|lia].
  - set (mine n := existsb (Z.eqb n) (map Z.abs l)).
    exists (fun s n => if mine n then lf s n else exact_log_floor s n). split.
    + intros s n Hs D. destruct (mine n) eqn:E.
      * rewrite !(map_same (fun s n => if mine n then lf s n else exact_log_floor s n) lf) by (intros k; now rewrite E).
        unfold mine in E. apply existsb_exists in E. destruct E as (x & Hx & E). apply Z.eqb_eq in E. subst x.
        apply in_map_iff in Hx. destruct Hx as (v & <- & Hv). apply H; [exact Hv| |exact Hs].
        pose proof (double_bounds _ D). lia.
      * rewrite !(map_same (fun s n => if mine n then lf s n else exact_log_floor s n) exact_log_floor) by (intros k; now rewrite E).
        apply exact_consistent; assumption.
    + intros s v Hs Hv Nz. apply map_same. intros k.
      replace (mine (Z.abs v)) with true; [reflexivity|]. symmetry. apply existsb_exists. exists (Z.abs v).
      split; [now apply in_map|apply Z.eqb_refl].
Qed.
Lemma agree_incl lf lf' M l l' : incl l l' -> agree lf lf' M l' -> agree lf lf' M l.
Proof. intros I A s v Hs Hv. apply A; auto. Qed.
Lemma count_in_ext (f g : Z -> bool) l : (forall v, In v l -> f v = g v) -> count_in f l = count_in g l.
Proof. intros H. unfold count_in. f_equal. f_equal. apply filter_ext_in. exact H. Qed.
Lemma shows_ext f g mx l o c : (forall v, In v l -> f v = g v) -> shows f mx l o c -> shows g mx l o c.
Proof.
  intros H (S1 & S2 & S3). split; [exact S1|]. split.
  - intros v Hv. rewrite <- H by exact Hv. now apply S2.
  - intros j Hj. rewrite (S3 j Hj). apply count_in_ext. intros v Hv. now rewrite H.
Qed.
Lemma positives_abs l v : In v (positives l) -> exists x, In x l /\ x <> 0 /\ v = Z.abs x.
Proof. unfold positives. rewrite filter_In. intros [H E]. apply Z.ltb_lt in E. exists v. repeat split; auto; lia. Qed.
Lemma negatives_abs l v : In v (negatives l) -> exists x, In x l /\ x <> 0 /\ v = Z.abs x.
Proof.
  unfold negatives. rewrite in_map_iff. intros (x & <- & H). apply filter_In in H. destruct H as [H E]. apply Z.ltb_lt in E.
  exists x. repeat split; auto; lia.
Qed.
Lemma agree_pos lf lf' M l s v : agree lf lf' M l -> s <= Z.max 0 M -> In v (positives l) \/ In v (negatives l) ->
  map_to_index lf s v = map_to_index lf' s v.
Proof.
  intros A Hs H. assert (exists x, In x l /\ x <> 0 /\ v = Z.abs x) as (x & Hx & Nz & ->)
    by (destruct H; [now apply positives_abs|now apply negatives_abs]). now apply A.
Qed.
Lemma hist_ext lf lf' M mx l p : agree lf lf' M l -> point_scale_le M (EPoint p) ->
  exp_histogram_of lf' mx l p -> exp_histogram_of lf mx l p.
Proof.
  intros A P (H1 & H2 & H3 & H4 & H5 & s & Es & Hs & S1 & S2). specialize (P s Es).
  repeat (split; [assumption|]). exists s. split; [exact Es|]. split; [exact Hs|].
  split; (eapply shows_ext; [|eassumption]); intros v Hv; symmetry; eapply agree_pos; eauto.
Qed.
Lemma window_incl h : forall b s w, In w (windows_from b s h) -> incl (so_far w) (measured b ++ s ++ measured h).
Proof.
  induction h as [|[v|t] h IH]; intros b s w H; cbn [windows_from] in H; [contradiction| |].
  - intros x Hx. specialize (IH _ _ _ H x Hx). rewrite <- app_assoc in IH. exact IH.
  - destruct H as [<-|H].
    + intros x Hx. unfold so_far in Hx. cbn [w_before w_since] in Hx. apply in_app_or in Hx. apply in_or_app. destruct Hx; [auto|].
      right. apply in_or_app. auto.
    + intros x Hx. specialize (IH _ _ _ H x Hx). rewrite Proof_Metrics.measured_window in IH. cbn [app] in IH.
      apply in_app_or in IH. destruct IH as [Hx'|Hx'].
      * apply in_app_or in Hx'. apply in_or_app. destruct Hx' as [|]; [auto|]. right. apply in_or_app. auto.
      * apply in_or_app. right. apply in_or_app. right. exact Hx'.
Qed.
Lemma windows_incl ops w : In w (windows ops) -> incl (so_far w) (measured ops).
Proof. intros H. exact (window_incl ops [] [] w H). Qed.
Lemma Forall2_imp2 {X Y} (P Q : X -> Y -> Prop) (R : X -> Prop) (S : Y -> Prop) l l' :
  (forall x y, R x -> S y -> P x y -> Q x y) -> (forall x, In x l -> R x) -> Forall S l' -> Forall2 P l l' -> Forall2 Q l l'.
Proof.
  intros H HR HS F. induction F as [|x y l l' Hxy F IH]; [constructor|]. inversion HS; subst. constructor.
  - apply H; auto. apply HR. now left.
  - apply IH; auto. intros z Hz. apply HR. now right.
Qed.

Section Transfer.
Variables (lf : Z -> Z -> Z) (attrs : mattrs) (start mx M : Z) (h0 : ehist) (ops : list mop).
Hypothesis New : eh_new attrs DELTA start mx M = Some h0.
Hypothesis Meas : Forall measurable (measured ops).
Hypothesis Good : good lf M (measured ops).
Lemma transfer t : exists lf', log_consistent lf' /\ agree lf lf' M (measured ops) /\ eh_run lf t h0 ops = eh_run lf' t h0 ops
  /\ Forall (point_scale_le M) (er_points (eh_run lf t h0 ops)).
Proof.
  destruct (replace_log _ _ _ Good) as (lf' & C & A). exists lf'. split; [exact C|]. split; [exact A|].
  pose proof (new_scales _ _ _ _ _ _ New) as N. split.
  - unfold eh_run. apply (run_ext lf lf' M); [exact N|]. intros k v Hk. apply A. lia.
  - unfold eh_run. apply (run_scales lf M); [exact N|constructor].
Qed.
Lemma delta_on :
  er_ok (eh_run lf DELTA h0 ops) = true
  /\ Forall2 (fun w r => match w_since w with
                         | [] => r = ENone
                         | _ => exists p, r = EPoint p /\ exp_histogram_of lf mx (w_since w) p
                                /\ ep_attrs p = attrs /\ ep_start p = previous_time start w /\ ep_time p = w_now w
                         end)
       (windows ops) (er_points (eh_run lf DELTA h0 ops)).
Proof.
  destruct (transfer DELTA) as (lf' & C & A & E & P). rewrite E in *.
  destruct (delta_run lf' C attrs start mx M h0 ops New Meas) as [O F]. split; [exact O|].
  eapply Forall2_imp2 with (R := fun w => incl (so_far w) (measured ops)); [|exact (windows_incl ops)|exact P|exact F].
  intros w r I S H. unfold delta_point in H. assert (Iw : incl (w_since w) (measured ops)).
  { intros x Hx. apply I. unfold so_far. apply in_or_app. now right. }
  destruct (w_since w); [exact H|]. destruct H as (p & -> & H & Hr). exists p. split; [reflexivity|]. split; [|exact Hr].
  eapply hist_ext; [|exact S|exact H]. eapply agree_incl; eauto.
Qed.
Lemma cumulative_on :
  er_ok (eh_run lf CUMULATIVE h0 ops) = true ->
  Forall2 (fun w r => exists p, r = EPoint p /\ exp_histogram_of lf mx (so_far w) p
                      /\ ep_attrs p = attrs /\ ep_start p = start /\ ep_time p = w_now w)
    (windows ops) (er_points (eh_run lf CUMULATIVE h0 ops)).
Proof.
  destruct (transfer CUMULATIVE) as (lf' & C & A & E & P). rewrite E in *. intros O.
  pose proof (proj2 (cumulative_run lf' C attrs start mx M h0 ops New Meas) O) as F.
  eapply Forall2_imp2 with (R := fun w => incl (so_far w) (measured ops)); [|exact (windows_incl ops)|exact P|exact F].
  intros w r I S (p & -> & H & Hr). exists p. split; [reflexivity|]. split; [|exact Hr].
  eapply hist_ext; [|exact S|exact H]. eapply agree_incl; eauto.
Qed.
Lemma never_raises_on : Forall settled (windows ops) -> er_ok (eh_run lf CUMULATIVE h0 ops) = true.
Proof.
  destruct (transfer CUMULATIVE) as (lf' & C & A & E & P). rewrite E in *.
  exact (proj1 (cumulative_run lf' C attrs start mx M h0 ops New Meas)).
Qed.
End Transfer.
Lemma best_on lf attrs start mx M h0 l now p :
  eh_new attrs DELTA start mx M = Some h0 -> Forall measurable l -> good lf M l ->
  er_points (eh_run lf DELTA h0 (map Measure l ++ [Collect now])) = [EPoint p] -> (exists v, In v l /\ v <> 0) ->
  forall scale s, ep_scale p = Some scale -> scale < s <= M ->
  ~ (within mx (map (map_to_index lf s) (positives l)) /\ within mx (map (map_to_index lf s) (negatives l))).
Proof.
  intros N Me G Ep Ex scale s Es Hs.
  assert (Em : measured (map Measure l ++ [Collect now]) = l).
  { rewrite Proof_Metrics.measured_app, Proof_Metrics.measured_map. cbn. apply app_nil_r. }
  destruct (transfer lf attrs start mx M h0 (map Measure l ++ [Collect now]) N ltac:(rewrite Em; exact G) DELTA) as (lf' & C & A & E & P).
  rewrite Em in A. rewrite E in Ep.
  pose proof (best_scale lf' C attrs start mx M h0 l now p N Me Ep Ex scale s Es Hs) as B. intros [W1 W2]. apply B.
  rewrite (map_ext_in (map_to_index lf s) (map_to_index lf' s)) in W1 by (intros v Hv; eapply agree_pos; eauto; lia).
  rewrite (map_ext_in (map_to_index lf s) (map_to_index lf' s)) in W2 by (intros v Hv; eapply agree_pos; eauto; lia).
  now split.
Qed.
Lemma scale_bound lf attrs start mx M h0 t ops p s :
  eh_new attrs DELTA start mx M = Some h0 -> In (EPoint p) (er_points (eh_run lf t h0 ops)) -> ep_scale p = Some s -> s <= Z.max 0 M.
Proof.
  intros N H. pose proof (new_scales _ _ _ _ _ _ N) as Sc.
  pose proof (run_scales lf M t ops (ER h0 true []) Sc (Forall_nil _)) as F. rewrite Forall_forall in F. exact (F _ H s).
Qed.
