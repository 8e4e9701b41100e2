(** C140: the exemplars of exponential histograms. *)
From Verif Require Import Proof_ExpExemplar Props_ExpHist Spec_ExpExemplar.
From Verif Require Import Model_Exemplar Spec_Exemplar.
From Coq Require Import Lia.
Local Open Scope Z_scope.

(** For every history of measurements and collections of an exponential histogram in which no call raised: the points are those of C44
    and C45, and each has exemplars of different measurements since the collection before, which the filter lets through and which are
    not zero: as many as there are if they are fewer than there is room for, else the room or one less (and at least one).  A collection returns no point only if nothing was
    measured.
    Missing: zeros (C140_zero_refuted); empty contexts given inside of a span; reservoirs of the user. *)
Theorem C140_exemplars_partial : forall log_floor f t attrs start max_size max_scale h0 h,
  eh_new attrs DELTA start max_size max_scale = Some h0 ->
  er_ok (eh_run log_floor t h0 (map x_plain h)) = true ->
  (forall since, In since (x_intervals [] h) -> draws_ok (candidates f since) /\ forall c d, In (c, d) since -> ~ left_span c) ->
  let out := xe_out (xe_run log_floor f t (xe_new h0) h) in
  map (option_map fst) out = map point_in (er_points (eh_run log_floor t h0 (map x_plain h)))
  /\ Forall2 (fun since o => match o with
        | Some (p, es) => exp_exemplars_are f attrs (Z.min 20 max_size) since es
        | None => since = [] /\ t = DELTA
        end) (x_intervals [] h) out.
Proof. intros. eapply exp_exemplars; eassumption. Qed.
Print Assumptions C140_exemplars_partial.

(** Apart from the exemplars, the points and whether calls raise do not depend on the filter, the draws, the contexts or the attributes that
    were filtered out: for every two histories with the same amounts and times of collections, also those in which calls raise. *)
Theorem C140_points : forall log_floor f1 f2 t h0 h1 h2,
  map x_plain h1 = map x_plain h2 ->
  let s1 := xe_run log_floor f1 t (xe_new h0) h1 in let s2 := xe_run log_floor f2 t (xe_new h0) h2 in
  map (option_map fst) (xe_out s1) = map (option_map fst) (xe_out s2) /\ xe_ok s1 = xe_ok s2.
Proof.
  intros lf f1 f2 t h0 h1 h2 E. cbn zeta.
  destruct (plain_run lf f1 t h1 (xe_new h0) (ER h0 true []) eq_refl eq_refl eq_refl) as (_ & A1 & A2).
  destruct (plain_run lf f2 t h2 (xe_new h0) (ER h0 true []) eq_refl eq_refl eq_refl) as (_ & B1 & B2).
  rewrite E in A1, A2. split; congruence.
Qed.
Print Assumptions C140_points.

(** With delta temporality no call raises, whatever is measured: each collection returns the histogram of what was measured since the one
    before, with exemplars of it.  Missing: as above. *)
Theorem C140_delta_partial : forall log_floor f attrs start max_size max_scale h0 h,
  log_consistent log_floor ->
  eh_new attrs DELTA start max_size max_scale = Some h0 ->
  Forall measurable (measured (map x_plain h)) ->
  (forall since, In since (x_intervals [] h) -> draws_ok (candidates f since) /\ forall c d, In (c, d) since -> ~ left_span c) ->
  Forall2 (fun since o => match o with
        | Some (p, es) => since <> [] /\ exp_histogram_of log_floor max_size (amounts since) p /\ ep_attrs p = attrs
                          /\ exp_exemplars_are f attrs (Z.min 20 max_size) since es
        | None => since = []
        end) (x_intervals [] h) (xe_out (xe_run log_floor f DELTA (xe_new h0) h)).
Proof.
  intros lf f attrs start mx ms h0 h LC EN M L.
  destruct (C44_delta lf attrs start mx ms h0 (map x_plain h) LC EN M) as [OK W].
  destruct (exp_exemplars lf f DELTA attrs start mx ms h0 h EN OK L) as [P X].
  pose proof (intervals_windows h) as WI.
  set (out := xe_out _) in *. set (pts := er_points _) in *. clearbody out pts. clear - WI W P X.
  revert pts out WI W P X. generalize (windows (map x_plain h)) as ws. intro ws. remember (x_intervals [] h) as ivs eqn:EI. clear EI. revert ws.
  induction ivs as [|since ivs IH]; intros ws pts out WI W P X; inversion X as [|? o ? os A X']; subst; [constructor|].
  destruct ws as [|w ws]; [discriminate|]. cbn [map] in WI. injection WI as WL WI. inversion W as [|? r ? rs B W']; subst. cbn [map] in P. injection P as P1 P2.
  constructor; [|eapply IH; eassumption]. destruct o as [[p es]|]; [|now destruct A]. cbn [option_map fst] in P1.
  destruct (w_since w) as [|z l] eqn:E.
  - subst r. discriminate.
  - destruct B as (q & -> & H & HA & _). cbn in P1. injection P1 as <-. split; [destruct since; discriminate|]. rewrite WL in H. auto.
Qed.
Print Assumptions C140_delta_partial.

(** With cumulative temporality each collection returns the histogram of all measurements so far, with exemplars of those since the collection
    before, if no interval after the first has the first positive or the first negative measurement.
    Missing: the other histories, in which collections can raise (C45_never_raises_refuted); otherwise as above. *)
Theorem C140_cumulative_partial : forall log_floor f attrs start max_size max_scale h0 h,
  log_consistent log_floor ->
  eh_new attrs DELTA start max_size max_scale = Some h0 ->
  Forall measurable (measured (map x_plain h)) -> Forall settled (windows (map x_plain h)) ->
  (forall since, In since (x_intervals [] h) -> draws_ok (candidates f since) /\ forall c d, In (c, d) since -> ~ left_span c) ->
  let out := xe_out (xe_run log_floor f CUMULATIVE (xe_new h0) h) in
  Forall2 (fun w o => exists p es, o = Some (p, es) /\ exp_histogram_of log_floor max_size (so_far w) p /\ ep_attrs p = attrs
                                   /\ ep_start p = start /\ ep_time p = w_now w) (windows (map x_plain h)) out
  /\ Forall2 (fun since o => exists p es, o = Some (p, es) /\ exp_exemplars_are f attrs (Z.min 20 max_size) since es) (x_intervals [] h) out.
Proof.
  intros lf f attrs start mx ms h0 h LC EN M SE L.
  pose proof (C45_never_raises_partial lf attrs start mx ms h0 (map x_plain h) LC EN M SE) as OK.
  pose proof (C45_cumulative_partial lf attrs start mx ms h0 (map x_plain h) LC EN M OK) as W.
  destruct (exp_exemplars lf f CUMULATIVE attrs start mx ms h0 h EN OK L) as [P X]. cbn zeta.
  set (out := xe_out _) in *. set (pts := er_points _) in *. clearbody out pts. clear - W P X. split.
  - revert out P X. generalize (x_intervals [] h) as ivs. induction W as [|w r ws rs B W IH]; intros ivs out P X.
    + destruct out; [constructor|discriminate].
    + destruct out as [|o out]; [discriminate|]. cbn [map] in P. injection P as P1 P2. inversion X as [|since ? ivs' ? A X']; subst.
      constructor; [|eapply IH; eassumption]. destruct B as (q & -> & R). destruct o as [[p es]|]; [|now destruct A].
      cbn in P1. injection P1 as ->. eauto.
  - revert X. apply Forall2_impl_. intros since [[p es]|] A; [eauto|]. destruct A as [_ A]. discriminate.
Qed.
Print Assumptions C140_cumulative_partial.

(** ** Cases *)
Definition one : Z := Eval vm_compute in 2 ^ 1074.
Definition xq_in (s t : N) : ctx := SomeContext (Some (s, t, true)).
Definition xq_calls : list xop :=
  [XMeasure (MCall one (Some [(lit "user", PStr false (lit "a"))]) None (xq_in 1 2) 10) 0; XMeasure (MCall (- (4 * one)) None (Some (xq_in 3 4)) EmptyContext 11) 1;
   XMeasure (MCall (2 * one) None None EmptyContext 12) 0; XCollect 20; XCollect 30; XMeasure (MCall (8 * one) None None (xq_in 5 6) 31) 0; XCollect 40].
Definition xq_new : option ehist := eh_new [] DELTA 5 4 0.
Definition xq_exemplars (f : efilter) (h : list xop) : option (bool * list (option (Z * list exemplar))) :=
  option_map (fun h0 => let s := xe_run (fun _ _ => 0) f DELTA (xe_new h0) h in
    (xe_ok s, map (option_map (fun pe => (ep_count (fst pe), snd pe))) (xe_out s))) xq_new.
Example C140_case :
  xq_exemplars TraceBasedFilter xq_calls
    = Some (true, [Some (3, [Ex (Some [(lit "user", PStr false (lit "a"))]) one 10 (Some 1%N) (Some 2%N); Ex None (- (4 * one)) 11 (Some 3%N) (Some 4%N)]); None;
                   Some (1, [Ex None (8 * one) 31 (Some 5%N) (Some 6%N)])])
  /\ (forall since, In since (x_intervals [] xq_calls) -> draws_ok (candidates TraceBasedFilter since) /\ forall c d, In (c, d) since -> ~ left_span c).
Proof.
  split; [vm_compute; reflexivity|]. intros since J. cbn in J. destruct J as [<-|[<-|[<-|[]]]]; split.
  - replace (candidates _ _) with [(as_meant (MCall one (Some [(lit "user", PStr false (lit "a"))]) None (xq_in 1 2) 10), 0); (as_meant (MCall (- (4 * one)) None (Some (xq_in 3 4)) EmptyContext 11), 1)]
      by (vm_compute; reflexivity).
    intros [|[|[|i]]] m d E; try discriminate; injection E as <- <-; cbn; lia.
  - intros c d J. cbn in J. repeat (destruct J as [[= <- <-]|J]; [intros [X Y]; try discriminate X; destruct Y as (s0 & Y); discriminate Y|]). destruct J.
  - intros i m d E. destruct i; discriminate.
  - intros c d [].
  - replace (candidates _ _) with [(as_meant (MCall (8 * one) None None (xq_in 5 6) 31), 0)] by (vm_compute; reflexivity).
    intros [|[|i]] m d E; try discriminate; injection E as <- <-; cbn; lia.
  - intros c d [[= <- <-]|[]] [X Y]. discriminate X.
Qed.

Example C140_cumulative_case : exists h0, xq_new = Some h0
  /\ Forall measurable (measured (map x_plain xq_calls)) /\ Forall settled (windows (map x_plain xq_calls))
  /\ map (option_map (fun pe => (ep_count (fst pe), map (fun e => Model_Exemplar.ex_time e) (snd pe)))) (xe_out (xe_run exact_log_floor TraceBasedFilter CUMULATIVE (xe_new h0) xq_calls))
     = [Some (3, [10; 11]); Some (3, []); Some (4, [31])].
Proof.
  eexists. split; [vm_compute; reflexivity|]. split; [|split].
  - repeat (apply Forall_cons; [right|]); [| | | |constructor].
    + exists 1, 1074. split; [lia|]. split; [lia|]. vm_compute. reflexivity.
    + exists 1, 1076. split; [lia|]. split; [lia|]. vm_compute. reflexivity.
    + exists 1, 1075. split; [lia|]. split; [lia|]. vm_compute. reflexivity.
    + exists 1, 1077. split; [lia|]. split; [lia|]. vm_compute. reflexivity.
  - repeat (apply Forall_cons; [vm_compute; intuition congruence|]). constructor.
  - vm_compute. reflexivity.
Qed.

Example C140_points_case : exists h0, xq_new = Some h0
  /\ let other := map (fun o => match o with XMeasure c _ => XMeasure (MCall (mc_value c) None None EmptyContext 0) 7 | o => o end) xq_calls in
  other <> xq_calls /\ map x_plain other = map x_plain xq_calls
  /\ map (option_map (fun pe => length (snd pe))) (xe_out (xe_run exact_log_floor AlwaysOnFilter DELTA (xe_new h0) other)) = [Some 3%nat; None; Some 1%nat].
Proof. eexists. split; [vm_compute; reflexivity|]. cbn zeta. split; [discriminate|]. split; vm_compute; reflexivity. Qed.

(** False of zeros: a measurement of zero in a sampled span is counted in the point, and is never an exemplar, whatever the filter. *)
Theorem C140_zero_refuted : exists c, mc_value c = 0 /\ span_meant c = Some (1%N, 2%N, true) /\ (forall f, f <> AlwaysOffFilter -> lets_through f (as_meant c) = true)
  /\ forall f, xq_exemplars f [XMeasure c 0; XCollect 20] = Some (true, [Some (1, [])]).
Proof.
  exists (MCall 0 None None (xq_in 1 2) 10). split; [reflexivity|]. split; [reflexivity|]. split.
  - intros [| |] N; try reflexivity. congruence.
  - intros [| |]; vm_compute; reflexivity.
Qed.
Print Assumptions C140_zero_refuted.
