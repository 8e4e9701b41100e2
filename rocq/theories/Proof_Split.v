(** Proofs about splitting an export. *)
From Verif Require Import Proof_Otlp Spec_Split.
From Coq Require Import Lia.
Local Open Scope Z_scope.

Section SomeOf.
Context {A : Type}.
Variable same : A -> A -> Prop.
Lemma so_none l : some_of same [] l.
Proof. induction l; constructor; auto. Qed.
Lemma so_app a b a' b' : some_of same a b -> some_of same a' b' -> some_of same (a ++ a') (b ++ b').
Proof. induction 1; cbn [app]; intros H'; [exact H'| |]; constructor; auto. Qed.
Lemma so_more a b c : some_of same a b -> some_of same a (b ++ c).
Proof. intros H. rewrite <- (app_nil_r a). apply so_app; [exact H|apply so_none]. Qed.
Lemma so_one a b : same a b -> some_of same [a] [b].
Proof. intros H. constructor; [exact H|constructor]. Qed.
Lemma so_last l a a2 : (forall x, same x a -> same x a2) -> forall l', some_of same l' (l ++ [a]) -> some_of same l' (l ++ [a2]).
Proof.
  intros H. induction l as [|y l IH]; intros l' K; cbn [app] in *.
  - inversion K; subst; constructor; auto.
  - inversion K; subst; constructor; auto.
Qed.
Lemma so_Forall (Q Q' : A -> Prop) l' l : (forall a' a, same a' a -> Q a -> Q' a') -> some_of same l' l -> Forall Q l -> Forall Q' l'.
Proof. intros H. induction 1; intros F; [constructor| |]; inversion F; subst; [constructor; eauto|auto]. Qed.
End SomeOf.
Lemma so_impl {A} (s s' : A -> A -> Prop) l' l : (forall a b, s a b -> s' a b) -> some_of s l' l -> some_of s' l' l.
Proof. intros H. induction 1; constructor; auto. Qed.
Lemma so_map {A B} (f g : A -> B) (s : A -> A -> Prop) (s' : B -> B -> Prop) l' l : (forall a b, s a b -> s' (f a) (g b)) ->
  some_of s l' l -> some_of s' (map f l') (map g l).
Proof. intros H. induction 1; cbn [map]; constructor; auto. Qed.

Section Tree.
Context {R S M P : Type}.
Variable max_batch : Z.
Notation tree := (@tree R S M P).
Notation lim := (Z.max 1 max_batch).
Definition under_scope (r : R) (s : S) (ms : list (M * list P)) : list (R * S * M * P) :=
  flat_map (fun m => map (fun p => (r, s, fst m, p)) (snd m)) ms.
Definition under_resource (r : R) (ss : list (S * list (M * list P))) : list (R * S * M * P) :=
  flat_map (fun s => under_scope r (fst s) (snd s)) ss.
Definition flat (t : tree) : list (R * S * M * P) := flat_map (fun r => under_resource (fst r) (snd r)) t.
Definition Pm (a b : M * list P) : Prop := fst a = fst b /\ some_of eq (snd a) (snd b).
Definition Ps (a b : S * list (M * list P)) : Prop := fst a = fst b /\ some_of Pm (snd a) (snd b).
Definition Pr (a b : R * list (S * list (M * list P))) : Prop := fst a = fst b /\ some_of Ps (snd a) (snd b).
Definition okm (m : M * list P) : Prop := snd m <> [].
Definition oks (s : S * list (M * list P)) : Prop := snd s <> [] /\ Forall okm (snd s).
Definition okr (r : R * list (S * list (M * list P))) : Prop := snd r <> [] /\ Forall oks (snd r).

Record inv (st : @split_st R S M P) (X : tree) (pr : tree) (pss : list (S * list (M * list P))) (pms : list (M * list P)) (pps : list P)
    (cur : list (R * S * M * P)) : Prop := {
  i_flat : flat_map flat (yielded st) ++ cur = flat X;
  i_n : batch_size st = Z.of_nat (length cur);
  i_lim : batch_size st < lim;
  i_full : Forall (fun b => Z.of_nat (length (flat b)) = lim /\ b <> [] /\ Forall okr b) (yielded st);
  i_part : Forall (fun b => some_of Pr b X) (yielded st);
  i_rs : some_of Pr (split_resources st) pr;
  i_ss : some_of Ps (split_scopes st) pss;
  i_ms : some_of Pm (split_metrics st) pms;
  i_ps : some_of eq (split_points st) pps;
  i_okr : Forall okr (split_resources st);
  i_oks : Forall oks (split_scopes st);
  i_okm : Forall okm (split_metrics st) }.

Lemma flat_app a b : flat (a ++ b) = flat a ++ flat b.
Proof. apply flat_map_app. Qed.
Lemma flat_one r ss : flat [(r, ss)] = under_resource r ss.
Proof. unfold flat. cbn [flat_map fst snd]. apply app_nil_r. Qed.
Lemma resource_app r a b : under_resource r (a ++ b) = under_resource r a ++ under_resource r b.
Proof. apply flat_map_app. Qed.
Lemma resource_one r s ms : under_resource r [(s, ms)] = under_scope r s ms.
Proof. unfold under_resource. cbn [flat_map fst snd]. apply app_nil_r. Qed.
Lemma scope_app r s a b : under_scope r s (a ++ b) = under_scope r s a ++ under_scope r s b.
Proof. apply flat_map_app. Qed.
Lemma scope_one r s m ps : under_scope r s [(m, ps)] = map (fun p => (r, s, m, p)) ps.
Proof. unfold under_scope. cbn [flat_map fst snd]. apply app_nil_r. Qed.
Hint Rewrite flat_app flat_one resource_app resource_one scope_app scope_one map_app app_length map_length app_nil_r : fl.

Definition at_point (pr : tree) r pss s pms m pps : tree := pr ++ [(r, pss ++ [(s, pms ++ [(m, pps)])])].
Definition open_point (st : @split_st R S M P) r s m : list (R * S * M * P) :=
  flat (split_resources st) ++ under_resource r (split_scopes st) ++ under_scope r s (split_metrics st)
  ++ map (fun p => (r, s, m, p)) (split_points st).

Lemma grows_point pr r pss s pms m pps c l : some_of Pr l (at_point pr r pss s pms m pps) -> some_of Pr l (at_point pr r pss s pms m (pps ++ c)).
Proof.
  apply so_last. intros x [E K]. split; [exact E|]. cbn [fst snd] in *. revert K. apply so_last. intros y [E2 K]. split; [exact E2|]. cbn [fst snd] in *.
  revert K. apply so_last. intros z [E3 K]. split; [exact E3|]. cbn [fst snd] in *. now apply so_more.
Qed.
Lemma point_inv r s m pr pss pms pps st p : inv st (at_point pr r pss s pms m pps) pr pss pms pps (open_point st r s m) ->
  let st' := split_point max_batch r s m st p in
  inv st' (at_point pr r pss s pms m (pps ++ [p])) pr pss pms (pps ++ [p]) (open_point st' r s m).
Proof.
  intros [F N L FU PA RS SS MS PS OR OS OM]. cbn zeta. unfold split_point.
  assert (E : flat (at_point pr r pss s pms m (pps ++ [p])) = flat (at_point pr r pss s pms m pps) ++ [(r, s, m, p)]).
  { unfold at_point. autorewrite with fl. cbn [map]. now rewrite !app_assoc. }
  assert (PA' : Forall (fun b => some_of Pr b (at_point pr r pss s pms m (pps ++ [p]))) (yielded st)).
  { eapply Forall_impl; [|exact PA]. intros b. apply grows_point. }
  destruct (Z.leb_spec max_batch (batch_size st + 1)) as [H|H].
  - set (b := split_resources st ++ [(r, split_scopes st ++ [(s, split_metrics st ++ [(m, split_points st ++ [p])])])]).
    assert (Eb : flat b = open_point st r s m ++ [(r, s, m, p)]).
    { unfold b, open_point. autorewrite with fl. cbn [map]. now rewrite <- !app_assoc. }
    constructor; cbn [batch_size split_resources split_scopes split_metrics split_points yielded].
    + unfold open_point at 1. cbn. rewrite app_nil_r, flat_map_app. cbn [flat_map]. rewrite app_nil_r, Eb, E, <- F. now rewrite <- app_assoc.
    + reflexivity.
    + lia.
    + apply Forall_app. split; [exact FU|]. constructor; [|constructor]. split.
      * rewrite Eb, app_length. cbn [length]. lia.
      * split; [now destruct (split_resources st)|]. unfold b. apply Forall_app. split; [exact OR|]. constructor; [|constructor]. unfold okr. cbn [snd].
        split; [now destruct (split_scopes st)|]. apply Forall_app. split; [exact OS|]. constructor; [|constructor]. unfold oks. cbn [snd].
        split; [now destruct (split_metrics st)|]. apply Forall_app. split; [exact OM|]. constructor; [|constructor]. unfold okm. cbn [snd].
        now destruct (split_points st).
    + apply Forall_app. split; [exact PA'|]. constructor; [|constructor]. unfold b, at_point. apply so_app; [exact RS|]. apply so_one. split; [reflexivity|].
      cbn [snd]. apply so_app; [exact SS|]. apply so_one. split; [reflexivity|]. cbn [snd]. apply so_app; [exact MS|]. apply so_one. split; [reflexivity|].
      cbn [snd]. apply so_app; [exact PS|]. now apply so_one.
    + apply so_none.
    + apply so_none.
    + apply so_none.
    + apply so_none.
    + constructor.
    + constructor.
    + constructor.
  - constructor; cbn [batch_size split_resources split_scopes split_metrics split_points yielded]; auto.
    + rewrite E, <- F. unfold open_point. cbn [split_resources split_scopes split_metrics split_points]. autorewrite with fl. cbn [map]. now rewrite <- !app_assoc.
    + unfold open_point in *. cbn [split_resources split_scopes split_metrics split_points]. rewrite N, !app_length, !map_length, app_length. cbn [length]. lia.
    + lia.
    + apply so_app; [exact PS|]. now apply so_one.
Qed.
Lemma points_inv r s m pr pss pms l : forall pps st, inv st (at_point pr r pss s pms m pps) pr pss pms pps (open_point st r s m) ->
  let st' := fold_left (split_point max_batch r s m) l st in
  inv st' (at_point pr r pss s pms m (pps ++ l)) pr pss pms (pps ++ l) (open_point st' r s m).
Proof.
  induction l as [|p l IH]; intros pps st H; cbn [fold_left]; [now rewrite app_nil_r|].
  replace (pps ++ p :: l) with ((pps ++ [p]) ++ l) by now rewrite <- app_assoc. apply IH. now apply point_inv.
Qed.

Definition at_metric (pr : tree) r pss s pms : tree := pr ++ [(r, pss ++ [(s, pms)])].
Definition open_metric (st : @split_st R S M P) r s : list (R * S * M * P) :=
  flat (split_resources st) ++ under_resource r (split_scopes st) ++ under_scope r s (split_metrics st).
Lemma metric_inv r s m pr pss pms st : inv st (at_metric pr r pss s pms) pr pss pms [] (open_metric st r s) ->
  let st' := split_metric max_batch r s st m in
  inv st' (at_metric pr r pss s (pms ++ [m])) pr pss (pms ++ [m]) [] (open_metric st' r s).
Proof.
  intros [F N L FU PA RS SS MS PS OR OS OM]. cbn zeta. unfold split_metric. destruct m as [m ps]. cbn [fst snd].
  set (st0 := SplitSt _ _ _ _ _ _).
  assert (I0 : inv st0 (at_point pr r pss s pms m []) pr pss pms [] (open_point st0 r s m)).
  { assert (E : flat (at_point pr r pss s pms m []) = flat (at_metric pr r pss s pms)).
    { unfold at_point, at_metric. autorewrite with fl. cbn [map]. now rewrite ?app_nil_r. }
    assert (Eo : open_point st0 r s m = open_metric st r s) by (unfold open_point, open_metric; cbn; now rewrite app_nil_r).
    constructor; cbn [st0 batch_size split_resources split_scopes split_metrics split_points yielded]; auto.
    - now rewrite E, Eo.
    - now rewrite Eo.
    - eapply Forall_impl; [|exact PA]. intros b. apply so_last. intros x [Ex K]. split; [exact Ex|]. cbn [fst snd] in *. revert K. apply so_last.
      intros y [Ey K]. split; [exact Ey|]. cbn [fst snd] in *. now apply so_more.
    - constructor. }
  pose proof (points_inv r s m pr pss pms ps [] st0 I0) as I1. cbn zeta in I1. cbn [app] in I1.
  set (st1 := fold_left _ ps st0) in *. clearbody st1. destruct I1 as [F1 N1 L1 FU1 PA1 RS1 SS1 MS1 PS1 OR1 OS1 OM1].
  destruct (split_points st1) as [|q qs] eqn:Eq.
  - assert (Eo : open_metric st1 r s = open_point st1 r s m) by (unfold open_point, open_metric; rewrite Eq; cbn; now rewrite app_nil_r).
    constructor; auto.
    + rewrite Eo. exact F1.
    + now rewrite Eo.
    + now apply so_more.
    + rewrite Eq. constructor.
  - set (st2 := SplitSt _ _ _ _ _ _).
    assert (Eo : open_metric st2 r s = open_point st1 r s m).
    { unfold open_point, open_metric, st2. cbn [split_resources split_scopes split_metrics split_points]. autorewrite with fl. now rewrite Eq. }
    constructor; cbn [st2 batch_size split_resources split_scopes split_metrics split_points yielded]; auto.
    + rewrite Eo. exact F1.
    + now rewrite Eo.
    + apply so_app; [exact MS1|]. apply so_one. split; [reflexivity|]. exact PS1.
    + constructor.
    + apply Forall_app. split; [exact OM1|]. constructor; [discriminate|constructor].
Qed.
Lemma metrics_inv r s pr pss l : forall pms st, inv st (at_metric pr r pss s pms) pr pss pms [] (open_metric st r s) ->
  let st' := fold_left (split_metric max_batch r s) l st in
  inv st' (at_metric pr r pss s (pms ++ l)) pr pss (pms ++ l) [] (open_metric st' r s).
Proof.
  induction l as [|p l IH]; intros pms st H; cbn [fold_left]; [now rewrite app_nil_r|].
  replace (pms ++ p :: l) with ((pms ++ [p]) ++ l) by now rewrite <- app_assoc. apply IH. now apply metric_inv.
Qed.

Definition at_scope (pr : tree) r pss : tree := pr ++ [(r, pss)].
Definition open_scope (st : @split_st R S M P) r : list (R * S * M * P) := flat (split_resources st) ++ under_resource r (split_scopes st).
Lemma scope_inv r s pr pss st : inv st (at_scope pr r pss) pr pss [] [] (open_scope st r) ->
  let st' := split_scope max_batch r st s in
  inv st' (at_scope pr r (pss ++ [s])) pr (pss ++ [s]) [] [] (open_scope st' r).
Proof.
  intros [F N L FU PA RS SS MS PS OR OS OM]. cbn zeta. unfold split_scope. destruct s as [s ms]. cbn [fst snd].
  set (st0 := SplitSt _ _ _ _ _ _).
  assert (I0 : inv st0 (at_metric pr r pss s []) pr pss [] [] (open_metric st0 r s)).
  { assert (E : flat (at_metric pr r pss s []) = flat (at_scope pr r pss)).
    { unfold at_scope, at_metric. autorewrite with fl. cbn [under_scope flat_map]. now rewrite ?app_nil_r. }
    assert (Eo : open_metric st0 r s = open_scope st r) by (unfold open_scope, open_metric; cbn; now rewrite app_nil_r).
    constructor; cbn [st0 batch_size split_resources split_scopes split_metrics split_points yielded]; auto.
    - now rewrite E, Eo.
    - now rewrite Eo.
    - eapply Forall_impl; [|exact PA]. intros b. apply so_last. intros x [Ex K]. split; [exact Ex|]. cbn [fst snd] in *. now apply so_more.
    - constructor.
    - constructor. }
  pose proof (metrics_inv r s pr pss ms [] st0 I0) as I1. cbn zeta in I1. cbn [app] in I1.
  set (st1 := fold_left _ ms st0) in *. clearbody st1. destruct I1 as [F1 N1 L1 FU1 PA1 RS1 SS1 MS1 PS1 OR1 OS1 OM1].
  destruct (split_metrics st1) as [|q qs] eqn:Eq.
  - assert (Eo : open_scope st1 r = open_metric st1 r s) by (unfold open_scope, open_metric; rewrite Eq; cbn; now rewrite app_nil_r).
    constructor; auto.
    + rewrite Eo. exact F1.
    + now rewrite Eo.
    + now apply so_more.
    + rewrite Eq. constructor.
    + rewrite Eq. constructor.
  - set (st2 := SplitSt _ _ _ _ _ _).
    assert (Eo : open_scope st2 r = open_metric st1 r s).
    { unfold open_scope, open_metric, st2. cbn [split_resources split_scopes split_metrics split_points]. autorewrite with fl. now rewrite Eq. }
    constructor; cbn [st2 batch_size split_resources split_scopes split_metrics split_points yielded]; auto.
    + rewrite Eo. exact F1.
    + now rewrite Eo.
    + apply so_app; [exact SS1|]. apply so_one. split; [reflexivity|]. exact MS1.
    + constructor.
    + constructor.
    + apply Forall_app. split; [exact OS1|]. constructor; [|constructor]. split; [discriminate|]. exact OM1.
Qed.
Lemma scopes_inv r pr l : forall pss st, inv st (at_scope pr r pss) pr pss [] [] (open_scope st r) ->
  let st' := fold_left (split_scope max_batch r) l st in
  inv st' (at_scope pr r (pss ++ l)) pr (pss ++ l) [] [] (open_scope st' r).
Proof.
  induction l as [|p l IH]; intros pss st H; cbn [fold_left]; [now rewrite app_nil_r|].
  replace (pss ++ p :: l) with ((pss ++ [p]) ++ l) by now rewrite <- app_assoc. apply IH. now apply scope_inv.
Qed.
Lemma resource_inv r pr st : inv st pr pr [] [] [] (flat (split_resources st)) ->
  let st' := split_resource max_batch st r in inv st' (pr ++ [r]) (pr ++ [r]) [] [] [] (flat (split_resources st')).
Proof.
  intros [F N L FU PA RS SS MS PS OR OS OM]. cbn zeta. unfold split_resource. destruct r as [r ss]. cbn [fst snd].
  set (st0 := SplitSt _ _ _ _ _ _).
  assert (I0 : inv st0 (at_scope pr r []) pr [] [] [] (open_scope st0 r)).
  { assert (E : flat (at_scope pr r []) = flat pr).
    { unfold at_scope. autorewrite with fl. cbn [under_resource flat_map]. now rewrite ?app_nil_r. }
    assert (Eo : open_scope st0 r = flat (split_resources st)) by (unfold open_scope; cbn; now rewrite app_nil_r).
    constructor; cbn [st0 batch_size split_resources split_scopes split_metrics split_points yielded]; auto; try constructor.
    - now rewrite E, Eo.
    - now rewrite Eo.
    - eapply Forall_impl; [|exact PA]. intros b. now apply so_more. }
  pose proof (scopes_inv r pr ss [] st0 I0) as I1. cbn zeta in I1. cbn [app] in I1.
  set (st1 := fold_left _ ss st0) in *. clearbody st1. destruct I1 as [F1 N1 L1 FU1 PA1 RS1 SS1 MS1 PS1 OR1 OS1 OM1].
  destruct (split_scopes st1) as [|q qs] eqn:Eq.
  - assert (Eo : flat (split_resources st1) = open_scope st1 r) by (unfold open_scope; rewrite Eq; cbn; now rewrite app_nil_r).
    constructor; auto.
    + rewrite Eo. exact F1.
    + now rewrite Eo.
    + now apply so_more.
    + rewrite Eq. constructor.
    + rewrite Eq. constructor.
  - set (st2 := SplitSt _ _ _ _ _ _).
    assert (Eo : flat (split_resources st2) = open_scope st1 r).
    { unfold open_scope, st2. cbn [split_resources]. autorewrite with fl. now rewrite Eq. }
    unfold st2 in Eo. cbn [split_resources] in Eo.
    constructor; cbn [st2 batch_size split_resources split_scopes split_metrics split_points yielded]; auto; try constructor.
    + rewrite Eo. exact F1.
    + now rewrite Eo.
    + apply so_app; [exact RS1|]. apply so_one. split; [reflexivity|]. exact SS1.
    + apply Forall_app. split; [exact OR1|]. constructor; [|constructor]. split; [discriminate|]. exact OS1.
Qed.
Lemma resources_inv l : forall pr st, inv st pr pr [] [] [] (flat (split_resources st)) ->
  let st' := fold_left (split_resource max_batch) l st in inv st' (pr ++ l) (pr ++ l) [] [] [] (flat (split_resources st')).
Proof.
  induction l as [|p l IH]; intros pr st H; cbn [fold_left]; [now rewrite app_nil_r|].
  replace (pr ++ p :: l) with ((pr ++ [p]) ++ l) by now rewrite <- app_assoc. apply IH. now apply resource_inv.
Qed.

Lemma split_tree_ok (d : tree) : let bs := split_tree max_batch d in
  flat_map flat bs = flat d
  /\ (exists full rest, bs = full ++ rest /\ Forall (fun b => Z.of_nat (length (flat b)) = lim) full
      /\ (rest = [] \/ exists b, rest = [b] /\ 0 < Z.of_nat (length (flat b)) < lim))
  /\ Forall (fun b => some_of Pr b d /\ b <> [] /\ Forall okr b) bs.
Proof.
  cbn zeta. unfold split_tree. set (st0 := SplitSt _ _ _ _ _ _).
  assert (I0 : inv st0 [] [] [] [] [] (flat (split_resources st0))).
  { constructor; cbn; try constructor. lia. }
  pose proof (resources_inv d [] st0 I0) as I1. cbn zeta in I1. cbn [app] in I1. set (st := fold_left _ d st0) in *. clearbody st.
  destruct I1 as [F N L FU PA RS SS MS PS OR OS OM]. 
  assert (FU' : Forall (fun b => some_of Pr b d /\ b <> [] /\ Forall okr b) (yielded st)).
  { apply Forall_forall. intros b Hb. split; [now apply (proj1 (Forall_forall _ _) PA)|]. now apply (proj1 (Forall_forall _ _) FU). }
  assert (FL : Forall (fun b => Z.of_nat (length (flat b)) = lim) (yielded st)) by (eapply Forall_impl; [|exact FU]; cbn; tauto).
  destruct (Z.ltb_spec 0 (batch_size st)) as [H|H].
  - split; [rewrite flat_map_app; cbn [flat_map]; now rewrite app_nil_r|]. split.
    + exists (yielded st), [split_resources st]. split; [reflexivity|]. split; [exact FL|]. right. eexists. split; [reflexivity|]. lia.
    + apply Forall_app. split; [exact FU'|]. constructor; [|constructor]. split; [exact RS|]. split; [|exact OR].
      intros E. rewrite E in N. cbn in N. lia.
  - rewrite app_nil_r. assert (E : flat (split_resources st) = []) by (destruct (flat (split_resources st)); [reflexivity|cbn in N; lia]).
    rewrite E, app_nil_r in F. split; [exact F|]. split; [|exact FU'].
    exists (yielded st), []. rewrite app_nil_r. auto.
Qed.
End Tree.

(** ** The data of the SDK *)
Definition view_s (s : scope * list sdk_metric) := (fst s, map (fun m => (m, data_points m)) (snd s)).
Definition view_r (r : resource * list (scope * list sdk_metric)) := (fst r, map view_s (snd r)).
Definition build_m (m : sdk_metric * list dpoint) : sdk_metric := with_points (fst m) (snd m).
Definition build_s (s : scope * list (sdk_metric * list dpoint)) : scope * list sdk_metric := (fst s, map build_m (snd s)).
Definition build_r (r : resource * list (scope * list (sdk_metric * list dpoint))) : resource * list (scope * list sdk_metric) := (fst r, map build_s (snd r)).
Lemma split_view n d : split_metrics_data n d = map (map build_r) (split_tree n (map view_r d)).
Proof. reflexivity. Qed.

Lemma about_with m l : about (with_points m l) = about m.
Proof. destruct m as [a b c []]; reflexivity. Qed.
Lemma points_with m l : some_of eq l (data_points m) -> data_points (with_points m l) = l.
Proof.
  assert (G : forall B (c : B -> dpoint) (f : dpoint -> list B) (ps : list B), (forall p, f (c p) = [p]) ->
    some_of eq l (map c ps) -> map c (flat_map f l) = l).
  { intros B c f ps Hf H. remember (map c ps) as q eqn:E. revert ps E. induction H as [|a' a l' q' Eq H IH|a l' q' H IH]; intros ps E.
    - reflexivity.
    - destruct ps as [|p ps]; [discriminate|]. cbn in E. assert (Ea : a = c p) by congruence. assert (Eq' : q' = map c ps) by congruence.
      subst a' a. cbn [flat_map]. rewrite Hf. cbn. f_equal. eauto.
    - destruct ps as [|p ps]; [discriminate|]. cbn in E. assert (Eq' : q' = map c ps) by congruence. eauto. }
  destruct m as [a b c []]; cbn; intros H; try (eapply G; [|exact H]; reflexivity).
  inversion H. reflexivity.
Qed.
Definition named_point (x : resource * scope * sdk_metric * dpoint) :=
  let '(r, s, m, p) := x in (r, s, about m, p).
Lemma flat_map_map {A B C} (f : A -> B) (g : B -> list C) l : flat_map g (map f l) = flat_map (fun x => g (f x)) l.
Proof. induction l; cbn; congruence. Qed.
Lemma map_flat_map {A B C} (f : B -> C) (g : A -> list B) l : map f (flat_map g l) = flat_map (fun x => map f (g x)) l.
Proof. induction l; cbn; [reflexivity|]. rewrite map_app. congruence. Qed.
Lemma flat_map_ext_in {A B} (f g : A -> list B) l : (forall x, In x l -> f x = g x) -> flat_map f l = flat_map g l.
Proof. induction l; cbn; intros H; [reflexivity|]. rewrite H by now left. rewrite IHl; [reflexivity|]. auto. Qed.
Lemma all_points_view d : all_points d = map named_point (flat (map view_r d)).
Proof.
  unfold all_points, flat. rewrite flat_map_map, map_flat_map. apply flat_map_ext. intros [r ss]. cbn [view_r fst snd]. unfold under_resource.
  rewrite flat_map_map, map_flat_map. apply flat_map_ext. intros [s ms]. cbn [view_s fst snd]. unfold under_scope. rewrite flat_map_map, map_flat_map.
  apply flat_map_ext. intros m. cbn [fst snd]. now rewrite map_map.
Qed.
Definition own (b : list (resource * list (scope * list (sdk_metric * list dpoint)))) : Prop :=
  Forall (fun r => Forall (fun s => Forall (fun m : sdk_metric * list dpoint => some_of eq (snd m) (data_points (fst m))) (snd s)) (snd r)) b.
Lemma so_in {A} (same : A -> A -> Prop) l' l x : some_of same l' l -> In x l' -> exists y, In y l /\ same x y.
Proof. induction 1; intros I; [destruct I|destruct I as [<-|I]; [exists a; split; [now left|assumption]|]|]; [| ];
  destruct (IHsome_of I) as (y & Iy & Sy); exists y; (split; [now right|exact Sy]). Qed.
Lemma own_part b d : some_of Pr b (map view_r d) -> own b.
Proof.
  intros H. apply Forall_forall. intros r Ir. destruct (so_in _ _ _ _ H Ir) as (r' & Ir' & Er & Hr). apply in_map_iff in Ir' as (r0 & <- & _).
  apply Forall_forall. intros s Is. destruct (so_in _ _ _ _ Hr Is) as (s' & Is' & Es & Hs). cbn [view_r snd] in Is'. apply in_map_iff in Is' as (s0 & <- & _).
  apply Forall_forall. intros m Im. destruct (so_in _ _ _ _ Hs Im) as (m' & Im' & Em & Hm). cbn [view_s snd] in Im'. apply in_map_iff in Im' as (m0 & <- & _).
  cbn [fst snd] in *. now rewrite Em.
Qed.
Lemma all_points_build b : own b -> all_points (map build_r b) = map named_point (flat b).
Proof.
  intros O. unfold all_points, flat. rewrite flat_map_map, map_flat_map. apply flat_map_ext_in. intros [r ss] Ir. apply (proj1 (Forall_forall _ _) O) in Ir.
  cbn [build_r fst snd] in *. unfold under_resource. rewrite flat_map_map, map_flat_map. apply flat_map_ext_in. intros [s ms] Is.
  apply (proj1 (Forall_forall _ _) Ir) in Is. cbn [build_s fst snd] in *. unfold under_scope. rewrite flat_map_map, map_flat_map.
  apply flat_map_ext_in. intros [m ps] Im. apply (proj1 (Forall_forall _ _) Is) in Im. unfold build_m. cbn [fst snd] in *.
  rewrite points_with by exact Im. now rewrite map_map, about_with.
Qed.
Lemma build_part b d : some_of Pr b (map view_r d) -> part_of (map build_r b) d.
Proof.
  intros H.
  assert (Gm : forall ms' ms, some_of Pm ms' (map (fun m => (m, data_points m)) ms) -> some_of part_of_metric (map build_m ms') ms).
  { intros ms' ms K. remember (map (fun m => (m, data_points m)) ms) as q eqn:E. revert ms E. induction K as [|a' a l' q' [E1 E2] K IH|a l' q' K IH]; intros ms E.
    - symmetry in E. apply map_eq_nil in E. subst. constructor.
    - destruct ms as [|m ms]; [discriminate|]. cbn in E. assert (Ea : a = (m, data_points m)) by congruence. subst a. cbn [map]. constructor; [|apply IH; congruence].
      cbn [fst snd] in *. unfold part_of_metric, build_m. rewrite about_with, points_with by now rewrite E1. now rewrite E1.
    - destruct ms as [|m ms]; [discriminate|]. cbn in E. constructor. apply IH. congruence. }
  assert (Gs : forall ss' ss, some_of Ps ss' (map view_s ss) -> some_of part_of_scope (map build_s ss') ss).
  { intros ss' ss K. remember (map view_s ss) as q eqn:E. revert ss E. induction K as [|a' a l' q' [E1 E2] K IH|a l' q' K IH]; intros ss E.
    - symmetry in E. apply map_eq_nil in E. subst. constructor.
    - destruct ss as [|s ss]; [discriminate|]. cbn in E. assert (Ea : a = view_s s) by congruence. subst a. cbn [map]. constructor; [|apply IH; congruence].
      split; [exact E1|]. apply Gm. exact E2.
    - destruct ss as [|s ss]; [discriminate|]. cbn in E. constructor. apply IH. congruence. }
  remember (map view_r d) as q eqn:E. revert d E. induction H as [|a' a l' q' [E1 E2] K IH|a l' q' K IH]; intros ss E.
  - symmetry in E. apply map_eq_nil in E. subst. constructor.
  - destruct ss as [|s ss]; [discriminate|]. cbn in E. assert (Ea : a = view_r s) by congruence. subst a. cbn [map]. constructor; [|apply IH; congruence].
    split; [exact E1|]. apply Gs. exact E2.
  - destruct ss as [|s ss]; [discriminate|]. cbn in E. constructor. apply IH. congruence.
Qed.
Lemma build_nothing_empty b : own b -> b <> [] -> Forall okr b -> nothing_empty (map build_r b).
Proof.
  intros O N F. split; [now destruct b|]. apply Forall_map. apply Forall_forall. intros [r ss] Ir. pose proof (proj1 (Forall_forall _ _) O _ Ir) as Or.
  destruct (proj1 (Forall_forall _ _) F _ Ir) as [Nr Fr]. cbn [build_r fst snd] in *. split; [now destruct ss|]. apply Forall_map. apply Forall_forall. intros [s ms] Is.
  pose proof (proj1 (Forall_forall _ _) Or _ Is) as Os. destruct (proj1 (Forall_forall _ _) Fr _ Is) as [Ns Fs]. cbn [build_s fst snd] in *. split; [now destruct ms|].
  apply Forall_map. apply Forall_forall. intros [m ps] Im. pose proof (proj1 (Forall_forall _ _) Os _ Im) as Om. pose proof (proj1 (Forall_forall _ _) Fs _ Im) as Nm.
  unfold build_m. cbn [fst snd] in *. rewrite points_with by exact Om. exact Nm.
Qed.

Lemma batches_own n d : Forall own (split_tree n (map view_r d)).
Proof. destruct (split_tree_ok n (map view_r d)) as (_ & _ & F). eapply Forall_impl; [|exact F]. cbn. intros b (H & _). eapply own_part, H. Qed.
Lemma points_split n d : flat_map all_points (split_metrics_data n d) = all_points d.
Proof.
  rewrite split_view, flat_map_map, all_points_view. destruct (split_tree_ok n (map view_r d)) as (<- & _ & _). rewrite map_flat_map.
  apply flat_map_ext_in. intros b Ib. apply all_points_build. exact (proj1 (Forall_forall _ _) (batches_own n d) _ Ib).
Qed.
Lemma length_build b : own b -> length (all_points (map build_r b)) = length (flat b).
Proof. intros O. rewrite all_points_build by exact O. apply map_length. Qed.
Lemma sizes_split n d : exists full rest, split_metrics_data n d = full ++ rest
  /\ Forall (fun b => Z.of_nat (length (all_points b)) = Z.max 1 n) full
  /\ (rest = [] \/ exists b, rest = [b] /\ 0 < Z.of_nat (length (all_points b)) < Z.max 1 n).
Proof.
  rewrite split_view. pose proof (batches_own n d) as O. destruct (split_tree_ok n (map view_r d)) as (_ & (full & rest & E & F & L) & _). rewrite E in *.
  apply Forall_app in O as [O1 O2]. exists (map (map build_r) full), (map (map build_r) rest). split; [apply map_app|]. split.
  - apply Forall_map. apply Forall_forall. intros b Ib. rewrite length_build by exact (proj1 (Forall_forall _ _) O1 _ Ib). exact (proj1 (Forall_forall _ _) F _ Ib).
  - destruct L as [->|(b & -> & L)]; [now left|]. right. exists (map build_r b). split; [reflexivity|]. inversion O2; subst. now rewrite length_build.
Qed.
Lemma parts_split n d : Forall (fun b => part_of b d /\ nothing_empty b) (split_metrics_data n d).
Proof.
  rewrite split_view. pose proof (batches_own n d) as O. destruct (split_tree_ok n (map view_r d)) as (_ & _ & F). apply Forall_map.
  apply Forall_forall. intros b Ib. destruct (proj1 (Forall_forall _ _) F _ Ib) as (H & N & K). split; [now apply build_part|].
  apply build_nothing_empty; [exact (proj1 (Forall_forall _ _) O _ Ib)|exact N|exact K].
Qed.

Lemma so_different {A B} (same : A -> A -> Prop) (f : A -> B) (eqb : B -> B -> bool) l' l : (forall a b, same a b -> f a = f b) ->
  some_of same l' l -> all_different eqb (map f l) -> all_different eqb (map f l').
Proof.
  intros Hf H. unfold all_different. induction H as [|a' a l' l S H IH|a l' l H IH]; cbn [map]; intros D; [constructor| |]; inversion D as [|? ? FA D']; subst.
  - constructor; [|auto]. rewrite (Hf _ _ S). apply Forall_forall. intros x Ix. apply in_map_iff in Ix as (y & <- & Iy).
    destruct (so_in _ _ _ _ H Iy) as (z & Iz & Sz). rewrite (Hf _ _ Sz). apply (proj1 (Forall_forall _ _) FA). now apply in_map.
  - auto.
Qed.
Lemma part_different eqr eqs b d : part_of b d -> all_different eqr (map fst d) -> Forall (fun rm => all_different eqs (map fst (snd rm))) d ->
  all_different eqr (map fst b) /\ Forall (fun rm : resource * list (scope * list sdk_metric) => all_different eqs (map fst (snd rm))) b.
Proof.
  intros H D F. split.
  - eapply so_different; [|exact H|exact D]. intros a c [E _]. exact E.
  - eapply so_Forall; [|exact H|exact F]. cbn beta. intros a c [_ K] D'. eapply so_different; [|exact K|exact D']. intros x y [E _]. exact E.
Qed.
Lemma part_ok to_float m' m : part_of_metric m' m -> metric_ok to_float m -> metric_ok to_float m'.
Proof.
  intros [E K] (A & B & C & D). destruct m as [n ds u dt], m' as [n' ds' u' dt']. unfold about in E. cbn [sm_name sm_descr sm_unit sm_data] in *.
  assert (En : n' = n) by congruence. assert (Ed : ds' = ds) by congruence. assert (Eu : u' = u) by congruence.
  assert (Ek : kind_of (SMetric n' ds' u' dt') = kind_of (SMetric n ds u dt)) by congruence. subst n' ds' u'. clear E.
  unfold metric_ok. cbn [sm_name sm_descr sm_unit sm_data]. repeat (split; [assumption|]). unfold kind_of in Ek. unfold data_points in K. cbn [sm_data] in *.
  assert (G : forall Q (c : Q -> dpoint) (ok : Q -> Prop) l' l, (forall x y, c x = c y -> x = y) -> some_of eq (map c l') (map c l) -> Forall ok l -> Forall ok l').
  { intros Q c ok l' l Inj S F. apply Forall_forall. intros x Ix. destruct (so_in _ _ _ (c x) S (in_map c _ _ Ix)) as (y & Iy & Ey). subst y.
    apply in_map_iff in Iy as (z & Ez & Iz). apply Inj in Ez. subst z. exact (proj1 (Forall_forall _ _) F _ Iz). }
  destruct dt, dt'; try discriminate Ek; cbn [data_ok] in *; try exact I; (eapply G; [|exact K|exact D]; intros ? ? X; congruence).
Qed.
Lemma part_encodable to_float b d : part_of b d -> Forall (resource_metrics_ok to_float) d -> Forall (resource_metrics_ok to_float) b.
Proof.
  intros H. eapply so_Forall; [|exact H]. intros r' r [E K] [A B]. split; [now rewrite E|]. eapply so_Forall; [|exact K|exact B].
  cbn beta. intros s' s [E2 K2] [A2 B2]. split; [now rewrite E2|]. eapply so_Forall; [|exact K2|exact B2]. intros m' m. apply part_ok.
Qed.
