(** Proofs for C138: with the boundaries that the objects have in the end, the storage that keeps changing them is the plain one. *)
From Verif Require Import Proof_Storage Proof_Pipeline Proof_Streams Spec_Boundaries.
From Coq Require Import Lia.
Local Open Scope Z_scope.

Section B.
Variable float_int : Z -> option Z.
Variable obj_hash : N -> bool.
Variable fnmatch : str -> str -> bool.
Context {Scope : Type} `{ES : EqDec Scope}.
Variable the_scope : Scope -> scope.
Variable obj : N -> instr.
Variable scope_of : N -> Scope.
Variable views : list (@view conf).
Variable settings : heap.
(** Which aggregations an instrument can get *)
Variable P : @reader conf -> N -> conf -> Prop.
Hypothesis P_hist : forall rd i o r, P rd i (CfBuckets o r) -> settings o = None -> in_kind (obj i) = IHistogram.
Variable bd : nat -> list Z.

Notation scn := (fun s => sco_name (the_scope s)).
Notation scv := (fun s => sco_version (the_scope s)).
Notation scs := (fun s => sco_schema (the_scope s)).
Notation vmatches := (view_match fnmatch scn scv scs obj scope_of).
Notation bagg := (agg_for obj cf_default).
Notation create1 := (fun g i => create g (in_kind (obj i)) (in_adv (obj i))).

Definition resolve (g : conf) : aggregation :=
  match g with CfDefault => Default | CfSum => Sum | CfLastValue => LastValue | CfDrop => Drop | CfBuckets o r => ExplicitBuckets (Some (bd o)) r end.
Definition vres (v : @view conf) : @view aggregation :=
  View (v_type v) (v_iname v) (v_iunit v) (v_mname v) (v_mversion v) (v_mschema v) (v_name v) (v_descr v) (v_keys v) (resolve (v_agg v)).
Definition rres (rd : @reader conf) : @reader aggregation := RD (rd_temporality rd) (fun k => resolve (rd_aggregation rd k)).

Definition le (hp hp' : heap) : Prop := forall o b, hp o = Some b -> hp' o = Some b.
Definition below (hp : heap) : Prop := forall o b, hp o = Some b -> bd o = b.
Definition HI (hp : heap) : Prop :=
  le settings hp
  /\ forall o b, hp o = Some b -> settings o = Some b
     \/ (settings o = None /\ exists rd i r, P rd i (CfBuckets o r) /\ in_kind (obj i) = IHistogram /\ own_boundaries None (obj i) b).
Lemma le_refl hp : le hp hp. Proof. now intros o b. Qed.
Lemma le_trans a b c : le a b -> le b c -> le a c. Proof. intros X Y o l E. now apply Y, X. Qed.
Lemma below_le a b : le a b -> below b -> below a. Proof. intros X Y o l E. now apply Y, X. Qed.

Lemma agg_for_res rd v i : agg_for obj asks_default (rres rd) (vres v) i = resolve (bagg rd v i).
Proof. unfold agg_for. cbn [v_agg vres rd_aggregation rres]. now destruct (v_agg v). Qed.
Lemma shape_res g i : agg_shape obj (resolve g) i = b_shape obj g i.
Proof. unfold agg_shape, b_shape. destruct g; cbn; try reflexivity. now destruct (in_kind (obj i)). Qed.
Lemma match_res v i : view_match fnmatch scn scv scs obj scope_of (vres v) i = vmatches v i. Proof. reflexivity. Qed.
Lemma compat_res v i : compatible obj asks_explicit (vres v) i = compatible obj cf_explicit v i.
Proof. unfold compatible. cbn [v_agg vres]. now destruct (v_agg v). Qed.

Lemma own_advisory x : in_kind x = IHistogram ->
  own_boundaries None x (match in_adv x with Some (y :: l) => y :: l | _ => DEFAULT_BOUNDARIES end).
Proof.
  intro K. right. split; [reflexivity|]. split; [exact K|]. destruct (in_adv x) as [[|y l]|].
  - right. split; [now right|reflexivity].
  - left. split; [reflexivity|discriminate].
  - right. split; [now left|reflexivity].
Qed.

(** One aggregation is made *)
Lemma create_step rd hp g i attrs start hp1 a : b_create obj hp g i attrs start = (hp1, a) -> P rd i g -> HI hp ->
  le hp hp1 /\ HI hp1 /\ (below hp1 -> a = Some (create1 (resolve g) i attrs start)).
Proof.
  intros E Pg I. unfold b_create in E.
  destruct g as [| | | |o r]; try (injection E as <- <-; split; [apply le_refl|]; split; [exact I|]; reflexivity).
  destruct (hp o) as [b|] eqn:Eo.
  - injection E as <- <-. split; [apply le_refl|]. split; [exact I|]. intro B. cbn. now rewrite (B _ _ Eo).
  - assert (So : settings o = None) by (destruct (settings o) as [b|] eqn:Es; [|reflexivity]; now rewrite (proj1 I _ _ Es) in Eo).
    rewrite (P_hist _ _ _ _ Pg So) in E. injection E as <- <-.
    set (b := match in_adv (obj i) with Some (x :: l) => x :: l | _ => DEFAULT_BOUNDARIES end).
    assert (L : le hp (heap_set o b hp)).
    { intros o' b' E. unfold heap_set. destruct (Nat.eqb_spec o o') as [<-|_]; [congruence|exact E]. }
    split; [exact L|]. split.
    + split; [exact (le_trans _ _ _ (proj1 I) L)|]. intros o' b' E. unfold heap_set in E. destruct (Nat.eqb_spec o o') as [<-|_]; [|now apply (proj2 I)].
      injection E as <-. right. split; [exact So|]. exists rd, i, r. split; [exact Pg|]. pose proof (P_hist _ _ _ _ Pg So) as K. split; [exact K|].
      now apply own_advisory.
    + intro B. cbn. assert (Eb : bd o = b) by (apply B; unfold heap_set; now rewrite Nat.eqb_refl). rewrite Eb.
      now rewrite (P_hist _ _ _ _ Pg So).
Qed.

(** The matches and the storage *)
Definition Rm (rd : @reader conf) (i : N) (m : @vmatch conf agg) (m' : @vmatch aggregation agg) : Prop :=
  vm_view m' = vres (vm_view m) /\ vm_ser m' = vm_ser m /\ P rd i (bagg rd (vm_view m) i).
Definition Re rd (e : N * list (@vmatch conf agg)) (e' : N * list (@vmatch aggregation agg)) : Prop :=
  fst e' = fst e /\ Forall2 (Rm rd (fst e)) (snd e) (snd e').
Definition Rs rd := Forall2 (Re rd).

Lemma handle_step rd i vs : forall hp hp1 r, b_handle fnmatch the_scope obj scope_of rd hp vs i = (hp1, r) ->
  (forall v, In v vs -> vmatches v i && compatible obj cf_explicit v i = true -> P rd i (bagg rd v i)) -> HI hp ->
  le hp hp1 /\ HI hp1
  /\ (below hp1 -> exists ms, r = Some ms
      /\ Forall2 (Rm rd i) ms (handle_views fnmatch scn scv scs obj scope_of asks_explicit (map vres vs) i)).
Proof.
  induction vs as [|v vs IH]; intros hp hp1 r E Pv I; cbn [b_handle] in E.
  { injection E as <- <-. split; [apply le_refl|]. split; [exact I|]. intros _. exists []. split; [reflexivity|constructor]. }
  cbn [map handle_views]. rewrite match_res, compat_res.
  assert (Pv' : forall v0, In v0 vs -> vmatches v0 i && compatible obj cf_explicit v0 i = true -> P rd i (bagg rd v0 i)) by (intros; apply Pv; [now right|assumption]).
  destruct (vmatches v i) eqn:M; cbn [negb] in E |- *; [|exact (IH _ _ _ E Pv' I)].
  destruct (compatible obj cf_explicit v i) eqn:C; cbn [negb] in E |- *; [|exact (IH _ _ _ E Pv' I)].
  assert (Pg : P rd i (bagg rd v i)) by (apply Pv; [now left|now rewrite M, C]).
  destruct (b_create obj hp (bagg rd v i) i [] 0) as [hp2 a] eqn:Ec. destruct (create_step rd _ _ _ _ _ _ _ Ec Pg I) as (L & I2 & Ba).
  destruct a as [a|].
  - destruct (b_handle fnmatch the_scope obj scope_of rd hp2 vs i) as [hp3 r3] eqn:Eh.
    destruct (IH _ _ _ Eh Pv' I2) as (L3 & I3 & B3).
    assert (hp3 = hp1 /\ r = match r3 with None => None | Some ms => Some (VMch v [] :: ms) end) as [-> ->] by (destruct r3; injection E as <- <-; auto).
    split; [exact (le_trans _ _ _ L L3)|]. split; [exact I3|]. intro B. destruct (B3 B) as (ms & -> & F).
    exists (VMch v [] :: ms). split; [reflexivity|]. constructor; [|exact F]. split; [reflexivity|]. split; [reflexivity|exact Pg].
  - injection E as <- <-. split; [exact L|]. split; [exact I2|]. intro B. specialize (Ba B). discriminate.
Qed.

Lemma find_res rd i st st' : Rs rd st st' ->
  match find_matches i st, find_matches i st' with
  | Some ms, Some ms' => Forall2 (Rm rd i) ms ms'
  | None, None => True
  | _, _ => False
  end.
Proof.
  induction 1 as [|[j ms] [j' ms'] st st' [E F] _ IH]; cbn; [exact I|]. cbn in E, F. subst j'. destruct (N.eqb_spec i j) as [->|_]; [exact F|exact IH].
Qed.
Lemma put_res rd i ms ms' st st' : Rs rd st st' -> Forall2 (Rm rd i) ms ms' -> Rs rd (put_matches i ms st) (put_matches i ms' st').
Proof.
  intros R F. induction R as [|[j l] [j' l'] st st' [E G] R IH]; cbn; [constructor|]. cbn in E, G. subst j'.
  destruct (N.eqb_spec i j) as [->|_]; (constructor; [split; [reflexivity|assumption]|]); [exact R|exact IH].
Qed.
Definition Pi rd i := forall v, (In v views /\ vmatches v i && compatible obj cf_explicit v i = true)
  \/ ((forall v', In v' views -> vmatches v' i && compatible obj cf_explicit v' i = false) /\ v = DEFAULT_VIEW CfDefault) -> P rd i (bagg rd v i).

Lemma handle_empty rd i vs : forall hp hp1, b_handle fnmatch the_scope obj scope_of rd hp vs i = (hp1, Some []) ->
  forall v, In v vs -> vmatches v i && compatible obj cf_explicit v i = false.
Proof.
  induction vs as [|v vs IH]; intros hp hp1 E w I; [destruct I|]. cbn [b_handle] in E.
  destruct (vmatches v i) eqn:M; cbn [negb] in E.
  2:{ destruct I as [<-|I]; [now rewrite M|eapply IH; eassumption]. }
  destruct (compatible obj cf_explicit v i) eqn:C; cbn [negb] in E.
  2:{ destruct I as [<-|I]; [now rewrite M, C|eapply IH; eassumption]. }
  destruct (b_create obj hp (bagg rd v i) i [] 0) as [hp2 [a|]]; [|discriminate].
  destruct (b_handle fnmatch the_scope obj scope_of rd hp2 vs i) as [hp3 [ms|]]; discriminate.
Qed.

Lemma init_step rd hp i st hp1 r : b_get_or_init fnmatch the_scope obj scope_of views rd hp i st = (hp1, r) -> Pi rd i -> HI hp ->
  le hp hp1 /\ HI hp1
  /\ (below hp1 -> forall st', Rs rd st st' -> exists st1 ms, r = Some (st1, ms)
      /\ let (st1', ms') := get_or_init fnmatch scn scv scs obj scope_of Default asks_explicit (map vres views) i st' in
         Rs rd st1 st1' /\ Forall2 (Rm rd i) ms ms').
Proof.
  intros E Pv I. unfold b_get_or_init in E. unfold get_or_init.
  destruct (find_matches i st) as [ms|] eqn:F.
  { injection E as <- <-. split; [apply le_refl|]. split; [exact I|]. intros B st' R. pose proof (find_res rd i _ _ R) as X. rewrite F in X.
    destruct (find_matches i st') as [ms'|]; [|destruct X]. exists st, ms. auto. }
  destruct (b_handle fnmatch the_scope obj scope_of rd hp views i) as [hp2 r2] eqn:Eh.
  assert (Pv1 : forall v, In v views -> vmatches v i && compatible obj cf_explicit v i = true -> P rd i (bagg rd v i)) by (intros v X Y; apply Pv; left; auto).
  destruct (handle_step rd i views _ _ _ Eh Pv1 I) as (L & I2 & B2).
  destruct r2 as [[|m ms]|].
  - destruct (b_create obj hp2 (bagg rd (DEFAULT_VIEW CfDefault) i) i [] 0) as [hp3 a] eqn:Ec.
    assert (Pd : P rd i (bagg rd (DEFAULT_VIEW CfDefault) i)).
    { apply Pv. right. split; [|reflexivity]. eapply handle_empty. exact Eh. }
    destruct (create_step rd _ _ _ _ _ _ _ Ec Pd I2) as (L3 & I3 & B3).
    assert (X : hp1 = hp3 /\ (a <> None -> r = Some (st ++ [(i, [VMch (DEFAULT_VIEW CfDefault) []])], [VMch (DEFAULT_VIEW CfDefault) []]))).
    { destruct a; injection E as <- <-; split; congruence. }
    destruct X as [-> Er]. split; [exact (le_trans _ _ _ L L3)|]. split; [exact I3|]. intros B st' R. specialize (B3 B). rewrite Er by congruence.
    destruct (B2 (below_le _ _ L3 B)) as (ms0 & [= <-] & F2).
    assert (EF : handle_views fnmatch scn scv scs obj scope_of asks_explicit (map vres views) i = ([] : list (@vmatch aggregation agg))) by (now inversion F2).
    do 2 eexists. split; [reflexivity|]. pose proof (find_res rd i _ _ R) as X. rewrite F in X. destruct (find_matches i st'); [destruct X|]. rewrite EF. cbn zeta.
    assert (F0 : Forall2 (Rm rd i) [VMch (DEFAULT_VIEW CfDefault) []] [VMch (DEFAULT_VIEW Default) []]).
    { constructor; [|constructor]. split; [reflexivity|]. split; [reflexivity|exact Pd]. }
    split; [|exact F0]. apply Forall2_app; [exact R|]. constructor; [|constructor]. split; [reflexivity|exact F0].
  - injection E as <- <-. split; [exact L|]. split; [exact I2|]. intros B st' R. destruct (B2 B) as (ms0 & [= <-] & F2). do 2 eexists. split; [reflexivity|].
    pose proof (find_res rd i _ _ R) as X. rewrite F in X. destruct (find_matches i st'); [destruct X|].
    destruct (handle_views fnmatch scn scv scs obj scope_of asks_explicit (map vres views) i) as [|m' ms']; [inversion F2|]. cbn zeta. split; [|exact F2].
    apply Forall2_app; [exact R|]. constructor; [|constructor]. split; [reflexivity|exact F2].
  - injection E as <- <-. split; [exact L|]. split; [exact I2|]. intro B. destruct (B2 B) as (ms & [=] & _).
Qed.

Lemma feed_step rd i attrs v now ms : forall hp hp1 ms1 raised, b_feed float_int obj_hash obj rd hp i attrs v now ms = (hp1, (ms1, raised)) -> HI hp ->
  Forall (fun m => P rd i (bagg rd (vm_view m) i)) ms ->
  le hp hp1 /\ HI hp1
  /\ (below hp1 -> forall ms', Forall2 (Rm rd i) ms ms' ->
      let (ms1', raised') := feed float_int obj_hash obj asks_default create1 aggregate (rres rd) i attrs v now ms' in
      raised' = raised /\ Forall2 (Rm rd i) ms1 ms1').
Proof.
  induction ms as [|m ms IH]; intros hp hp1 ms1 raised E I FP; cbn [b_feed] in E.
  { injection E as <- <- <-. split; [apply le_refl|]. split; [exact I|]. intros _ ms' F. inversion F; subst. cbn. split; [reflexivity|constructor]. }
  inversion FP as [|? ? Pm FP']; subst. cbn zeta in E.
  destruct (frozen float_int obj_hash (stream_attrs (v_keys (vm_view m)) attrs)) as [k|] eqn:Fr.
  2:{ injection E as <- <- <-. split; [apply le_refl|]. split; [exact I|]. intros _ ms' F. inversion F as [|? m' ? ms2 (V & S & Pm') F2]; subst. cbn [feed].
      unfold vm_consume. rewrite V. cbn [v_keys vres]. rewrite Fr. split; [reflexivity|]. constructor; [split; auto|exact F2]. }
  set (mk := match find_series k (vm_ser m) with Some _ => _ | None => _ end) in E. destruct mk as [hp2 made] eqn:Em.
  assert (Mk : le hp hp2 /\ HI hp2 /\ (below hp2 -> made = Some (match find_series k (vm_ser m) with Some _ => vm_ser m
      | None => vm_ser m ++ [(k, create1 (resolve (bagg rd (vm_view m) i)) i (stream_attrs (v_keys (vm_view m)) attrs) now)] end))).
  { unfold mk in Em. destruct (find_series k (vm_ser m)).
    - injection Em as <- <-. split; [apply le_refl|]. split; [exact I|reflexivity].
    - destruct (b_create obj hp (bagg rd (vm_view m) i) i (stream_attrs (v_keys (vm_view m)) attrs) now) as [hp3 a] eqn:Ec. injection Em as <- <-.
      destruct (create_step rd _ _ _ _ _ _ _ Ec Pm I) as (L & I3 & B). split; [exact L|]. split; [exact I3|]. intro X. now rewrite (B X). }
  clear Em. clearbody mk. destruct Mk as (L & I2 & Bm). destruct made as [s|].
  - destruct (b_feed float_int obj_hash obj rd hp2 i attrs v now ms) as [hp3 [ms2 raised2]] eqn:Ef. injection E as <- <- <-.
    destruct (IH _ _ _ _ Ef I2 FP') as (L3 & I3 & B3). split; [exact (le_trans _ _ _ L L3)|]. split; [exact I3|].
    intros B ms' F. inversion F as [|? m' ? ms2' (V & S & Pm') F2]; subst. cbn [feed]. specialize (B3 B _ F2). specialize (Bm (below_le _ _ L3 B)). injection Bm as ->.
    unfold vm_consume. rewrite V, S. cbn [v_keys vres]. rewrite Fr. rewrite agg_for_res.
    destruct (feed float_int obj_hash obj asks_default create1 aggregate (rres rd) i attrs v now ms2') as [ms3 raised3]. destruct B3 as [-> B3].
    split; [reflexivity|]. constructor; [|exact B3]. split; [reflexivity|]. split; [reflexivity|exact Pm'].
  - injection E as <- <- <-. split; [exact L|]. split; [exact I2|]. intro B. specialize (Bm B). discriminate.
Qed.

(** What holds without knowing the final boundaries: only instruments with their aggregations are in the storage *)
Definition Ps rd (st : @storage conf agg) : Prop := Forall (fun e => Forall (fun m => P rd (fst e) (bagg rd (vm_view m) (fst e))) (snd e)) st.
Lemma find_P rd i st ms : Ps rd st -> find_matches i st = Some ms -> Forall (fun m => P rd i (bagg rd (vm_view m) i)) ms.
Proof. induction 1 as [|[j l] st X _ IH]; cbn; [discriminate|]. destruct (N.eqb_spec i j) as [->|_]; [intros [= <-]; exact X|exact IH]. Qed.
Lemma put_P rd i ms st : Ps rd st -> Forall (fun m => P rd i (bagg rd (vm_view m) i)) ms -> Ps rd (put_matches i ms st).
Proof. intros R F. induction R as [|[j l] st X R IH]; cbn; [constructor|]. destruct (N.eqb_spec i j) as [->|_]; constructor; auto. Qed.
Lemma handle_P rd i vs : forall hp hp1 ms, b_handle fnmatch the_scope obj scope_of rd hp vs i = (hp1, Some ms) ->
  (forall v, In v vs -> vmatches v i && compatible obj cf_explicit v i = true -> P rd i (bagg rd v i)) ->
  Forall (fun m => P rd i (bagg rd (vm_view m) i)) ms.
Proof.
  induction vs as [|v vs IH]; intros hp hp1 ms E Pv; cbn [b_handle] in E; [injection E as <- <-; constructor|].
  assert (Pv' : forall v0, In v0 vs -> vmatches v0 i && compatible obj cf_explicit v0 i = true -> P rd i (bagg rd v0 i)) by (intros; apply Pv; [now right|assumption]).
  destruct (vmatches v i) eqn:M; cbn [negb] in E; [|exact (IH _ _ _ E Pv')].
  destruct (compatible obj cf_explicit v i) eqn:C; cbn [negb] in E; [|exact (IH _ _ _ E Pv')].
  destruct (b_create obj hp (bagg rd v i) i [] 0) as [hp2 [a|]]; [|discriminate].
  destruct (b_handle fnmatch the_scope obj scope_of rd hp2 vs i) as [hp3 [ms3|]] eqn:Eh; [|discriminate]. injection E as <- <-.
  constructor; [refine (Pv v _ _); [now left|now rewrite M, C]|]. exact (IH _ _ _ Eh Pv').
Qed.
Lemma init_P rd hp i st hp1 st1 ms : b_get_or_init fnmatch the_scope obj scope_of views rd hp i st = (hp1, Some (st1, ms)) -> Pi rd i -> Ps rd st ->
  Ps rd st1 /\ Forall (fun m => P rd i (bagg rd (vm_view m) i)) ms.
Proof.
  intros E Pv X. unfold b_get_or_init in E. destruct (find_matches i st) as [l|] eqn:F.
  { injection E as <- <- <-. split; [exact X|]. eapply find_P; eassumption. }
  assert (Pv1 : forall v, In v views -> vmatches v i && compatible obj cf_explicit v i = true -> P rd i (bagg rd v i)) by (intros v Y Z; apply Pv; left; auto).
  destruct (b_handle fnmatch the_scope obj scope_of rd hp views i) as [hp2 [[|m l]|]] eqn:Eh; [| |discriminate].
  - destruct (b_create obj hp2 (bagg rd (DEFAULT_VIEW CfDefault) i) i [] 0) as [hp3 [a|]]; [|discriminate]. injection E as <- <- <-.
    assert (Y : Forall (fun m : @vmatch conf agg => P rd i (bagg rd (vm_view m) i)) [VMch (DEFAULT_VIEW CfDefault) []]).
    { constructor; [|constructor]. apply Pv. right. split; [|reflexivity]. eapply handle_empty. exact Eh. }
    split; [|exact Y]. apply Forall_app. split; [exact X|]. constructor; [exact Y|constructor].
  - injection E as <- <- <-. pose proof (handle_P rd i _ _ _ _ Eh Pv1) as Y. split; [|exact Y]. apply Forall_app. split; [exact X|]. constructor; [exact Y|constructor].
Qed.
Lemma feed_P rd i attrs v now ms : forall hp hp1 ms1 raised, b_feed float_int obj_hash obj rd hp i attrs v now ms = (hp1, (ms1, raised)) ->
  map vm_view ms1 = map vm_view ms.
Proof.
  induction ms as [|m ms IH]; intros hp hp1 ms1 raised E; cbn [b_feed] in E; [injection E as <- <- <-; reflexivity|]. cbn zeta in E.
  destruct (frozen float_int obj_hash (stream_attrs (v_keys (vm_view m)) attrs)) as [k|]; [|injection E as <- <- <-; reflexivity].
  match type of E with (let (_, _) := ?x in _) = _ => destruct x as [hp2 [s|]] end; [|injection E as <- <- <-; reflexivity].
  destruct (b_feed float_int obj_hash obj rd hp2 i attrs v now ms) as [hp3 [ms2 raised2]] eqn:Ef. injection E as <- <- <-. cbn [map vm_view]. now rewrite (IH _ _ _ _ Ef).
Qed.
Lemma views_P rd i (ms ms1 : list (@vmatch conf agg)) : map vm_view ms1 = map vm_view ms -> Forall (fun m => P rd i (bagg rd (vm_view m) i)) ms ->
  Forall (fun m => P rd i (bagg rd (vm_view m) i)) ms1.
Proof.
  revert ms1. induction ms as [|m ms IH]; intros [|m1 ms1] E F; try discriminate; [constructor|]. cbn in E. injection E as E1 E2. inversion F; subst.
  constructor; [now rewrite E1|now apply IH].
Qed.

Lemma consume_step rd hp i attrs v now st hp1 st1 raised :
  b_consume float_int obj_hash fnmatch the_scope obj scope_of views rd hp i attrs v now st = (hp1, (st1, raised)) -> Pi rd i -> HI hp -> Ps rd st ->
  le hp hp1 /\ HI hp1 /\ Ps rd st1
  /\ (below hp1 -> forall st', Rs rd st st' ->
      let (st1', raised') := st_consume float_int obj_hash fnmatch scn scv scs obj scope_of Default asks_default asks_explicit create1 aggregate (map vres views) (rres rd) i attrs v now st' in
      raised' = raised /\ Rs rd st1 st1').
Proof.
  intros E Pv I X. unfold b_consume in E. destruct (b_get_or_init fnmatch the_scope obj scope_of views rd hp i st) as [hp2 r] eqn:Ei.
  destruct (init_step rd hp i st hp2 r Ei Pv I) as (L2 & I2 & B2).
  destruct r as [[st2 ms]|].
  - destruct (init_P rd _ _ _ _ _ _ Ei Pv X) as [X2 F2].
    destruct (b_feed float_int obj_hash obj rd hp2 i attrs v now ms) as [hp3 [ms3 raised3]] eqn:Ef. injection E as <- <- <-.
    destruct (feed_step rd i attrs v now ms _ _ _ _ Ef I2 F2) as (L3 & I3 & B3).
    split; [exact (le_trans _ _ _ L2 L3)|]. split; [exact I3|]. split.
    { apply put_P; [exact X2|]. eapply views_P; [exact (feed_P rd i attrs v now ms _ _ _ _ Ef)|exact F2]. }
    intros B st' R. destruct (B2 (below_le _ _ L3 B) st' R) as (st2' & ms' & [= <- <-] & Y).
    unfold st_consume. destruct (get_or_init fnmatch scn scv scs obj scope_of Default asks_explicit (map vres views) i st') as [st4 ms4]. destruct Y as [Y1 Y2].
    specialize (B3 B _ Y2). destruct (feed float_int obj_hash obj asks_default create1 aggregate (rres rd) i attrs v now ms4) as [ms5 raised5]. destruct B3 as [-> B3].
    split; [reflexivity|]. now apply put_res.
  - injection E as <- <- <-. split; [exact L2|]. split; [exact I2|]. split; [exact X|]. intros B st' R. destruct (B2 B st' R) as (? & ? & [=] & _).
Qed.
Lemma observe_step rd obs now : forall hp st hp1 st1 raised,
  b_observe float_int obj_hash fnmatch the_scope obj scope_of views rd hp obs now st = (hp1, (st1, raised)) ->
  (forall i a z, In (i, a, z) obs -> Pi rd i) -> HI hp -> Ps rd st ->
  le hp hp1 /\ HI hp1 /\ Ps rd st1
  /\ (below hp1 -> forall st', Rs rd st st' ->
      let (st1', raised') := observe float_int obj_hash fnmatch scn scv scs obj scope_of Default asks_default asks_explicit create1 aggregate (map vres views) (rres rd) obs now st' in
      raised' = raised /\ Rs rd st1 st1').
Proof.
  induction obs as [|[[i a] z] obs IH]; intros hp st hp1 st1 raised E Pv I X; cbn [b_observe] in E.
  { injection E as <- <- <-. split; [apply le_refl|]. split; [exact I|]. split; [exact X|]. intros _ st' R. cbn. auto. }
  destruct (b_consume float_int obj_hash fnmatch the_scope obj scope_of views rd hp i a z now st) as [hp2 [st2 r2]] eqn:Ec.
  destruct (consume_step rd _ _ _ _ _ _ _ _ _ Ec (Pv i a z (or_introl eq_refl)) I X) as (L & I2 & X2 & B2).
  destruct r2.
  - injection E as <- <- <-. split; [exact L|]. split; [exact I2|]. split; [exact X2|]. intros B st' R. cbn [observe]. specialize (B2 B st' R).
    destruct (st_consume float_int obj_hash fnmatch scn scv scs obj scope_of Default asks_default asks_explicit create1 aggregate (map vres views) (rres rd) i a z now st') as [st3 r3].
    destruct B2 as [-> B2]. auto.
  - destruct (IH _ _ _ _ _ E (fun j b y J => Pv j b y (or_intror J)) I2 X2) as (L3 & I3 & X3 & B3).
    split; [exact (le_trans _ _ _ L L3)|]. split; [exact I3|]. split; [exact X3|]. intros B st' R. cbn [observe]. specialize (B2 (below_le _ _ L3 B) st' R).
    destruct (st_consume float_int obj_hash fnmatch scn scv scs obj scope_of Default asks_default asks_explicit create1 aggregate (map vres views) (rres rd) i a z now st') as [st3 r3].
    destruct B2 as [-> B2]. exact (B3 B _ B2).
Qed.
Lemma consume_all_step i attrs v now rs : forall hp cs hp1 cs1 raised,
  b_consume_all float_int obj_hash fnmatch the_scope obj scope_of views hp rs i attrs v now cs = (hp1, (cs1, raised)) ->
  (forall rd, In rd rs -> Pi rd i) -> HI hp -> Forall2 Ps rs cs ->
  le hp hp1 /\ HI hp1 /\ Forall2 Ps rs cs1
  /\ (below hp1 -> forall cs', Forall2 (fun rd p => Rs rd (fst p) (snd p)) rs (combine cs cs') -> length cs' = length cs ->
      let (cs1', raised') := consume_all float_int obj_hash fnmatch scn scv scs obj scope_of Default asks_default asks_explicit create1 aggregate (map vres views) (map rres rs) i attrs v now cs' in
      raised' = raised /\ Forall2 (fun rd p => Rs rd (fst p) (snd p)) rs (combine cs1 cs1') /\ length cs1' = length cs1).
Proof.
  induction rs as [|rd rs IH]; intros hp cs hp1 cs1 raised E Pv I X; inversion X as [|? st ? cs0 X0 X1]; subst; cbn [b_consume_all] in E.
  { injection E as <- <- <-. split; [apply le_refl|]. split; [exact I|]. split; [constructor|]. intros _ [|] F Len; [|discriminate]. cbn. auto. }
  destruct (b_consume float_int obj_hash fnmatch the_scope obj scope_of views rd hp i attrs v now st) as [hp2 [st2 r2]] eqn:Ec.
  destruct (consume_step rd _ _ _ _ _ _ _ _ _ Ec (Pv rd (or_introl eq_refl)) I X0) as (L & I2 & X2 & B2).
  destruct r2.
  - injection E as <- <- <-. split; [exact L|]. split; [exact I2|]. split; [constructor; assumption|]. intros B [|st' cs'] F Len; [discriminate|].
    cbn [combine] in F. inversion F as [|? ? ? ? F1 F2]; subst. cbn [fst snd] in F1. cbn [map consume_all]. specialize (B2 B st' F1).
    destruct (st_consume float_int obj_hash fnmatch scn scv scs obj scope_of Default asks_default asks_explicit create1 aggregate (map vres views) (rres rd) i attrs v now st') as [st3 r3].
    destruct B2 as [-> B2]. split; [reflexivity|]. split; [constructor; assumption|exact Len].
  - destruct (b_consume_all float_int obj_hash fnmatch the_scope obj scope_of views hp2 rs i attrs v now cs0) as [hp3 [cs3 r3]] eqn:Ea. injection E as <- <- <-.
    destruct (IH _ _ _ _ _ Ea (fun rd' J => Pv rd' (or_intror J)) I2 X1) as (L3 & I3 & X3 & B3).
    split; [exact (le_trans _ _ _ L L3)|]. split; [exact I3|]. split; [constructor; assumption|]. intros B [|st' cs'] F Len; [discriminate|].
    cbn [combine] in F. inversion F as [|? ? ? ? F1 F2]; subst. cbn [fst snd] in F1. cbn [map consume_all]. specialize (B2 (below_le _ _ L3 B) st' F1).
    destruct (st_consume float_int obj_hash fnmatch scn scv scs obj scope_of Default asks_default asks_explicit create1 aggregate (map vres views) (rres rd) i attrs v now st') as [st4 r4].
    destruct B2 as [-> B2]. specialize (B3 B cs' F2 (f_equal pred Len)).
    destruct (consume_all float_int obj_hash fnmatch scn scv scs obj scope_of Default asks_default asks_explicit create1 aggregate (map vres views) (map rres rs) i attrs v now cs') as [cs4 r5].
    destruct B3 as (-> & B3 & B4). split; [reflexivity|]. split; [constructor; assumption|]. cbn. now rewrite B4.
Qed.

(** Collecting *)
Lemma matches_collect rd i now ms : forall ms', Forall2 (Rm rd i) ms ms' ->
  let (ms1, l) := collect_matches obj cf_default (fun t a now => collect a t now) (b_shape obj) rd i now ms in
  let (ms1', l') := collect_matches obj asks_default (fun t a now => collect a t now) (agg_shape obj) (rres rd) i now ms' in
  l' = l /\ Forall2 (Rm rd i) ms1 ms1'.
Proof.
  induction ms as [|m ms IH]; intros ms' F; inversion F as [|? m' ? ms2 (V & S & Pm) F2]; subst; cbn [collect_matches]; [auto|].
  specialize (IH _ F2). rewrite V, S, agg_for_res, shape_res. cbn [rd_temporality rres v_name v_descr vres].
  destruct (vm_collect (fun a now => collect a (rd_temporality rd (in_kind (obj i))) now) (vm_ser m) now) as [s pts].
  destruct (collect_matches obj cf_default _ (b_shape obj) rd i now ms) as [ms1 l]. destruct (collect_matches obj asks_default _ (agg_shape obj) (rres rd) i now ms2) as [ms1' l'].
  destruct IH as [-> IH]. split; [reflexivity|]. constructor; [|exact IH]. split; [reflexivity|]. split; [reflexivity|exact Pm].
Qed.
Lemma collect_res rd now st : forall st' out, Rs rd st st' ->
  let (st1, o) := st_collect obj scope_of cf_default (fun t a now => collect a t now) (b_shape obj) rd now st out in
  let (st1', o') := st_collect obj scope_of asks_default (fun t a now => collect a t now) (agg_shape obj) (rres rd) now st' out in
  o' = o /\ Rs rd st1 st1'.
Proof.
  induction st as [|[i ms] st IH]; intros st' out R; inversion R as [|? [i' ms'] ? st2 [E F] R2]; subst; cbn [st_collect]; [split; [reflexivity|constructor]|].
  cbn [fst snd] in E, F. subst i'. pose proof (matches_collect rd i now _ _ F) as X.
  destruct (collect_matches obj cf_default _ (b_shape obj) rd i now ms) as [ms1 l]. destruct (collect_matches obj asks_default _ (agg_shape obj) (rres rd) i now ms') as [ms1' l'].
  destruct X as [-> X]. specialize (IH st2 (add_metrics (scope_of i) l out) R2).
  destruct (st_collect obj scope_of cf_default _ (b_shape obj) rd now st _) as [st3 o3]. destruct (st_collect obj scope_of asks_default _ (agg_shape obj) (rres rd) now st2 _) as [st3' o3'].
  destruct IH as [-> IH]. split; [reflexivity|]. constructor; [|exact IH]. split; [reflexivity|exact X].
Qed.
Lemma matches_P rd i now (ms : list (@vmatch conf agg)) :
  map vm_view (fst (collect_matches obj cf_default (fun t a now => collect a t now) (b_shape obj) rd i now ms)) = map vm_view ms.
Proof.
  induction ms as [|m ms IH]; cbn [collect_matches]; [reflexivity|].
  destruct (vm_collect (fun a now => collect a (rd_temporality rd (in_kind (obj i))) now) (vm_ser m) now) as [s pts].
  destruct (collect_matches obj cf_default _ (b_shape obj) rd i now ms) as [ms1 l]. cbn [fst map vm_view] in *. now rewrite IH.
Qed.
Lemma collect_P rd now st : forall out, Ps rd st -> Ps rd (fst (st_collect obj scope_of cf_default (fun t a now => collect a t now) (b_shape obj) rd now st out)).
Proof.
  induction st as [|[i ms] st IH]; intros out X; cbn [st_collect]; [exact X|]. inversion X as [|? ? X0 X1]; subst.
  pose proof (matches_P rd i now ms) as E. destruct (collect_matches obj cf_default _ (b_shape obj) rd i now ms) as [ms1 l]. cbn [fst] in E.
  specialize (IH (add_metrics (scope_of i) l out) X1). destruct (st_collect obj scope_of cf_default _ (b_shape obj) rd now st _) as [st3 o3]. cbn [fst] in IH |- *.
  constructor; [|exact IH]. cbn [fst snd] in X0 |- *. eapply views_P; eassumption.
Qed.

(** A history *)
Variable readers : list (@reader conf).
Definition op_ok (o : cop) : Prop :=
  match o with
  | CMeasure i _ _ _ => forall rd, In rd readers -> Pi rd i
  | CCollect r obs _ _ => forall rd i a z, nth_error readers r = Some rd -> In (i, a, z) obs -> Pi rd i
  end.
Notation bstep := (b_step float_int obj_hash fnmatch the_scope obj scope_of views readers).
Notation pstep := (cstep float_int obj_hash fnmatch scn scv scs obj scope_of Default asks_default asks_explicit create1 aggregate (fun t a now => collect a t now) (agg_shape obj) (map vres views) (map rres readers)).
Definition Rc (cs : @consumer conf agg) (cs' : @consumer aggregation agg) : Prop :=
  Forall2 (fun rd p => Rs rd (fst p) (snd p)) readers (combine cs cs') /\ length cs' = length cs.
Lemma nth_Rc rs : forall (cs : @consumer conf agg) (cs' : @consumer aggregation agg) r rd, Forall2 (fun rd p => Rs rd (fst p) (snd p)) rs (combine cs cs') -> length cs' = length cs ->
  nth_error rs r = Some rd -> forall st, nth_error cs r = Some st -> exists st', nth_error cs' r = Some st' /\ Rs rd st st'
  /\ forall s s', Rs rd s s' -> Forall2 (fun rd p => Rs rd (fst p) (snd p)) rs (combine (set_nth r s cs) (set_nth r s' cs')).
Proof.
  induction rs as [|rd0 rs IH]; intros cs cs' r rd F Len E st Es; [destruct r; discriminate|].
  destruct cs as [|c cs]; [destruct r; discriminate|]. destruct cs' as [|c' cs']; [discriminate|]. cbn [combine] in F. inversion F as [|? ? ? ? F1 F2]; subst.
  destruct r as [|r]; cbn [nth_error] in E, Es.
  - injection E as ->. injection Es as ->. exists c'. split; [reflexivity|]. split; [exact F1|]. intros s s' R. cbn. constructor; assumption.
  - destruct (IH cs cs' r rd F2 (f_equal pred Len) E st Es) as (st' & A & B & C). exists st'. split; [exact A|]. split; [exact B|]. intros s s' R. cbn. constructor; [exact F1|]. now apply C.
Qed.
Lemma set_nth_length {B} r (x : B) l : length (set_nth r x l) = length l.
Proof. revert r. induction l as [|y l IH]; intros [|r]; cbn; auto. Qed.
Lemma nth_Ps rs : forall cs r rd st, Forall2 Ps rs cs -> nth_error rs r = Some rd -> nth_error cs r = Some st -> Ps rd st /\ forall s, Ps rd s -> Forall2 Ps rs (set_nth r s cs).
Proof.
  induction rs as [|rd0 rs IH]; intros cs r rd st F E Es; inversion F; subst; [destruct r; discriminate|]. destruct r as [|r]; cbn [nth_error] in E, Es.
  - injection E as ->. injection Es as ->. split; [assumption|]. intros s R. cbn. constructor; assumption.
  - destruct (IH _ _ _ _ H3 E Es) as [A B]. split; [exact A|]. intros s R. cbn. constructor; auto.
Qed.
Lemma run_step o hp cs hp1 cs1 out : bstep (hp, cs) o = ((hp1, cs1), out) -> op_ok o -> HI hp -> Forall2 Ps readers cs ->
  le hp hp1 /\ HI hp1 /\ Forall2 Ps readers cs1
  /\ (below hp1 -> forall cs', Rc cs cs' -> let (cs1', out') := pstep cs' o in out' = out /\ Rc cs1 cs1').
Proof.
  intros E OK I X. destruct o as [i attrs v now|r obs timeout now]; cbn [b_step] in E.
  - destruct (b_consume_all float_int obj_hash fnmatch the_scope obj scope_of views hp readers i attrs v now cs) as [hp2 [cs2 raised]] eqn:Ea. injection E as <- <- <-.
    destruct (consume_all_step i attrs v now readers _ _ _ _ _ Ea OK I X) as (L & I2 & X2 & B2). split; [exact L|]. split; [exact I2|]. split; [exact X2|].
    intros B cs' [R Len]. cbn [cstep]. specialize (B2 B cs' R Len).
    destruct (consume_all float_int obj_hash fnmatch scn scv scs obj scope_of Default asks_default asks_explicit create1 aggregate (map vres views) (map rres readers) i attrs v now cs') as [cs3 r3].
    destruct B2 as (-> & B2 & B3). split; [reflexivity|]. split; assumption.
  - assert (Leng : length readers = length cs) by (clear - X; induction X; cbn; congruence).
    destruct (nth_error readers r) as [rd|] eqn:Er.
    2:{ injection E as <- <- <-. split; [apply le_refl|]. split; [exact I|]. split; [exact X|]. intros _ cs' R. cbn [cstep]. rewrite nth_error_map, Er. cbn. auto. }
    destruct (nth_error cs r) as [st|] eqn:Ec.
    2:{ exfalso. apply nth_error_None in Ec. assert (r < length readers)%nat by (apply nth_error_Some; congruence). lia. }
    destruct (nth_Ps readers cs r rd st X Er Ec) as [X0 X1].
    destruct (b_observe float_int obj_hash fnmatch the_scope obj scope_of views rd hp obs now st) as [hp2 [st2 raised]] eqn:Eo.
    destruct (observe_step rd obs now _ _ _ _ _ Eo (fun i a z J => OK rd i a z Er J) I X0) as (L & I2 & X2 & B2).
    destruct (raised || timeout) eqn:RT.
    + injection E as <- <- <-. split; [exact L|]. split; [exact I2|]. split; [now apply X1|]. intros B cs' [R Len]. destruct (nth_Rc readers cs cs' r rd R Len Er st Ec) as (st' & Es & Rst & K).
      cbn [cstep]. rewrite nth_error_map, Er, Es. cbn [option_map]. specialize (B2 B st' Rst).
      destruct (observe float_int obj_hash fnmatch scn scv scs obj scope_of Default asks_default asks_explicit create1 aggregate (map vres views) (rres rd) obs now st') as [st3 r3].
      destruct B2 as [-> B2]. rewrite RT. split; [reflexivity|]. split; [now apply K|]. now rewrite !set_nth_length.
    + pose proof (collect_P rd now st2 [] X2) as X3. pose proof (fun st' => collect_res rd now st2 st' []) as CR.
      destruct (st_collect obj scope_of cf_default (fun t a now => collect a t now) (b_shape obj) rd now st2 []) as [st4 o4] eqn:Es4. injection E as <- <- <-.
      split; [exact L|]. split; [exact I2|]. split; [now apply X1|]. intros B cs' [R Len]. destruct (nth_Rc readers cs cs' r rd R Len Er st Ec) as (st' & Es & Rst & K).
      cbn [cstep]. rewrite nth_error_map, Er, Es. cbn [option_map]. specialize (B2 B st' Rst).
      destruct (observe float_int obj_hash fnmatch scn scv scs obj scope_of Default asks_default asks_explicit create1 aggregate (map vres views) (rres rd) obs now st') as [st3 r3].
      destruct B2 as [-> B2]. rewrite RT. specialize (CR st3 B2).
      destruct (st_collect obj scope_of asks_default (fun t a now => collect a t now) (agg_shape obj) (rres rd) now st3 []) as [st5 o5]. destruct CR as [-> CR].
      split; [reflexivity|]. split; [now apply K|]. now rewrite !set_nth_length.
Qed.
Lemma run_steps h : Forall op_ok h -> forall hp cs outs hp1 cs1 outs1,
  fold_left (fun s o => let (s', out) := bstep (fst s) o in (s', snd s ++ [out])) h ((hp, cs), outs) = ((hp1, cs1), outs1) -> HI hp -> Forall2 Ps readers cs ->
  le hp hp1 /\ HI hp1
  /\ (below hp1 -> forall cs', Rc cs cs' -> snd (fold_left (fun s o => let (s', out) := pstep (fst s) o in (s', snd s ++ [out])) h (cs', outs)) = outs1).
Proof.
  induction 1 as [|o h OK _ IH]; intros hp cs outs hp1 cs1 outs1 E I X; cbn [fold_left] in E |- *.
  { injection E as <- <- <-. split; [apply le_refl|]. split; [exact I|]. reflexivity. }
  cbn [fst snd] in E |- *. destruct (bstep (hp, cs) o) as [[hp2 cs2] out] eqn:Eb.
  destruct (run_step o _ _ _ _ _ Eb OK I X) as (L & I2 & X2 & B2). destruct (IH _ _ _ _ _ _ E I2 X2) as (L3 & I3 & B3).
  split; [exact (le_trans _ _ _ L L3)|]. split; [exact I3|]. intros B cs' R. specialize (B2 (below_le _ _ L3 B) cs' R). cbn [fst snd]. destruct (pstep cs' o) as [cs3 out3].
  destruct B2 as [-> B2]. now apply B3.
Qed.
End B.

(** The whole program *)
Section W.
Variable float_int : Z -> option Z.
Variable obj_hash : N -> bool.
Variable fnmatch : str -> str -> bool.
Context {Scope : Type} `{ES : EqDec Scope}.
Variable the_scope : Scope -> scope.
Variable obj : N -> instr.
Variable scope_of : N -> Scope.
Variable views : list (@view conf).
Variable readers : list (@reader conf).
Variable settings : heap.
Notation scn := (fun s => sco_name (the_scope s)).
Notation scv := (fun s => sco_version (the_scope s)).
Notation scs := (fun s => sco_schema (the_scope s)).
Notation relies := (relies_on fnmatch the_scope obj scope_of views readers).
Notation seen := (b_seen_through fnmatch the_scope obj scope_of views).

Definition canP (h : list pcall) (rd : @reader conf) (i : N) (g : conf) : Prop :=
  uses h i /\ In rd readers /\ exists v, seen i v /\ b_asked obj rd i v g.
Lemma agg_asked rd v i : b_asked obj rd i v (agg_for obj cf_default rd v i).
Proof. unfold b_asked, agg_for. destruct (v_agg v); cbn; auto; left; split; congruence. Qed.
Lemma explicit_names g : cf_explicit g = names_buckets g. Proof. now destruct g. Qed.
Lemma applies_b v i : view_match fnmatch scn scv scs obj scope_of v i && compatible obj cf_explicit v i = true
  <-> applies fnmatch scn scv scs obj scope_of names_buckets i v.
Proof.
  rewrite <- (view_match_spec fnmatch scn scv scs obj scope_of names_buckets v i). unfold compatible. rewrite explicit_names. reflexivity.
Qed.
Lemma seen_b rd i v : (In v views /\ view_match fnmatch scn scv scs obj scope_of v i && compatible obj cf_explicit v i = true)
   \/ ((forall v', In v' views -> view_match fnmatch scn scv scs obj scope_of v' i && compatible obj cf_explicit v' i = false) /\ v = DEFAULT_VIEW CfDefault) ->
  seen i v /\ b_asked obj rd i v (agg_for obj cf_default rd v i).
Proof.
  intros X. split; [|apply agg_asked]. destruct X as [[I A]|[N ->]].
  - left. split; [exact I|]. now apply applies_b.
  - right. split; [|auto]. intros v' I A. apply applies_b in A. rewrite (N v' I) in A. discriminate.
Qed.
Lemma ops_ok h : Forall (op_ok fnmatch the_scope obj scope_of views (canP h) readers) (flat_map (pcall_ops obj) h).
Proof.
  apply Forall_forall. intros o I. apply in_flat_map in I as (c & Ic & Io). destruct c as [i attrs z now|r obs t now]; cbn [pcall_ops] in Io.
  - destruct (offered (in_kind (obj i)) z) as [w|]; [|destruct Io]. destruct Io as [<-|[]]. intros rd Ird v X. split; [left; eauto|]. split; [exact Ird|].
    exists v. now apply seen_b.
  - destruct Io as [<-|[]]. intros rd i a z E J v X. split; [right; do 6 eexists; eauto|]. split; [eapply nth_error_In; eauto|]. exists v. now apply seen_b.
Qed.
Notation bout := (b_output float_int obj_hash fnmatch the_scope obj scope_of views readers settings).
Theorem refines h before (fallback : list Z) : only_histograms fnmatch the_scope obj scope_of views readers settings h ->
  exists bd : nat -> list Z,
    bout before h = output_after float_int obj_hash fnmatch the_scope obj scope_of (map (vres bd) views) (map (rres bd) readers) before h
    /\ forall o, bd o = fallback \/ settings o = Some (bd o) \/ (settings o = None /\ exists j, relies h j o /\ own_boundaries None (obj j) (bd o)).
Proof.
  intro OH. destruct (b_run float_int obj_hash fnmatch the_scope obj scope_of views readers settings h) as [[hpf csf] outs] eqn:E.
  pose (bd := fun o => match hpf o with Some b => b | None => fallback end). exists bd.
  assert (PH : forall rd i o r, canP h rd i (CfBuckets o r) -> settings o = None -> in_kind (obj i) = IHistogram).
  { intros rd i o r (U & I & v & S & A). apply OH. split; [exact U|]. exists rd, v, r. auto. }
  assert (I0 : HI obj settings (canP h) settings) by (split; [apply le_refl|]; intros o b Eo; now left).
  assert (X0 : Forall2 (Ps obj (canP h)) readers (consumer_init readers)).
  { unfold consumer_init. clear. induction readers; constructor; auto. constructor. }
  unfold b_run in E.
  destruct (run_steps float_int obj_hash fnmatch the_scope obj scope_of views settings (canP h) PH bd readers _ (ops_ok h) _ _ _ _ _ _ E I0 X0) as (L & I1 & B).
  split.
  - unfold b_output, output_after, b_run, sdk_run, crun. rewrite E. cbn [snd]. rewrite B.
    + reflexivity.
    + intros o b Eo. unfold bd. now rewrite Eo.
    + split; [|unfold consumer_init; now rewrite !map_length]. unfold consumer_init. clear. induction readers; constructor; auto. constructor.
  - intro o. unfold bd. destruct (hpf o) as [b|] eqn:Eo; [|now left]. right. destruct (proj2 I1 _ _ Eo) as [S|(S & rd & j & r & (U & Ird & v & Sv & A) & K & Ow)]; [now left|].
    right. split; [exact S|]. exists j. split; [|exact Ow]. split; [exact U|]. exists rd, v, r. auto.
Qed.

Lemma gets_uses r i part m : In m (gets obj r i part) -> uses part i.
Proof.
  intro I. apply in_flat_map in I as (c & Ic & Im). destruct c as [j attrs z now|r' obs t now]; cbn [measured_in] in Im.
  - destruct (N.eqb_spec j i) as [->|_]; [|destruct Im]. left. eauto.
  - destruct (Nat.eqb r' r); [|destruct Im]. apply in_flat_map in Im as ([[j a] z] & Iob & Im). destruct (N.eqb_spec j i) as [->|_]; [|destruct Im]. right. do 6 eexists. eauto.
Qed.
Lemma uses_incl h h' i : incl h h' -> uses h i -> uses h' i.
Proof. intros S [(a & z & n & I)|(r & obs & t & n & a & z & I & J)]; [left|right; do 6 eexists; eauto]. do 3 eexists. eauto. Qed.
Lemma seen_res bd i v : seen i v -> seen_through fnmatch the_scope obj scope_of (map (vres bd) views) i (vres bd v).
Proof.
  assert (AP : forall w, applies fnmatch scn scv scs obj scope_of names_buckets i w <-> applies fnmatch scn scv scs obj scope_of asks_explicit i (vres bd w)).
  { intro w. rewrite <- applies_b, <- (view_match_spec fnmatch scn scv scs obj scope_of asks_explicit (vres bd w) i), compat_res. reflexivity. }
  intros [[I A]|(N & A1 & A2 & A3 & A4)].
  - left. split; [now apply in_map|]. now apply AP.
  - right. split; [|cbn; rewrite A1, A2, A3, A4; auto]. intros v' I' A. apply in_map_iff in I' as (w & <- & Iw). apply (N w Iw). now apply AP.
Qed.
Lemma asked_res bd rd i v g : b_asked obj rd i v g -> asked obj (rres bd rd) i (vres bd v) (resolve bd g).
Proof.
  intros [[A ->]|[A ->]]; [left|right]; cbn [v_agg vres rd_aggregation rres].
  - split; [|reflexivity]. destruct (v_agg v); cbn; congruence.
  - rewrite A. auto.
Qed.

Variable infty : bool -> Z.
Variable to_float : Z -> option Z.
Theorem boundaries_in h r obs now h' rd i v g h0 part bounds extremes :
  seen i v -> b_asked obj rd i v g -> nth_error readers r = Some rd ->
  Forall (api_call float_int obj_hash obj) (h ++ PCollect r obs false now :: h') ->
  (forall s, scope_ok (Some (the_scope s))) ->
  (forall s s', python_equal_scopes float_int (Some (the_scope s)) (Some (the_scope s')) -> s = s') ->
  only_histograms fnmatch the_scope obj scope_of views readers settings (h ++ PCollect r obs false now :: h') ->
  agrees_with_others fnmatch the_scope obj scope_of views readers settings (h ++ PCollect r obs false now :: h') i ->
  synchronous (in_kind (obj i)) = true -> should_have settings (obj i) g bounds extremes -> sorted bounds ->
  covers (rd_temporality rd (in_kind (obj i))) r h h0 part -> (exists m, In m (gets obj r i part)) ->
  exists out, bout h (h ++ PCollect r obs false now :: h') = Some (CMetrics r out)
    /\ forall res req, otlp_request float_int the_scope infty to_float res out = Some req ->
       exists pts reps,
         b_metric_in the_scope obj scope_of res i v req (PbHistogram pts (temporality_code (rd_temporality rd (in_kind (obj i)))))
         /\ each_attrs float_int obj_hash (v_keys v) (gets obj r i part) reps
         /\ Forall2 (fun a p => exists l s, Spec_Streams.with_attrs float_int obj_hash (v_keys v) a (gets obj r i part) l
              /\ interval_start float_int obj_hash obj (v_keys v) r i a h0 (gets obj r i part) s
              /\ histogram_is (v_keys v) infty to_float bounds extremes now a s l p) reps pts.
Proof.
  intros Sv As Nr Api Ok Inj OH AG SY SH So CV NE.
  destruct (refines _ h bounds OH) as (bd & Eo & Bd).
  assert (U : uses (h ++ PCollect r obs false now :: h') i).
  { destruct NE as (m & I). apply gets_uses in I. eapply uses_incl; [|exact I]. intros c Ic. apply in_or_app. left.
    rewrite (Proof_Pipeline.covers_app _ _ _ _ _ CV). apply in_or_app. now right. }
  assert (GH : gives_histogram (obj i) (resolve bd g) bounds extremes).
  { destruct SH as [(o & -> & Ow)|(-> & K)]; [left|right; split; [reflexivity|exact K]]. cbn. do 2 f_equal.
    assert (Ri : relies (h ++ PCollect r obs false now :: h') i o).
    { split; [exact U|]. exists rd, v, extremes. split; [eapply nth_error_In; eauto|auto]. }
    destruct (Bd o) as [->|[S|(S & j & Rj & Oj)]]; [reflexivity| |].
    - destruct Ow as [S'|(S' & _)]; congruence.
    - symmetry. apply (AG o j bounds (bd o) Ri Rj Ow). now rewrite S. }
  rewrite Eo.
  exact (histograms_in float_int obj_hash obj fnmatch the_scope scope_of (map (vres bd) views) (map (rres bd) readers) infty to_float h r obs now h' (rres bd rd) i (vres bd v)
    (resolve bd g) h0 part (seen_res bd i v Sv) (asked_res bd rd i v g As) (map_nth_error (rres bd) r readers Nr) Api Ok Inj bounds extremes SY GH So CV NE).
Qed.
End W.
