(** Proofs about exemplars in the pipeline. *)
From Verif Require Import Proof_Exemplar Proof_Sampled Proof_Streams Proof_Pipeline Proof_ExpPipeline Spec_ExemplarPipeline.
From Verif Require Import Proof_Metrics Proof_View Proof_Storage.
From Verif Require Import Spec_ExemplarPipeline Model_Exemplar Spec_Exemplar.
From Coq Require Import Lia.
Local Open Scope Z_scope.

(** ** One stream *)
Definition agg_empty (a : agg) : Prop :=
  match a with AgSum a => sa_value a = None | AgLast a => la_value a = None | AgHist a => ha_value a = None | AgDrop => True end.
Definition agg_good (a : agg) : Prop := match a with AgHist a => is_delta (ha_instr a) = true | AgDrop => False | _ => True end.
Definition agg_attrs (a : agg) : mattrs := match a with AgSum a => sa_attrs a | AgLast a => la_attrs a | AgHist a => ha_attrs a | AgDrop => [] end.
Definition agg_kind (a : agg) : option (list Z) := match a with AgHist a => Some (ha_bounds a) | _ => None end.
(** Reports old attributes too *)
Definition agg_old (t : temporality) (a : agg) : bool :=
  negb (is_delta t) && match a with AgSum a => is_delta (sa_instr a) | AgHist a => is_delta (ha_instr a) | _ => false end.
Definition point_fits (a : agg) (p : point) : Prop :=
  match p with
  | NumberPoint p => np_attrs p = agg_attrs a /\ agg_kind a = None
  | HistogramPoint p => hp_attrs p = agg_attrs a /\ agg_kind a = Some (hp_bounds p)
  end.
Definition agg_same (a b : agg) : Prop :=
  agg_attrs a = agg_attrs b /\ agg_kind a = agg_kind b /\ (forall t, agg_old t a = agg_old t b) /\ (agg_good a -> agg_good b).

Lemma aggregate_facts a v : agg_good a -> ~ agg_empty (aggregate a v) /\ agg_same a (aggregate a v).
Proof. destruct a; cbn; intros G; try contradiction; (split; [discriminate|]); repeat split; auto. Qed.
Lemma collect_facts a t now : agg_good a -> let r := collect a t now in
  agg_empty (fst r) /\ agg_same a (fst r)
  /\ match snd r with
     | Some p => point_fits a p /\ (agg_empty a -> agg_old t a = true)
     | None => agg_empty a /\ agg_old t a = false
     end.
Proof.
  destruct a as [a|a|a|]; intros G; [| | |destruct G].
  - cbn -[is_delta]. unfold sum_collect, agg_same, agg_old, agg_good, agg_attrs, agg_kind, point_fits, agg_empty.
    destruct (is_delta (sa_instr a)) eqn:E1, (is_delta t) eqn:E2, (sa_value a) eqn:E3; cbn -[is_delta]; rewrite ?E1, ?E2, ?E3; cbn -[is_delta]; repeat split; auto; try discriminate; intro; rewrite ?E1; reflexivity.
  - cbn -[is_delta]. unfold last_collect, agg_same, agg_old, agg_good, agg_attrs, agg_kind, point_fits, agg_empty.
    destruct (la_value a) eqn:E; cbn -[is_delta]; rewrite ?E, ?andb_false_r; repeat split; auto; discriminate.
  - cbn -[is_delta]. unfold hist_collect, agg_same, agg_old, agg_good, agg_attrs, agg_kind, point_fits, agg_empty. cbn in G. rewrite G.
    destruct (is_delta t) eqn:E2, (ha_value a) eqn:E3; cbn -[is_delta]; rewrite ?G; cbn -[is_delta]; repeat split; auto; try discriminate; intro; rewrite ?G; reflexivity.
Qed.

Section Stream.
Variable the_call : N -> mcall.
Variable f : efilter.
Variable t : temporality.
Notation e_aggregate := (e_aggregate the_call f).
Notation e_collect := (e_collect t).
Notation run := (run_alone e_aggregate e_collect).
Definition meas_no (k : Z) : meas := measurement_of (the_call (Z.to_N k)).

(** A reservoir in which nothing was offered since it was collected *)
Definition clean (r : reservoir) : Prop := forall d, rcollect d r = (r, []).
Lemma bucket_clean d b : let b' := fst (eb_collect d b) in forall d', eb_collect d' b' = (b', None).
Proof. cbn zeta. unfold eb_collect. destruct (eb_offered b) eqn:E; intro d'; cbn [fst]; [reflexivity|]. now rewrite E. Qed.
Lemma in_insert kb : forall l x, In x (insert_key kb l) -> x = kb \/ In x l.
Proof.
  induction l as [|y l IH]; cbn [insert_key]; intros x I; [destruct I as [<-|[]]; auto|].
  destruct (Nat.ltb (fst kb) (fst y)); [destruct I as [<-|I]; auto|]. destruct I as [<-|I]; [right; now left|].
  destruct (IH x I) as [->|J]; [now left|right; now right].
Qed.
Lemma in_sort : forall l x, In x (sort_keys l) -> In x l.
Proof. induction l as [|y l IH]; cbn [sort_keys]; intros x I; [destruct I|]. apply in_insert in I as [->|I]; [now left|right; auto]. Qed.
Lemma store_clean st : (forall k b, In (k, b) st -> forall d, eb_collect d b = (b, None)) -> forall d, store_collect d st = (st, []).
Proof.
  intros C d. unfold store_collect. f_equal.
  - rewrite <- (map_id st) at 2. apply map_ext_in. intros [k b] I. cbn [fst snd]. now rewrite (C k b I).
  - assert (C' : forall k b, In (k, b) (sort_keys st) -> forall d, eb_collect d b = (b, None)) by (intros k b I; apply (C k), in_sort, I).
    induction (sort_keys st) as [|[k b] l IH]; [reflexivity|]. cbn [flat_map snd]. rewrite (C' k b); [|now left]. apply IH. intros k' b' I. apply (C' k'). now right.
Qed.
Lemma collected_clean d r : clean (fst (rcollect d r)).
Proof.
  assert (X : forall st d', store_collect d' (fst (store_collect d st)) = (fst (store_collect d st), [])).
  { intros st. apply store_clean. intros k b I. unfold store_collect in I. cbn [fst] in I. apply in_map_iff in I as ([k' b'] & [= <- <-] & _). apply bucket_clean. }
  intro d'. destruct r as [size seen st|bounds st]; cbn [rcollect].
  - specialize (X st d'). destruct (store_collect d st) as [st' es]. cbn [fst] in *. cbn [rcollect]. now rewrite X.
  - specialize (X st d'). destruct (store_collect d st) as [st' es]. cbn [fst] in *. cbn [rcollect]. now rewrite X.
Qed.

(** What happens to the reservoir *)
Definition draw_of (s : estate) : Z := es_rand s (es_seen s) (draw_bound (es_res s)).
Definition after (s : estate) (o : mop) : estate := match o with Measure k => e_aggregate s k | Collect now => fst (e_collect s now) end.
Fixpoint rops (s : estate) (l : list mop) : list rop :=
  match l with
  | [] => []
  | o :: l' => match o with Measure k => Offer (meas_no k) (draw_of s) | Collect _ => RCollect (es_attrs s) end :: rops (after s o) l'
  end.
Lemma run_after : forall l s acc, fst (fold_left (fun s o => match o with
      | Measure v => (e_aggregate (fst s) v, snd s)
      | Collect now => let (a', p) := e_collect (fst s) now in (a', snd s ++ [p]) end) l (s, acc)) = fold_left after l s.
Proof.
  induction l as [|[k|now] l IH]; intros s acc; cbn [fold_left fst snd]; [reflexivity|apply IH|].
  unfold after at 2. destruct (e_collect s now) as [a p]. apply IH.
Qed.
Lemma rops_snoc now : forall l s, rops s (l ++ [Collect now]) = rops s l ++ [RCollect (es_attrs (fold_left after l s))].
Proof. induction l as [|o l IH]; intro s; [reflexivity|]. cbn [app rops fold_left]. now rewrite IH. Qed.
Lemma after_collect s now : es_agg (after s (Collect now)) = fst (collect (es_agg s) t now).
Proof.
  unfold after, Model_ExemplarPipeline.e_collect. destruct (collect (es_agg s) t now) as [a [p|]]; [|reflexivity]. destruct (rcollect _ _). reflexivity.
Qed.
Lemma run_is s l : fst (run s l) = fold_left after l s.
Proof. apply run_after. Qed.

Record inv (s0 s : estate) : Prop := {
  i_good : agg_good (es_agg s);
  i_same : agg_same (es_agg s0) (es_agg s);
  i_attrs : es_attrs s = es_attrs s0;
  i_rand : es_rand s = es_rand s0;
  i_clean : agg_empty (es_agg s) -> clean (es_res s)
}.
Lemma same_trans a b c : agg_same a b -> agg_same b c -> agg_same a c.
Proof. intros (A1 & A2 & A3 & A4) (B1 & B2 & B3 & B4). split; [congruence|]. split; [congruence|]. split; [|auto]. intro. now rewrite A3. Qed.
Lemma after_measure s k : agg_good (es_agg s) ->
  after s (Measure k) = EState (aggregate (es_agg s) (me_value (meas_no k))) (sample_exemplar f (meas_no k) (draw_of s) (es_res s)) (es_attrs s) (es_rand s) (S (es_seen s)).
Proof. unfold after, Model_ExemplarPipeline.e_aggregate, draw_of, meas_no. intro G. destruct (es_agg s); try reflexivity. destruct G. Qed.
Lemma inv_after s0 s o : inv s0 s -> inv s0 (after s o)
  /\ es_res (after s o) = fst (fstep f (es_res s, []) (match o with Measure k => Offer (meas_no k) (draw_of s) | Collect _ => RCollect (es_attrs s) end)).
Proof.
  intros [G S A R C]. destruct o as [k|now].
  - rewrite after_measure by exact G. destruct (aggregate_facts (es_agg s) (me_value (meas_no k)) G) as [NE SM]. split; [|reflexivity].
    constructor; cbn [es_agg es_attrs es_rand es_res]; try assumption; [apply SM, G|eapply same_trans; eassumption|contradiction].
  - unfold after, Model_ExemplarPipeline.e_collect. destruct (collect_facts (es_agg s) t now G) as (EM & SM & P). destruct (collect (es_agg s) t now) as [a [p|]]; cbn [fst snd] in *.
    + pose proof (collected_clean (es_attrs s) (es_res s)) as CC. cbn [fstep fst]. destruct (rcollect (es_attrs s) (es_res s)) as [r es]. cbn [fst snd es_res] in *. split; [|reflexivity].
      constructor; cbn [es_agg es_attrs es_rand es_res]; auto; [apply SM, G|eapply same_trans; eassumption].
    + destruct P as [P _]. specialize (C P). split.
      * constructor; cbn [es_agg es_attrs es_rand es_res]; auto; [apply SM, G|eapply same_trans; eassumption].
      * cbn [fstep fst es_res]. now rewrite C.
Qed.
Lemma fstep_fst r acc o : fst (fstep f (r, acc) o) = fst (fstep f (r, []) o).
Proof. destruct o as [m d|p]; cbn [fstep fst]; [reflexivity|]. now destruct (rcollect p r). Qed.
Lemma run_inv s0 : forall l s, inv s0 s -> inv s0 (fold_left after l s)
  /\ forall acc, es_res (fold_left after l s) = fst (fold_left (fstep f) (rops s l) (es_res s, acc)).
Proof.
  induction l as [|o l IH]; intros s I; [split; [exact I|reflexivity]|]. cbn [fold_left rops]. destruct (inv_after s0 s o I) as [I' E].
  destruct (IH _ I') as [J F]. split; [exact J|]. intro acc. set (ro := match o with Measure k => _ | Collect _ => _ end) in *.
  rewrite (surjective_pairing (fstep f (es_res s, acc) ro)), fstep_fst, <- E. apply F.
Qed.

(** ** The draws *)
Definition bounded (rand : nat -> Z -> Z) : Prop := forall n b, 0 < b -> 0 <= rand n b < b.
Notation lets md := (lets_through f (fst md)).
Definition counted (r : reservoir) (sn : list (meas * Z)) : Prop := exists st, r = Simple 1 (Z.of_nat (length (filter (fun md => lets md) sn))) st.
Lemma draws_snoc sn m d : draws_ok sn -> 0 <= d <= Z.of_nat (length sn) -> draws_ok (sn ++ [(m, d)]).
Proof.
  intros D B i m' d' E. destruct (Nat.lt_ge_cases i (length sn)) as [L|L].
  - rewrite nth_error_app1 in E by exact L. exact (D i m' d' E).
  - rewrite nth_error_app2 in E by exact L. destruct (i - length sn)%nat as [|n] eqn:X; [|destruct n; discriminate]. injection E as <- <-. lia.
Qed.
Lemma draws_good s0 : bounded (es_rand s0) -> forall l s sn, inv s0 s -> counted (es_res s) sn -> draws_ok (filter (fun md => lets md) sn) ->
  forall iv, In iv (intervals sn (rops s l)) -> draws_ok (filter (fun md => lets md) (fst iv)).
Proof.
  intros B. induction l as [|o l IH]; intros s sn I (st & E) D iv V; [destruct V|]. cbn [rops] in V. destruct (inv_after s0 s o I) as [I' E'].
  destruct o as [k|now]; cbn [intervals] in V.
  - refine (IH _ _ I' _ _ iv V).
    + rewrite E', E. unfold counted. rewrite filter_app. cbn [fstep fst filter]. unfold sample_exemplar. rewrite should_sample_iff.
      destruct (lets_through f (meas_no k)); rewrite app_length; cbn [length]; [|rewrite Nat.add_0_r; eexists; reflexivity].
      cbn [offer]. rewrite Nat2Z.inj_add. cbn [Z.of_nat Pos.of_succ_nat]. destruct (simple_index _ _ _); eexists; reflexivity.
    + rewrite filter_app. cbn [filter fst]. destruct (lets_through f (meas_no k)); [|now rewrite app_nil_r]. apply draws_snoc; [exact D|].
      unfold draw_of. rewrite E. cbn [draw_bound]. destruct I as [_ _ _ -> _]. specialize (B (es_seen s) (Z.of_nat (length (filter (fun md => lets md) sn)) + 1)). lia.
  - destruct V as [<-|V]; [exact D|]. refine (IH _ _ I' _ _ iv V).
    + rewrite E', E. cbn [fstep fst rcollect]. destruct (store_collect (es_attrs s) st) as [st' es]. eexists. reflexivity.
    + intros i m d X. destruct i; discriminate.
Qed.

(** ** The last interval *)
Definition ends_collected (b : list mop) : Prop := b = [] \/ exists b' now, b = b' ++ [Collect now].
Lemma measures_last p : forall l s sn, exists Y, intervals sn (rops s (map Measure l) ++ [RCollect p]) = [(sn ++ Y, p)] /\ map fst Y = map meas_no l.
Proof.
  induction l as [|k l IH]; intros s sn; cbn [map rops app intervals].
  - exists []. now rewrite app_nil_r.
  - destruct (IH (after s (Measure k)) (sn ++ [(meas_no k, draw_of s)])) as (Y & -> & E). exists ((meas_no k, draw_of s) :: Y).
    rewrite <- app_assoc. cbn [map fst app]. now rewrite E.
Qed.
Lemma last_interval p l : forall b s sn, ends_collected b -> (b = [] -> sn = []) ->
  exists X Y, intervals sn (rops s (b ++ map Measure l) ++ [RCollect p]) = X ++ [(Y, p)] /\ map fst Y = map meas_no l.
Proof.
  induction b as [|o b IH]; intros s sn EC Z0.
  - rewrite (Z0 eq_refl). destruct (measures_last p l s []) as (Y & E & M). exists [], Y. auto.
  - cbn [app rops]. assert (EB : b = [] \/ ends_collected b).
    { destruct EC as [EC|(b' & now & EC)]; [discriminate|]. destruct b' as [|o' b']; injection EC as -> ->; [now left|right; right; eauto]. }
    assert (EC' : ends_collected b) by (destruct EB as [->|]; [now left|assumption]).
    destruct o as [k|now]; cbn [intervals].
    + apply IH; [exact EC'|]. intros ->. destruct EC as [EC|(b' & now & EC)]; [discriminate|]. destruct b' as [|o' [|]]; discriminate.
    + destruct (IH (after s (Collect now)) [] EC' (fun _ => eq_refl)) as (X & Y & -> & M). exists ((sn, es_attrs s) :: X), Y. auto.
Qed.

Lemma frun_snoc r h p : snd (frun f r (h ++ [RCollect p])) = snd (frun f r h) ++ [snd (rcollect p (fst (frun f r h)))].
Proof. unfold frun. rewrite fold_left_app. cbn [fold_left fstep]. now destruct (rcollect p (fst (fold_left (fstep f) h (r, [])))). Qed.
Lemma Forall2_last {A B} (P : A -> B -> Prop) l x l' y : Forall2 P (l ++ [x]) (l' ++ [y]) -> P x y.
Proof.
  intro F. apply Forall2_app_inv_l in F as (k1 & k2 & F1 & F2 & E). inversion F2 as [|a b c d Pab F3]; subst. inversion F3; subst.
  apply app_inj_tail in E as [_ ->]. exact Pab.
Qed.

(** What a collection gets after a history [b] that ends with one, and the measurements [l] *)
Lemma stream_point g k adv d start rd b l now :
  let s0 := EState (create g k adv d start) (e_reservoir (create g k adv d start)) d rd 0 in
  agg_good (create g k adv d start) -> agg_attrs (create g k adv d start) = d -> bounded rd -> ends_collected b ->
  let s := fst (run s0 (b ++ map Measure l)) in
  match snd (e_collect s now) with
  | None => l = [] /\ agg_old t (create g k adv d start) = false
  | Some (p, es) =>
      (l = [] -> agg_old t (create g k adv d start) = true)
      /\ (match p with NumberPoint _ => agg_kind (create g k adv d start) = None | HistogramPoint _ => agg_kind (create g k adv d start) <> None end)
      /\ let offered := filter (lets_through f) (map meas_no l) in
      taken_with (span_rule offered) d offered es
      /\ match p with
         | NumberPoint p => np_attrs p = d /\ length es = Nat.min 1 (length offered)
         | HistogramPoint p => hp_attrs p = d /\ (sorted (hp_bounds p) ->
             Forall2 (exemplar_of d)
               (flat_map (fun n => match last_with (fun m => in_bucket (hp_bounds p) n (me_value m)) offered with Some m => [m] | None => [] end)
                  (seq 0 (Datatypes.S (length (hp_bounds p))))) es)
         end
  end.
Proof.
  intros s0 G AT B EC. set (a0 := create g k adv d start) in *. cbn zeta. rewrite run_is.
  assert (I0 : inv s0 s0).
  { constructor; try reflexivity; [exact G|repeat split; auto|]. intros _ d'. cbn [s0 es_res e_reservoir]. destruct a0; reflexivity. }
  destruct (run_inv s0 (b ++ map Measure l) s0 I0) as [[SG SS SA SR SC] ER]. specialize (ER []).
  set (s := fold_left after (b ++ map Measure l) s0) in *.
  destruct (collect_facts (es_agg s) t now SG) as (_ & _ & PF). destruct SS as (S1 & S2 & S3 & S4). change (es_agg s0) with a0 in *. rewrite (S3 t).
  assert (EMP : l <> [] -> ~ agg_empty (es_agg s)).
  { intros NL. destruct (exists_last NL) as (l' & x & EL). unfold s. rewrite EL, map_app, app_assoc, fold_left_app. cbn [map fold_left].
    destruct (run_inv s0 (b ++ map Measure l') s0 I0) as [[G' _ _ _ _] _]. rewrite after_measure by exact G'. cbn [es_agg]. now apply aggregate_facts. }
  assert (EMPTY : l = [] -> agg_empty (es_agg s)).
  { intros ->. unfold s. cbn [map]. rewrite app_nil_r. destruct EC as [->|(b' & n' & ->)].
    - unfold s0. cbn [fold_left es_agg]. unfold a0, create. destruct g, k; exact Logic.I || reflexivity.
    - rewrite fold_left_app. cbn [fold_left]. destruct (run_inv s0 b' s0 I0) as [[G' _ _ _ _] _]. rewrite after_collect. now apply collect_facts. }
  unfold Model_ExemplarPipeline.e_collect. destruct (collect (es_agg s) t now) as [a' [p|]]; cbn [fst snd] in PF |- *.
  2: { destruct PF as [P1 P2]. split; [|exact P2]. destruct l as [|x l]; [reflexivity|]. exfalso. now apply EMP. }
  destruct PF as [PF OLD]. pose proof (frun_snoc (es_res s0) (rops s0 (b ++ map Measure l)) d) as FS. unfold frun at 3 in FS. rewrite <- ER in FS.
  rewrite SA. change (es_attrs s0) with d. destruct (rcollect d (es_res s)) as [r' es]. cbn [snd] in FS |- *.
  split; [intro Z0; apply OLD, EMPTY, Z0|].
  split; [unfold point_fits in PF; rewrite <- S2 in PF; destruct p; destruct PF as [_ PF]; [exact PF|rewrite PF; discriminate]|]. set (offered := filter (lets_through f) (map meas_no l)). cbn zeta.
  set (H := rops s0 (b ++ map Measure l) ++ [RCollect d]) in *.
  destruct (last_interval d l b s0 [] EC (fun _ => eq_refl)) as (X & Y & EI & EY). fold H in EI.
  assert (OF : filter (lets_through f) (map fst Y) = offered) by (unfold offered; now rewrite EY).
  unfold point_fits in PF. rewrite <- S1, <- S2, AT in PF.
  assert (HR : H = rops s0 ((b ++ map Measure l) ++ [Collect now])) by (rewrite rops_snoc; fold s; rewrite SA; reflexivity).
  destruct (agg_kind a0) as [bounds|] eqn:K.
  - destruct p as [p|p]; destruct PF as [PA PB]; [discriminate|]. injection PB as PB. subst bounds.
    assert (RN : es_res s0 = aligned_new (hp_bounds p)) by (unfold s0; cbn [es_res]; clear - K; destruct a0; try discriminate; cbn in *; congruence).
    rewrite RN in FS.
    assert (T1 : Forall2 (fun iv es => let offered := filter (lets_through f) (map fst (fst iv)) in taken_with (span_rule offered) (snd iv) offered es)
        (intervals [] H) (snd (frun f (aligned_new (hp_bounds p)) H))).
    { apply (filtered_span (aligned_new (hp_bounds p)) (fun _ => True) f H); [|easy]. intros h' _. apply aligned_span. }
    rewrite EI, FS in T1. apply Forall2_last in T1. cbn [fst snd] in T1. rewrite OF in T1. split; [exact T1|]. split; [exact PA|].
    intro SO. pose proof (aligned_last (hp_bounds p) (filter (passes f) H) SO) as T2. unfold frun in FS. rewrite frun_filter in FS.
    pose proof (intervals_filter f H []) as EF. cbn [filter] in EF. unfold rrun in T2. rewrite EF, FS, EI, map_app in T2. cbn [map fst snd] in T2.
    apply Forall2_last in T2. cbn [fst snd] in T2. destruct T2 as [T2 _].
    assert (OF' : map fst (filter (fun md : meas * Z => filter_should_sample f (fst md)) Y) = offered).
    { rewrite <- OF. clear. induction Y as [|[m d] Y IH]; [reflexivity|]. cbn. rewrite should_sample_iff. destruct (lets_through f m); cbn; now rewrite IH. }
    rewrite OF' in T2. exact T2.
  - destruct p as [p|p]; destruct PF as [PA PB]; [|discriminate].
    assert (RN : es_res s0 = simple_new 1) by (unfold s0; cbn [es_res]; destruct a0; try discriminate; reflexivity).
    assert (DG : forall iv, In iv (intervals [] H) -> draws_ok (filter (fun md => lets md) (fst iv))).
    { rewrite HR. apply (draws_good s0 B _ s0 [] I0); [rewrite RN; eexists; reflexivity|]. intros i m z E. destruct i; discriminate. }
    rewrite RN in FS. pose proof (filtered_span (simple_new 1) draws_ok f H (simple_span 1) DG) as T1.
    rewrite EI, FS in T1. apply Forall2_last in T1. cbn [fst snd] in T1. rewrite OF in T1. split; [exact T1|]. split; [exact PA|].
    pose proof (simple_sound 1 (filter (passes f) H)) as T2. unfold frun in FS. rewrite frun_filter in FS.
    pose proof (intervals_filter f H []) as EF. cbn [filter] in EF. unfold rrun in T2. rewrite EF, FS in T2. 
    assert (DG' : forall iv, In iv (map (fun iv => (filter (fun md => filter_should_sample f (fst md)) (fst iv), snd iv)) (intervals [] H)) -> draws_ok (fst iv)).
    { intros iv V. apply in_map_iff in V as (iv0 & <- & V). cbn [fst]. rewrite (filter_ext _ (fun md => lets md)) by (intro; apply should_sample_iff). exact (DG iv0 V). }
    specialize (T2 DG'). rewrite EI, map_app in T2. cbn [map fst snd] in T2. apply Forall2_last in T2. cbn [fst snd] in T2. destruct T2 as (T2 & _ & T3 & _).
    assert (OF' : map fst (filter (fun md : meas * Z => filter_should_sample f (fst md)) Y) = offered).
    { rewrite <- OF. clear. induction Y as [|[m d] Y IH]; [reflexivity|]. cbn. rewrite should_sample_iff. destruct (lets_through f m); cbn; now rewrite IH. }
    destruct T1 as (ps & ND & FF). fold offered. destruct offered as [|o os].
    + cbn. destruct FF as [|n e ps' es' (m & E & _) _]; [reflexivity|]. destruct n; discriminate.
    + cbn [length]. assert (es <> []) by (apply T3; [intro Z0; rewrite Z0 in OF'; discriminate|lia]). destruct es as [|e es']; [congruence|]. cbn [length] in *. lia.
Qed.
End Stream.

(** ** The histories as those of Model_Pipeline *)
Section Histories.
Variable float_int : Z -> option Z.
Variable obj_hash : N -> bool.
Variable obj : N -> instr.
Variable the_call : N -> mcall.
Notation e_pcall := (e_pcall obj the_call).
Notation pcalls := (flat_map e_pcall).
Notation e_gets := (e_gets obj the_call).
Notation attrs_of k := (mc_attrs (the_call k)).
Notation e_allowed := (e_allowed float_int obj_hash obj the_call).
Definition e_obs (obs : list (N * N)) : list observation := map (fun ob => (fst ob, attrs_of (snd ob), Z.of_N (snd ob))) obs.
Definition plain (m : measurement) : option mattrs * Z := (m_attrs m, m_amount m).
Definition number (k : N) : option mattrs * Z := (attrs_of k, Z.of_N k).

Lemma observed_plain i obs now : map plain (observed i (e_obs obs) now) = map number (e_observed i obs).
Proof.
  induction obs as [|[j k] obs IH]; [reflexivity|]. unfold e_obs, e_observed, observed in *. cbn [map flat_map filter fst snd].
  destruct (N.eqb j i); cbn [map app]; [|exact IH]. rewrite IH. reflexivity.
Qed.
Lemma takes_number k z : takes k (Z.of_N z) = true.
Proof. unfold takes. destruct k; try reflexivity; apply Z.leb_le; lia. Qed.
Lemma gets_plain r i h : map plain (gets obj r i (pcalls h)) = map number (e_gets r i h).
Proof.
  induction h as [|c h IH]; [reflexivity|]. unfold Spec_ExemplarPipeline.e_gets in *. cbn [flat_map]. rewrite gets_app, !map_app, IH. f_equal. clear IH.
  destruct c as [j k now|r' obs tm now]; cbn [Model_ExemplarPipeline.e_pcall e_measured].
  - destruct (N.eqb_spec j i) as [->|NE]; cbn [andb].
    + rewrite (takes_offered float_int obj_hash obj i). destruct (takes (in_kind (obj i)) (mc_value (the_call k))); [|reflexivity].
      unfold gets. cbn [flat_map measured_in]. rewrite N.eqb_refl, takes_number. reflexivity.
    + destruct (offered _ _); [|reflexivity]. unfold gets. cbn [flat_map measured_in]. apply N.eqb_neq in NE. rewrite NE. reflexivity.
  - unfold gets. cbn [flat_map measured_in]. rewrite app_nil_r. destruct (Nat.eqb r' r); [|reflexivity]. apply observed_plain.
Qed.
Lemma allowed_api h : Forall e_allowed h -> Forall (api_call float_int obj_hash obj) (pcalls h).
Proof.
  induction 1 as [|c h A F IH]; [constructor|]. cbn [flat_map]. apply Forall_app. split; [|exact IH]. destruct c as [j k now|r' obs tm now]; cbn [Model_ExemplarPipeline.e_pcall].
  - destruct (offered _ _); [|constructor]. constructor; [exact A|constructor].
  - constructor; [|constructor]. cbn in A |- *. apply Forall_map. exact A.
Qed.
Lemma since_pcalls r h h0 part : e_since r h h0 part -> since r (pcalls h) (pcalls h0) (pcalls part).
Proof.
  intros (-> & N & C). split; [apply flat_map_app|]. split.
  - intros c now I (obs & ->). apply in_flat_map in I as (c & Ic & I). destruct c as [j k n|r' ob tm n]; cbn [Model_ExemplarPipeline.e_pcall] in I.
    + destruct (offered _ _); [|destruct I]. destruct I as [I|[]]. discriminate.
    + destruct I as [I|[]]. injection I as -> _ -> ->. now apply (N ob now).
  - destruct C as [->|(h1 & obs & now & ->)]; [now left|]. right. exists (pcalls h1), (PCollect r (e_obs obs) false now), now. split; [|eexists; reflexivity].
    rewrite flat_map_app. reflexivity.
Qed.

Variable ks : option (list str).
Notation sel := (Proof_Streams.sel float_int obj_hash ks).
Notation Q := (Proof_Streams.Q float_int obj_hash ks).
Notation e_with := (e_with float_int obj_hash the_call ks).
Notation e_each := (e_each float_int obj_hash the_call ks).
Notation each_attrs := (Spec_Streams.each_attrs float_int obj_hash ks).
Definition e_sel (a : option mattrs) (l : list N) : list N := filter (fun k => Q a (attrs_of k)) l.
Lemma sel_plain a : forall ms l, map plain ms = map number l -> sel a ms = map Z.of_N (e_sel a l).
Proof.
  induction ms as [|m ms IH]; intros [|k l] E; try discriminate; [reflexivity|]. cbn [map] in E. injection E as E1 E2 E. unfold plain, number in E1.
  unfold Proof_Streams.sel, e_sel in *. cbn [filter]. rewrite E1. destruct (Q a (attrs_of k)); cbn [map]; rewrite (IH l E); [now f_equal|reflexivity].
Qed.
Lemma e_sel_with a l : e_with a l (e_sel a l).
Proof.
  induction l as [|k l IH]; [constructor|]. unfold e_sel. cbn [filter]. destruct (Q a (attrs_of k)) eqn:E.
  - constructor; [now apply Q_spec in E|exact IH].
  - apply ew_skip; [now apply Q_false in E|exact IH].
Qed.
Lemma each_plain reps : forall ms l, map plain ms = map number l -> each_attrs ms reps -> e_each l reps.
Proof.
  intros ms l E (A & B & C). split; [exact A|]. split.
  - intros a I. destruct (B a I) as (m & Im & S). apply (in_map plain) in Im. rewrite E in Im. apply in_map_iff in Im as (k & Ek & Ik).
    exists k. split; [exact Ik|]. injection Ek as E1 _. rewrite E1. exact S.
  - intros k Ik. apply (in_map number) in Ik. rewrite <- E in Ik. apply in_map_iff in Ik as (m & Em & Im). destruct (C m Im) as (a & Ia & S).
    exists a. split; [exact Ia|]. injection Em as E1 _. rewrite <- E1. exact S.
Qed.
End Histories.

Section Storage.
Variable float_int : Z -> option Z.
Variable obj_hash : N -> bool.
Variable fnmatch : str -> str -> bool.
Context {Scope : Type} `{EqDec Scope}.
Variable the_scope : Scope -> scope.
Variable obj : N -> instr.
Variable scope_of : N -> Scope.
Variable the_call : N -> mcall.
Variable f : efilter.
Variable rand : N -> mattrs -> Z -> nat -> Z -> Z.
Variable views : list (@view aggregation).
Variable readers : list (@reader aggregation).
Notation e_run := (e_run float_int obj_hash fnmatch the_scope obj scope_of the_call f rand views readers).
Notation e_output := (e_output float_int obj_hash fnmatch the_scope obj scope_of the_call f rand views readers).
Notation applies := (applies fnmatch (fun s => sco_name (the_scope s)) (fun s => sco_version (the_scope s)) (fun s => sco_schema (the_scope s)) obj scope_of asks_explicit).
Notation view_match := (view_match fnmatch (fun s => sco_name (the_scope s)) (fun s => sco_version (the_scope s)) (fun s => sco_schema (the_scope s)) obj scope_of).
Notation seen_through := (Spec_Streams.seen_through fnmatch the_scope obj scope_of views).
Notation asked := (Spec_Streams.asked obj).
Notation e_create := (e_create obj rand).
Notation e_aggregate := (e_aggregate the_call f).
Notation api_call := (api_call float_int obj_hash obj).
Notation gets := (gets obj).
Let applying := fun i v => view_match v i && compatible obj asks_explicit v i.

Lemma seen_stream i v : seen_through i v -> exists v', In v' (streams Default views applying i) /\ v_name v' = v_name v /\ v_descr v' = v_descr v /\ v_keys v' = v_keys v /\ v_agg v' = v_agg v.
Proof.
  intros ST. unfold streams. destruct ST as [[Iv Av]|(NV & E1 & E2 & E3 & E4)].
  - exists v. split; [|auto]. assert (I : In v (filter (applying i) views)) by (apply filter_In; split; [exact Iv|]; apply view_match_spec; exact Av).
    destruct (filter (applying i) views); [destruct I|exact I].
  - exists (DEFAULT_VIEW Default). rewrite E1, E2, E3, E4. split; [|auto].
    replace (filter (applying i) views) with (@nil (@view aggregation)); [now left|]. symmetry.
    clear - NV. induction views as [|v' vs IH]; [reflexivity|]. cbn [filter]. destruct (applying i v') eqn:E.
    + exfalso. apply (NV v'); [now left|]. apply view_match_spec. exact E.
    + apply IH. intros x I. apply NV. now right.
Qed.
Lemma shape_is g i : agg_shape obj g i = expected_shape (obj i) g.
Proof. unfold agg_shape, expected_shape, create. destruct g, (in_kind (obj i)); reflexivity. Qed.
Lemma fits_is g x d st p : has_points x g ->
  match p with NumberPoint _ => agg_kind (create g (in_kind x) (in_adv x) d st) = None | HistogramPoint _ => agg_kind (create g (in_kind x) (in_adv x) d st) <> None end ->
  fits_shape (expected_shape x g) p.
Proof. unfold expected_shape, create, has_points. destruct g, (in_kind x), p; cbn; intros P E; try congruence; try contradiction; exact I. Qed.
Lemma metrics_delivered h r obs now h' rd i v g :
  seen_through i v -> asked rd i v g ->
  nth_error readers r = Some rd ->
  Forall api_call (h ++ PCollect r obs false now :: h') ->
  (exists m, In m (gets r i h ++ observed i obs now)) -> agg_shape obj g i <> ShDrop ->
  let t := rd_temporality rd (in_kind (obj i)) in
  let points := snd (vm_collect (e_collect t) (vm_run float_int obj_hash (e_create g i) e_aggregate (e_collect t) (v_keys v)
                       (vops obj r i h ++ map vm (observed i obs now))) now) in
  exists out, nth_error (snd (crun float_int obj_hash fnmatch (fun s => sco_name (the_scope s)) (fun s => sco_version (the_scope s)) (fun s => sco_schema (the_scope s))
    obj scope_of Default asks_default asks_explicit e_create e_aggregate e_collect (agg_shape obj) views readers
    (flat_map (pcall_ops obj) (h ++ PCollect r obs false now :: h')))) (length (flat_map (pcall_ops obj) h)) = Some (CMetrics r out) /\ NoDup (keys out)
  /\ (points <> [] -> e_reports obj scope_of out i v g t points).
Proof.
  intros ST AS R F (m0 & Im0) SH t points.
  assert (FH : Forall (cop_hashable float_int obj_hash) (flat_map (pcall_ops obj) h ++ CCollect r obs false now :: flat_map (pcall_ops obj) h')).
  { pose proof (api_hashables float_int obj_hash obj _ F) as X. rewrite flat_map_app in X. exact X. }
  destruct (collect_reports float_int obj_hash fnmatch (fun s => sco_name (the_scope s)) (fun s => sco_version (the_scope s)) (fun s => sco_schema (the_scope s))
    obj scope_of Default asks_default asks_explicit e_create e_aggregate
    e_collect (agg_shape obj) views readers applying (fun i v => view_match_spec _ _ _ _ _ _ _ v i) _ r obs now _ rd FH R) as (out & Eo & No & Go).
  exists out. split; [rewrite flat_map_app; exact Eo|].
  split; [exact No|]. intros NE.
  specialize (Go (scope_of i)).
  assert (Op : ops_for r i (flat_map (pcall_ops obj) h ++ [CCollect r obs true now]) = vops obj r i h ++ map vm (observed i obs now)).
  { unfold ops_for. rewrite flat_map_app. cbn [flat_map ops_of]. rewrite Nat.eqb_refl, observed_vm, !app_nil_r. reflexivity. }
  destruct (seen_stream i v ST) as (v' & Iv' & V1 & V2 & V3 & V4).
  set (M := Metric (renamed (v_name v) (in_name (obj i))) (renamed (v_descr v) (in_descr (obj i))) (in_unit (obj i)) (agg_shape obj g i) t
            (match in_kind (obj i) with ICounter | IObservableCounter => true | _ => false end) points).
  assert (Ag : (if asks_default (v_agg v') then rd_aggregation rd (in_kind (obj i)) else v_agg v') = g).
  { rewrite V4. destruct AS as [[N ->]|[-> ->]]; [|reflexivity]. destruct (v_agg v); try reflexivity. congruence. }
  assert (Mo : In M (metrics_of float_int obj_hash obj Default asks_default e_create e_aggregate
    e_collect (agg_shape obj) views applying rd r (flat_map (pcall_ops obj) h ++ [CCollect r obs true now]) now i)).
  { unfold metrics_of. apply in_flat_map. exists v'. split; [exact Iv'|]. unfold series_of. rewrite Op. unfold agg_for. rewrite Ag, V3. fold t.
    change (snd (vm_collect _ _ now)) with points.
    unfold reported. rewrite Ag, V1, V2. fold t. unfold M. destruct points as [|p ps]; [congruence|].
    destruct (agg_shape obj g i); try (now left). congruence. }
  assert (Iu : In i (Spec_Storage.once [] (used r (flat_map (pcall_ops obj) h ++ [CCollect r obs true now])))).
  { apply once_in; [|intros []]. unfold used. rewrite flat_map_app. apply in_or_app. apply in_app_or in Im0 as [I|I].
    - left. unfold Spec_Streams.gets in I. apply in_flat_map in I as (c & Ic & I). apply in_flat_map. destruct c as [j b z n|r' ob tmo n]; cbn [Spec_Streams.measured_in] in I.
      + destruct (N.eqb_spec j i) as [->|]; [|destruct I]. cbn [andb] in I. destruct (takes _ z) eqn:Tz; [|destruct I].
        exists (CMeasure i b z n). split; [|now left]. apply in_flat_map. exists (PCall i b z n). split; [exact Ic|]. cbn [pcall_ops]. rewrite (takes_offered float_int obj_hash obj i), Tz. now left.
      + destruct (Nat.eqb r' r) eqn:Er; [|destruct I]. exists (CCollect r' ob tmo n). split; [apply in_flat_map; exists (PCollect r' ob tmo n); split; [exact Ic|now left]|].
        rewrite Er. unfold observed in I. apply in_flat_map in I as ([[j b] z] & Io & I). destruct (N.eqb_spec j i) as [->|]; [|destruct I].
        apply in_map_iff. exists (i, b, z). auto.
    - right. cbn [flat_map]. rewrite Nat.eqb_refl, app_nil_r. unfold observed in I. apply in_flat_map in I as ([[j b] z] & Io & I). destruct (N.eqb_spec j i) as [->|]; [|destruct I].
      apply in_map_iff. exists (i, b, z). auto. }
  set (L := flat_map _ _) in Go. assert (IM : In M L).
  { unfold L. apply in_flat_map. exists i. split; [exact Iu|]. destruct (eq_dec (scope_of i) (scope_of i)) as [_|N]; [|contradiction]. exact Mo. }
  assert (Gs : dget (scope_of i) out = Some L) by (rewrite Go; destruct L; [destruct IM|reflexivity]).
  exists L, M. split; [exact Gs|]. split; [exact IM|]. unfold M. cbn [m_name m_descr m_unit m_shape m_monotonic m_temporality m_points]. rewrite shape_is. auto 10.
Qed.

Lemma old_is g x d st t : has_points x g -> agg_good (create g (in_kind x) (in_adv x) d st)
  /\ agg_attrs (create g (in_kind x) (in_adv x) d st) = d /\ agg_old t (create g (in_kind x) (in_adv x) d st) = gets_old x g t.
Proof.
  unfold has_points, gets_old, agg_old, create. destruct g, (in_kind x), t; cbn; intros P; try contradiction; try discriminate; auto.
Qed.
Lemma shape_points g i : has_points (obj i) g -> agg_shape obj g i <> ShDrop.
Proof. unfold has_points, agg_shape, create. destruct g, (in_kind (obj i)); cbn; intros P; try contradiction; discriminate. Qed.
Lemma replay_ends b : replay b = (b, []) -> ends_collected b.
Proof.
  intro E. destruct b as [|o b]; [now left|]. right. destruct (@exists_last _ (o :: b)) as (b' & x & X); [discriminate|]. rewrite X in E |- *. rewrite replay_snoc in E.
  destruct x as [v|now]; [|eauto]. injection E as _ E. destruct (snd (replay b')); discriminate.
Qed.
Lemma meant_is c : ~ left_span c -> measurement_of c = as_meant c.
Proof.
  unfold left_span, measurement_of, as_meant, span_meant, context_used. destruct c as [v a [[|s]|] cur tm]; cbn; intro N; try reflexivity.
  - destruct cur as [|[s|]]; try reflexivity. exfalso. apply N. eauto.
Qed.

Theorem exemplars_delivered h r obs now h' rd i v g h0 part :
  let t := rd_temporality rd (in_kind (obj i)) in
  let new := e_gets obj the_call r i part ++ e_observed i obs in
  let cur := if gets_old (obj i) g t then e_gets obj the_call r i h ++ e_observed i obs else new in
  (forall i d s n b, 0 < b -> 0 <= rand i d s n b < b) ->
  seen_through i v -> asked rd i v g -> has_points (obj i) g ->
  nth_error readers r = Some rd ->
  Forall (e_allowed float_int obj_hash obj the_call) (h ++ ECollect r obs false now :: h') ->
  e_since r h h0 part ->
  (forall k, In k new -> ~ left_span (the_call k)) ->
  (exists k, In k cur) ->
  exists out points reps,
    e_output h (h ++ ECollect r obs false now :: h') = Some (CMetrics r out)
    /\ e_reports obj scope_of out i v g t points
    /\ e_each float_int obj_hash the_call (v_keys v) cur reps
    /\ Forall2 (fun a pe => exists l, e_with float_int obj_hash the_call (v_keys v) a new l
                 /\ fits_shape (expected_shape (obj i) g) (fst pe) /\ exemplars_are the_call (v_keys v) f a l (fst pe) (snd pe)) reps points
    /\ NoDup (keys out).
Proof.
  intros t new cur RB ST AS HP R F S LS (k0 & Ik0).
  pose proof (allowed_api float_int obj_hash obj the_call _ F) as FA. rewrite flat_map_app in FA. cbn [flat_map Model_ExemplarPipeline.e_pcall app] in FA.
  fold (e_obs the_call obs) in FA.
  pose proof (since_pcalls obj the_call _ _ _ _ S) as SP.
  set (H1 := flat_map (e_pcall obj the_call) h) in *. set (P1 := flat_map (e_pcall obj the_call) part) in *. set (H0 := flat_map (e_pcall obj the_call) h0) in *.
  assert (FH : Forall api_call H1) by (apply Forall_app in FA as [X _]; exact X).
  assert (FO : Forall (fun ob : observation => usable float_int obj_hash None (snd (fst ob))) (e_obs the_call obs)).
  { apply Forall_app in FA as [_ X]. inversion X as [|c l A _]; subst. cbn in A. eapply Forall_impl; [|exact A]. cbn. tauto. }
  set (ob := observed i (e_obs the_call obs) now).
  assert (EO : map plain ob = map (number the_call) (e_observed i obs)) by apply observed_plain.
  assert (EN : map plain (gets r i P1 ++ ob) = map (number the_call) new).
  { unfold new. rewrite !map_app, EO. f_equal. apply (gets_plain float_int obj_hash). }
  assert (EA : map plain (gets r i H1 ++ ob) = map (number the_call) (e_gets obj the_call r i h ++ e_observed i obs)).
  { rewrite !map_app, EO. f_equal. apply (gets_plain float_int obj_hash). }
  set (pcur := if gets_old (obj i) g t then gets r i H1 ++ ob else gets r i P1 ++ ob).
  assert (EC : map plain pcur = map (number the_call) cur) by (unfold pcur, cur; destruct (gets_old (obj i) g t); assumption).
  assert (INC : forall m, In m pcur -> In m (gets r i H1 ++ ob)).
  { intros m I. unfold pcur in I. destruct (gets_old (obj i) g t); [exact I|]. destruct SP as (E & _ & _). rewrite E, gets_app, <- app_assoc.
    apply in_or_app. now right. }
  destruct (points_of float_int obj_hash obj (v_keys v) r i (e_create g i) e_aggregate (e_collect t) H1 H0 P1 (e_obs the_call obs) now
    (fun a st pe => fits_shape (expected_shape (obj i) g) (fst pe) /\ exemplars_are the_call (v_keys v) f a (e_sel float_int obj_hash the_call (v_keys v) a new) (fst pe) (snd pe)) FH FO SP pcur INC) as (reps & E1 & E2).
  { intros a st NE. fold ob. fold ob in NE. cbn zeta.
    set (d := shown (v_keys v) a). set (b := stream_ops (Proof_Streams.Q float_int obj_hash (v_keys v) a) false (vops obj r i H0)).
    assert (RP : ends_collected b).
    { apply replay_ends. destruct SP as (_ & _ & C). apply (closed_ops float_int obj_hash obj (v_keys v) r i a H0 C). }
    assert (SE : Proof_Streams.sel float_int obj_hash (v_keys v) a (gets r i P1 ++ ob) = map Z.of_N (e_sel float_int obj_hash the_call (v_keys v) a new)) by (apply sel_plain; exact EN).
    rewrite SE. set (l := e_sel float_int obj_hash the_call (v_keys v) a new) in *.
    destruct (old_is g (obj i) d st t HP) as (G & AT & OL).
    pose proof (stream_point the_call f t g (in_kind (obj i)) (in_adv (obj i)) d st (rand i d st) b (map Z.of_N l) now G AT (RB i d st) RP) as X.
    cbn zeta in X. rewrite OL in X. unfold Model_ExemplarPipeline.e_create. fold d.
    assert (ML : map (meas_no the_call) (map Z.of_N l) = map (fun k => as_meant (the_call k)) l).
    { rewrite map_map. apply map_ext_in. intros k Ik. unfold meas_no. rewrite N2Z.id. apply meant_is, LS. unfold l, e_sel in Ik. apply filter_In in Ik as [Ik _]. exact Ik. }
    rewrite ML in X.
    destruct (snd (e_collect t _ now)) as [[p es]|].
    - right. destruct X as (OLD & T0 & T1 & T2). split.
      + unfold pcur. destruct (gets_old (obj i) g t); [exact NE|]. rewrite SE. intro Z0. apply map_eq_nil in Z0. rewrite Z0 in OLD. specialize (OLD eq_refl). discriminate.
      + exists (p, es). split; [reflexivity|]. split; [eapply fits_is; [exact HP|exact T0]|]. split; [exact T1|exact T2].
    - left. destruct X as (L0 & O). split; [|reflexivity]. unfold pcur. rewrite O, SE. exact L0. }
  assert (EX : exists m, In m (gets r i H1 ++ ob)).
  { apply (in_map (number the_call)) in Ik0. rewrite <- EC in Ik0. apply in_map_iff in Ik0 as (m & _ & Im). eauto. }
  destruct (metrics_delivered H1 r (e_obs the_call obs) now (flat_map (e_pcall obj the_call) h') rd i v g ST AS R FA EX (shape_points g i HP)) as (out & M1 & M2 & M3).
  set (points := snd (vm_collect _ _ _)) in E2. exists out, points, reps. split.
  { unfold Model_ExemplarPipeline.e_output, Model_ExemplarPipeline.e_run. rewrite (flat_map_app (e_pcall obj the_call)). exact M1. }
  pose proof (each_plain float_int obj_hash the_call (v_keys v) reps _ _ EC E1) as EE. split; [|split; [exact EE|split; [|exact M2]]].
  - apply M3. fold ob. change (snd (vm_collect _ _ _)) with points. intro Z0. rewrite Z0 in E2. inversion E2; subst.
    destruct EE as (_ & _ & C). destruct (C k0 Ik0) as (a & [] & _).
  - eapply Forall2_weaken; [|exact E2]. intros a pe (st & _ & X). eexists. split; [apply e_sel_with|exact X].
Qed.

(** ** The request *)
Variable infty : bool -> Z.
Variable to_float : Z -> option Z.
Notation request := (e_otlp_request float_int the_scope infty to_float).
Notation metric_of := (e_otlp_metric infty).
Lemma e_scopes_different (out : dict Scope (list (@metric (point * list exemplar)))) :
  (forall s s', same_scope_key float_int (Some (the_scope s)) (Some (the_scope s')) = true -> s = s') -> NoDup (keys out) ->
  all_different (fun a b => same_scope_key float_int (Some a) (Some b)) (map fst (map (fun e => (the_scope (fst e), map metric_of (snd e))) out)).
Proof.
  intros I N. rewrite map_map. cbn [fst]. unfold all_different. induction out as [|[s ms] out IH]; [constructor|]. cbn [map fst] in *.
  inversion N as [|? ? N1 N2]; subst. constructor; [|now apply IH]. apply Forall_forall. intros s' E. apply in_map_iff in E as ([s0 m0] & <- & E). cbn [fst].
  destruct (same_scope_key _ _ _) eqn:K; [|reflexivity]. apply I in K. subst s0. exfalso. apply N1. apply in_map_iff. exists (s, m0). auto.
Qed.
Lemma exemplar_encoded e q : exemplar_read (otlp_exemplar e) q -> exemplar_message e q.
Proof.
  intros (A & B & C & D). unfold exemplar_message. cbn in A, B, C, D. split; [exact A|]. split; [exact B|]. split; [exact C|].
  destruct (ex_span_id e), (ex_trace_id e); exact D.
Qed.
Lemma exemplars_encoded : forall es qs, Forall2 exemplar_read (map otlp_exemplar es) qs -> Forall2 exemplar_message es qs.
Proof. induction es as [|e es IH]; intros qs F; inversion F; subst; constructor; auto using exemplar_encoded. Qed.
Lemma doubles_encoded : forall bs ds, Forall2 (double_read to_float) (map NInt bs) ds -> Forall2 (fun b d => to_float b = Some d) bs ds.
Proof. induction bs as [|e es IH]; intros qs F; inversion F; subst; constructor; auto. Qed.
Lemma ext_encoded x d : opt_double_read to_float (Some (ext_number infty x)) d -> exists y, d = Some y /\ forall z, x = Fin z -> to_float z = Some y.
Proof. destruct d as [y|]; cbn; intro E; [|destruct E]. exists y. split; [reflexivity|]. intros z ->. exact E. Qed.
Lemma num_encoded ws p es q : num_read ws (e_otlp_num p es) q -> message_is to_float ws (NumberPoint p) es (NumberMessage q).
Proof. intros (A & B & C & D & E). cbn in *. repeat (split; [assumption|]). apply exemplars_encoded. exact E. Qed.
Lemma hist_encoded ws p es q : hist_read to_float (e_otlp_hist infty p es) q -> message_is to_float ws (HistogramPoint p) es (HistogramMessage q).
Proof.
  intros (A1 & A2 & A3 & A4 & A5 & A6 & A7 & A8 & A9 & A10). cbn [e_otlp_hist h_attrs h_start h_time h_count h_sum h_buckets h_bounds h_min h_max h_exemplars] in *.
  split; [exact A1|]. split; [exact A4|]. split; [exact A5|]. split; [exact A6|]. split; [now apply doubles_encoded|]. split; [exact A3|]. split; [exact A2|].
  split; [now apply ext_encoded|]. split; [now apply ext_encoded|]. now apply exemplars_encoded.
Qed.
Lemma nums_encoded ws sh points : (sh = ShSum \/ sh = ShGauge) -> Forall (fun pe => fits_shape sh (fst pe)) points -> forall qs, Forall2 (num_read ws) (e_otlp_nums points) qs ->
  Forall2 (fun pe m => message_is to_float ws (fst pe) (snd pe) m) points (map NumberMessage qs).
Proof.
  intros S F. induction F as [|[p es] points A F IH]; intros qs X; [inversion X; subst; constructor|]. cbn [fst] in A.
  destruct p as [p|p]; [|destruct S; subst sh; destruct A]. cbn in X. inversion X; subst. cbn [map]. constructor; [now apply num_encoded|]. apply IH. assumption.
Qed.
Lemma hists_encoded ws points : Forall (fun pe => fits_shape ShHistogram (fst pe)) points -> forall qs, Forall2 (hist_read to_float) (e_otlp_hists infty points) qs ->
  Forall2 (fun pe m => message_is to_float ws (fst pe) (snd pe) m) points (map HistogramMessage qs).
Proof.
  intros F. induction F as [|[p es] points A F IH]; intros qs X; [inversion X; subst; constructor|]. cbn [fst] in A.
  destruct p as [p|p]; [destruct A|]. cbn in X. inversion X; subst. cbn [map]. constructor; [now apply hist_encoded|]. apply IH. assumption.
Qed.
Lemma e_in_request (out : dict Scope (list (@metric (point * list exemplar)))) res req i v g t points :
  (forall s s', same_scope_key float_int (Some (the_scope s)) (Some (the_scope s')) = true -> s = s') -> NoDup (keys out) ->
  e_reports obj scope_of out i v g t points -> points <> [] -> Forall (fun pe => fits_shape (expected_shape (obj i) g) (fst pe)) points -> request res out = Some req ->
  exists d, metric_in the_scope obj scope_of res i v req d
  /\ data_is to_float (expected_shape (obj i) g) t (only_increases (in_kind (obj i))) points d.
Proof.
  intros Inj No (L & M & Gs & IM & M1 & M2 & M3 & M4 & M5 & M6 & M7) NE FS Q0.
  apply dget_In in Gs. unfold e_otlp_request in Q0. apply Proof_OtlpFields.encode_metrics_ok in Q0.
  2:{ cbn. repeat constructor. }
  2:{ constructor; [|constructor]. cbn [snd]. now apply e_scopes_different. }
  inversion Q0 as [|? gr ? tl [Rg Sg] Tl]; subst. inversion Tl; subst. cbn [fst snd] in Rg, Sg. clear Q0 Tl.
  assert (X : exists sg, In sg (pr_scopes gr) /\ scope_metrics_read to_float (the_scope (scope_of i), map metric_of L) sg).
  { clear - Sg Gs. remember (map _ out) as l eqn:E. assert (I : In (the_scope (scope_of i), map metric_of L) l).
    { subst l. apply in_map_iff. exists (scope_of i, L). auto. }
    clear E Gs. induction Sg as [|x y l l' R _ IH]; [destruct I|]. destruct I as [->|I].
    - exists y. split; [now left|exact R].
    - destruct (IH I) as (sg & A & B). exists sg. split; [now right|exact B]. }
  destruct X as (sg & Isg & Ssg & Msg). cbn [fst snd] in Ssg, Msg.
  assert (Y : exists m, In m (pg_items sg) /\ metric_read to_float (metric_of M) m).
  { clear - Msg IM. remember (map _ L) as l eqn:E. assert (I : In (metric_of M) l) by (subst l; now apply in_map).
    clear E IM. induction Msg as [|x y l l' R _ IH]; [destruct I|]. destruct I as [->|I].
    - exists y. split; [now left|exact R].
    - destruct (IH I) as (m & A & B). exists m. split; [now right|exact B]. }
  destruct Y as (m & Im & N1 & N2 & N3 & D). cbn [sm_name sm_descr sm_unit sm_data e_otlp_metric or_empty] in N1, N2, N3, D.
  exists (pm_data m). split.
  { exists gr, sg, m. split; [reflexivity|]. split; [exact Rg|]. split; [exact Isg|]. split; [exact Ssg|]. split; [exact Im|].
    rewrite N1, N2, N3, M1, M2, M3. auto. }
  rewrite M4, M5 in D. unfold data_is. set (sh := expected_shape (obj i) g) in *. set (points := m_points M) in *. set (t := m_temporality M) in *.
  assert (TC : temporality_number t = temporality_code t) by (destruct t; reflexivity). rewrite TC in D.
  assert (NN : sh = ShSum \/ sh = ShGauge -> e_otlp_nums points <> []).
  { intros S E. destruct FS as [|[[p|p] es] ps A FS]; [congruence|discriminate|]. destruct S as [S|S]; rewrite S in A; destruct A. }
  assert (NH : sh = ShHistogram -> e_otlp_hists infty points <> []).
  { intros S E. destruct FS as [|[[p|p] es] ps A FS]; [congruence| |discriminate]. rewrite S in A; destruct A. }
  assert (SK : sh = ShSum \/ sh = ShGauge \/ sh = ShHistogram).
  { destruct FS as [|[p es] ps A FS]; [congruence|]. cbn [fst] in A. destruct sh, p; cbn in A; auto; destruct A. }
  destruct SK as [S|[S|S]]; rewrite S in *.
  - assert (D' : exists ps, pm_data m = PbSum ps (temporality_code t) (only_increases (in_kind (obj i))) /\ Forall2 (num_read true) (e_otlp_nums points) ps).
    { cbn [data_read] in D. destruct (e_otlp_nums points); [exfalso; apply NN; auto|exact D]. }
    destruct D' as (ps & E & F2). exists (map NumberMessage ps). split; [|eauto]. apply (nums_encoded true ShSum); auto.
  - assert (D' : exists ps, pm_data m = PbGauge ps /\ Forall2 (num_read false) (e_otlp_nums points) ps).
    { cbn [data_read] in D. destruct (e_otlp_nums points); [exfalso; apply NN; auto|exact D]. }
    destruct D' as (ps & E & F2). exists (map NumberMessage ps). split; [|eauto]. apply (nums_encoded false ShGauge); auto.
  - assert (D' : exists ps, pm_data m = PbHistogram ps (temporality_code t) /\ Forall2 (hist_read to_float) (e_otlp_hists infty points) ps).
    { cbn [data_read] in D. destruct (e_otlp_hists infty points); [exfalso; apply NH; auto|exact D]. }
    destruct D' as (ps & E & F2). exists (map HistogramMessage ps). split; [|eauto]. apply hists_encoded; auto.
Qed.
End Storage.
