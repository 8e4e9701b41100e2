(** Proofs about streams from the calls and observations to the request. *)
From Verif Require Import Proof_Dict Proof_Str Proof_Metrics Proof_View Proof_Otlp Proof_OtlpFields Proof_Storage Proof_Pipeline Spec_Streams.
From Coq Require Import Lia.
Local Open Scope Z_scope.

(** ** The last window, with what came before it *)
Lemma window_after t a f b s now : (forall h, snd (agg_run t a h) = map f (windows h)) -> replay b = (b, []) ->
  snd (collect (fst (agg_run t a (b ++ map Measure s))) t now) = f (W b s now).
Proof.
  intros F R. pose proof (F ((b ++ map Measure s) ++ [Collect now])) as E. unfold agg_run, run_alone in E. rewrite fold_left_app in E. cbn [fold_left] in E.
  fold (run_alone aggregate (fun a now => collect a t now) a (b ++ map Measure s)) in E. fold (agg_run t a (b ++ map Measure s)) in E.
  rewrite <- app_assoc in E. rewrite (proj1 (windows_window b s now R)) in E.
  destruct (collect (fst (agg_run t a (b ++ map Measure s))) t now) as [a' p]. cbn [snd] in E. rewrite map_app in E. apply app_inj_tail in E as [_ E]. exact E.
Qed.

Section Streams.
Variable float_int : Z -> option Z.
Variable obj_hash : N -> bool.
Variable obj : N -> instr.
Notation gets := (gets obj).
Notation measured_in := (measured_in obj).

Section Keys.
Variable ks : option (list str).
Notation same_attributes := (same_stream float_int obj_hash ks).
Notation with_attrs := (with_attrs float_int obj_hash ks).
Notation each_attrs := (each_attrs float_int obj_hash ks).

Lemma sames_refl a : same_attributes a a.
Proof. intros k _. unfold equal_values. destruct (look a k); auto. Qed.
Lemma sames_sym a b : same_attributes a b -> same_attributes b a.
Proof. intros H k K. specialize (H k K). unfold equal_values in *. destruct (look a k), (look b k); auto. Qed.
Lemma sames_trans a b c : same_attributes a b -> same_attributes b c -> same_attributes a c.
Proof.
  intros H1 H2 k K. specialize (H1 k K). specialize (H2 k K). unfold equal_values in *.
  destruct (look a k), (look b k), (look c k); auto; try contradiction. congruence.
Qed.

(** A decision procedure *)
Definition keeps (k : str) : bool := match ks with None => true | Some l => existsb (str_eqb k) l end.
Lemma keeps_spec k : keeps k = true <-> kept ks k.
Proof.
  unfold keeps, kept. destruct ks as [l|]; [|tauto]. rewrite existsb_exists. split.
  - intros (x & I & E). apply str_eqb_eq in E. now subst.
  - intro I. exists k. split; [exact I|]. now apply str_eqb_eq.
Qed.
Definition Q (a b : option mattrs) : bool :=
  forallb (fun k => negb (keeps k) || eqv float_int obj_hash (look a k) (look b k)) (keys (given a) ++ keys (given b)).
Lemma Q_spec a b : Q a b = true <-> same_attributes a b.
Proof.
  unfold Q. rewrite forallb_forall. split.
  - intros H k K. apply eqv_spec. destruct (in_dec str_eq_dec k (keys (given a) ++ keys (given b))) as [I|I].
    + specialize (H k I). apply keeps_spec in K. rewrite K in H. exact H.
    + rewrite in_app_iff in I. rewrite !look_out by tauto. reflexivity.
  - intros H k _. destruct (keeps k) eqn:K; [|reflexivity]. cbn. apply eqv_spec, H. now apply keeps_spec.
Qed.
Lemma Q_decides a : decides float_int obj_hash ks (Q a) a.
Proof. intros b _. apply Q_spec. Qed.
Lemma Q_false a b : Q a b = false <-> ~ same_attributes a b.
Proof. rewrite <- Q_spec. destruct (Q a b); split; congruence. Qed.

Definition sel (a : option mattrs) (ms : list measurement) : list Z := map m_amount (filter (fun m => Q a (m_attrs m)) ms).
Lemma sel_app a l1 l2 : sel a (l1 ++ l2) = sel a l1 ++ sel a l2.
Proof. unfold sel. now rewrite filter_app, map_app. Qed.
Lemma with_sel a ms : with_attrs a ms (sel a ms).
Proof.
  induction ms as [|m ms IH]; [constructor|]. unfold sel. cbn [filter]. destruct (Q a (m_attrs m)) eqn:E.
  - cbn [map]. constructor; [now apply Q_spec|exact IH].
  - apply wa_skip; [now apply Q_false|exact IH].
Qed.
Lemma with_is a ms l : with_attrs a ms l <-> l = sel a ms.
Proof.
  split; [|intros ->; apply with_sel]. induction 1 as [|m ms l S _ IH|m ms l S _ IH]; [reflexivity| |]; unfold sel; cbn [filter].
  - apply Q_spec in S. rewrite S. cbn [map]. now f_equal.
  - apply Q_false in S. now rewrite S.
Qed.
Lemma sel_none a ms : sel a ms = [] <-> forall m, In m ms -> ~ same_attributes a (m_attrs m).
Proof.
  unfold sel. split.
  - intros E m I S. apply Q_spec in S. assert (X : In (m_amount m) (map m_amount (filter (fun m => Q a (m_attrs m)) ms))) by (apply in_map, filter_In; auto).
    rewrite E in X. destruct X.
  - intro H. replace (filter (fun m => Q a (m_attrs m)) ms) with (@nil measurement); [reflexivity|]. symmetry. induction ms as [|m ms IH]; [reflexivity|].
    cbn [filter]. assert (E : Q a (m_attrs m) = false) by (apply Q_false, H; now left). rewrite E. apply IH. intros. apply H. now right.
Qed.
Lemma sel_some a ms : sel a ms <> [] -> exists m, In m ms /\ same_attributes a (m_attrs m).
Proof.
  intro N. destruct (existsb (fun m => Q a (m_attrs m)) ms) eqn:E.
  - apply existsb_exists in E as (m & I & E). exists m. split; [exact I|now apply Q_spec].
  - exfalso. apply N. apply sel_none. intros m I S. apply Q_spec in S. assert (X : existsb (fun m => Q a (m_attrs m)) ms = true) by (apply existsb_exists; eauto). congruence.
Qed.

(** ** What a stream sees *)
Definition vm (m : measurement) : vop := VMeasure (m_attrs m) (m_amount m) (m_time m).
Section One.
Variable r : nat.
Variable i : N.
Notation vops := (vops obj r i).
Lemma observed_vm obs now : flat_map (fun ob : observation => let '(j, attrs, v) := ob in if N.eqb j i then [VMeasure attrs v now] else []) obs = map vm (observed i obs now).
Proof. induction obs as [|[[j b] v] obs IH]; [reflexivity|]. cbn [flat_map observed]. rewrite IH. destruct (N.eqb j i); reflexivity. Qed.
Lemma takes_offered k z : offered k z = if takes k z then Some z else None.
Proof. unfold offered, takes. destruct k; try reflexivity; destruct (Z.ltb_spec z 0), (Z.leb_spec 0 z); try reflexivity; lia. Qed.
Definition ends_of (c : pcall) : list vop :=
  match c with PCollect r' _ false now => if Nat.eqb r' r then [VCollect now] else [] | _ => [] end.
Lemma vops_one c : vops [c] = map vm (measured_in r i c) ++ ends_of c.
Proof.
  unfold Proof_Pipeline.vops, ops_for. cbn [flat_map]. rewrite app_nil_r. destruct c as [j b z now|r' obs tmo now]; cbn [pcall_ops Spec_Streams.measured_in ends_of].
  - rewrite takes_offered. destruct (N.eqb_spec j i) as [->|N]; cbn [andb].
    + destruct (takes _ z); cbn [flat_map ops_of]; rewrite ?N.eqb_refl; reflexivity.
    + destruct (takes _ z); cbn [flat_map ops_of]; [|reflexivity]. destruct (N.eqb_spec j i); [contradiction|reflexivity].
  - cbn [flat_map ops_of]. rewrite app_nil_r. destruct (Nat.eqb r' r); [|destruct tmo; reflexivity]. rewrite observed_vm. destruct tmo; reflexivity.
Qed.
Lemma gets_app h1 h2 : gets r i (h1 ++ h2) = gets r i h1 ++ gets r i h2.
Proof. unfold Spec_Streams.gets. apply flat_map_app. Qed.
Lemma gets_cons c h : gets r i (c :: h) = measured_in r i c ++ gets r i h.
Proof. reflexivity. Qed.
(** Without collections *)
Lemma ends_none c : (forall now, ~ collects r c now) -> ends_of c = [].
Proof.
  intro N. destruct c as [|r' obs tmo now]; [reflexivity|]. cbn. destruct tmo; [reflexivity|]. destruct (Nat.eqb_spec r' r) as [->|]; [|reflexivity].
  exfalso. apply (N now). eexists; reflexivity.
Qed.
Lemma vops_quiet part : (forall c now, In c part -> ~ collects r c now) -> vops part = map vm (gets r i part).
Proof.
  induction part as [|c part IH]; intro N; [reflexivity|]. rewrite vops_cons, vops_one, ends_none, IH, gets_cons, map_app, app_nil_r.
  - reflexivity.
  - intros c' n I. apply N. now right.
  - intros n. apply N. now left.
Qed.
Definition begun (a : option mattrs) (l : list vop) : bool := existsb (fun o => match o with VMeasure b _ _ => Q a b | _ => false end) l.
Lemma ops_app a l2 : forall l1 s, stream_ops (Q a) s (l1 ++ l2) = stream_ops (Q a) s l1 ++ stream_ops (Q a) (s || begun a l1) l2.
Proof.
  induction l1 as [|[b v n|n] l1 IH]; intros s; cbn [app stream_ops begun existsb].
  - now rewrite orb_false_r.
  - destruct (Q a b); cbn [orb].
    + rewrite orb_true_r. cbn [app]. f_equal. rewrite IH. reflexivity.
    + rewrite IH. reflexivity.
  - fold (begun a l1). destruct s; cbn [app]; rewrite IH; reflexivity.
Qed.
Lemma ops_map a ms : forall s, stream_ops (Q a) s (map vm ms) = map Measure (sel a ms).
Proof.
  induction ms as [|m ms IH]; intro s; [reflexivity|]. unfold sel. cbn [map filter stream_ops vm]. unfold vm at 1. cbn [stream_ops].
  destruct (Q a (m_attrs m)); [cbn [map]; f_equal; apply IH|apply IH].
Qed.
Lemma begun_map a ms : begun a (map vm ms) = true <-> sel a ms <> [].
Proof.
  unfold begun. rewrite existsb_exists. split.
  - intros (o & I & E) N. apply in_map_iff in I as (m & <- & I). cbn in E. apply Q_spec in E. eapply (proj1 (sel_none a ms)); eassumption.
  - intro N. destruct (sel_some a ms N) as (m & I & S). exists (vm m). split; [now apply in_map|]. now apply Q_spec.
Qed.
Lemma begun_app a l1 l2 : begun a (l1 ++ l2) = begun a l1 || begun a l2.
Proof. apply existsb_app. Qed.
Lemma begun_vops a h : begun a (vops h) = true <-> sel a (gets r i h) <> [].
Proof.
  induction h as [|c h IH]; [cbn; split; [discriminate|congruence]|]. rewrite vops_cons, vops_one, begun_app, begun_app, gets_cons, sel_app.
  assert (E : begun a (ends_of c) = false). { destruct c as [|r' o [] n]; try reflexivity. cbn. destruct (Nat.eqb r' r); reflexivity. }
  rewrite E, orb_false_r, orb_true_iff, IH, begun_map. split.
  - intros [X|X] Y; apply app_eq_nil in Y as [Y1 Y2]; congruence.
  - intro N. destruct (sel a (measured_in r i c)); [right; exact N|left; discriminate].
Qed.
Lemma not_begun a l : begun a l = false -> stream_ops (Q a) false l = [].
Proof.
  induction l as [|[b v n|n] l IH]; cbn [begun existsb stream_ops]; [reflexivity| |exact IH].
  destruct (Q a b); [discriminate|exact IH].
Qed.

(** ** Histories that end with a collection *)
Definition closed (h0 : list pcall) : Prop := h0 = [] \/ exists h1 c now, h0 = h1 ++ [c] /\ collects r c now.
Lemma since_exists h : exists h0 part, since r h h0 part.
Proof.
  induction h as [|c h (h0 & part & -> & N & C)] using rev_ind.
  - exists [], []. split; [reflexivity|]. split; [intros c n []|now left].
  - assert (D : (exists now, collects r c now) \/ forall now, ~ collects r c now).
    { destruct c as [|r' obs [] now]; try (right; intros n (o & E); discriminate). destruct (Nat.eq_dec r' r) as [->|E].
      - left. exists now, obs. reflexivity.
      - right. intros n (o & [= X _ _]). contradiction. }
    destruct D as [(now & D)|D].
    + exists ((h0 ++ part) ++ [c]), []. split; [now rewrite app_nil_r|]. split; [intros c' n []|]. right. exists (h0 ++ part), c, now. auto.
    + exists h0, (part ++ [c]). split; [now rewrite app_assoc|]. split; [|exact C]. intros c' n I. apply in_app_or in I as [I|[<-|[]]]; [now apply N|apply D].
Qed.
Definition told_by (a : option mattrs) (h0 : list pcall) : option (Z * Z) :=
  option_map (fun w => (total (w_since w), w_now w)) (last_nonempty (windows (stream_ops (Q a) false (vops h0)))).
Notation last_told := (last_told float_int obj_hash obj ks).
Lemma closed_ops a : forall h0, closed h0 -> let b := stream_ops (Q a) false (vops h0) in
  replay b = (b, []) /\ measured b = sel a (gets r i h0)
  /\ (forall d, match sel a (gets r i h0) with
                | [] => last (collections b) d = d
                | _ => exists h1 c, h0 = h1 ++ [c] /\ collects r c (last (collections b) d)
                end)
  /\ last_told r i a h0 (told_by a h0).
Proof.
  intros h0. remember (length h0) as n eqn:L. revert h0 L. induction n as [n IH] using (well_founded_induction lt_wf). intros h0 L CL.
  destruct CL as [->|(h & c & now & -> & obs & ->)].
  { cbn. repeat split; auto. left. split; [constructor|reflexivity]. }
  destruct (since_exists h) as (h1 & part & S). pose proof S as (-> & N & C1).
  set (c := PCollect r obs false now) in *.
  assert (Lt : (length h1 < n)%nat) by (rewrite L, !app_length; cbn; lia).
  destruct (IH _ Lt h1 eq_refl C1) as (R & M & _ & T). clear IH.
  set (b := stream_ops (Q a) false (vops h1)) in *. set (es := gets r i part ++ observed i obs now).
  assert (G : gets r i ((h1 ++ part) ++ [c]) = gets r i h1 ++ es).
  { rewrite !gets_app. unfold es. rewrite <- app_assoc. do 2 f_equal. unfold Spec_Streams.gets, c. cbn [flat_map Spec_Streams.measured_in]. rewrite Nat.eqb_refl. apply app_nil_r. }
  assert (V : vops ((h1 ++ part) ++ [c]) = vops h1 ++ map vm es ++ [VCollect now]).
  { rewrite !vops_app, vops_one, (vops_quiet part N). unfold c. cbn [Spec_Streams.measured_in ends_of]. rewrite Nat.eqb_refl. unfold es. rewrite map_app, <- !app_assoc. reflexivity. }
  set (st := begun a (vops h1) || begun a (map vm es)).
  assert (B : stream_ops (Q a) false (vops ((h1 ++ part) ++ [c])) = b ++ map Measure (sel a es) ++ (if st then [Collect now] else [])).
  { rewrite V, ops_app. cbn [orb]. rewrite ops_app, ops_map. fold b. fold st. cbn [stream_ops]. destruct st; reflexivity. }
  cbn zeta. unfold told_by. rewrite B, G, sel_app. destruct st eqn:St.
  - destruct (windows_window b (sel a es) now R) as [W1 W2]. split; [exact W2|]. split; [rewrite measured_window, M; reflexivity|]. split.
    + intro d. destruct (sel a (gets r i h1) ++ sel a es) eqn:E.
      * exfalso. apply app_eq_nil in E as [E1 E2]. apply orb_true_iff in St as [St|St]; [apply begun_vops in St|apply begun_map in St]; congruence.
      * exists (h1 ++ part), c. split; [reflexivity|]. rewrite collections_window, last_snoc. exists obs. reflexivity.
    + rewrite W1, last_nonempty_app. cbn [last_nonempty w_since]. destruct (sel a es) as [|x l] eqn:E.
      * cbn [option_map]. change (option_map _ _) with (told_by a h1). destruct T as [[T1 T2]|(g1 & p1 & o1 & n1 & g2 & l1 & T1 & T2 & T3 & T4 & T5 & T6)].
        -- left. split; [|exact T2]. apply with_is in T1. apply with_is. rewrite G, sel_app, E, <- T1. reflexivity.
        -- right. exists g1, p1, o1, n1, (g2 ++ part ++ [c]), l1. split; [rewrite T1, <- !app_assoc; reflexivity|].
           split; [exact T2|]. split; [exact T3|]. split; [exact T4|]. split; [|exact T6]. apply with_is. apply with_is in T5.
           rewrite gets_app, sel_app, <- T5. cbn [app]. rewrite gets_app. replace (gets r i [c]) with (observed i obs now).
           ++ symmetry. exact E.
           ++ unfold Spec_Streams.gets, c. cbn [flat_map Spec_Streams.measured_in]. now rewrite Nat.eqb_refl, app_nil_r.
      * right. exists h1, part, obs, now, [], (x :: l). split; [now rewrite <- app_assoc|]. split; [exact S|]. split; [apply with_is; symmetry; exact E|]. split; [discriminate|].
        split; [constructor|]. reflexivity.
  - apply orb_false_iff in St as [St1 St2].
    assert (E1 : sel a (gets r i h1) = []) by (destruct (sel a (gets r i h1)) eqn:E; [reflexivity|]; exfalso; assert (X : begun a (vops h1) = true) by (apply begun_vops; congruence); congruence).
    assert (E2 : sel a es = []) by (destruct (sel a es) eqn:E; [reflexivity|]; exfalso; assert (X : begun a (map vm es) = true) by (apply begun_map; congruence); congruence).
    unfold b. rewrite E1, E2, (not_begun a (vops h1) St1). cbn. repeat split; auto. left. split; [|reflexivity]. apply with_is. now rewrite G, sel_app, E1, E2.
Qed.

(** What a stream has seen when a collection reads it *)
Lemma stream_now a h h0 part obs now : since r h h0 part ->
  stream_ops (Q a) false (vops h ++ map vm (observed i obs now))
  = stream_ops (Q a) false (vops h0) ++ map Measure (sel a (gets r i part ++ observed i obs now)).
Proof.
  intros (-> & N & C). rewrite vops_app, (vops_quiet part N), <- app_assoc, <- map_app, ops_app, ops_map. reflexivity.
Qed.
Lemma vops_measure h o : In o (vops h) -> match o with VMeasure b v n => In (b, v, n) (gets r i h) | _ => True end.
Proof.
  induction h as [|c h IH]; [intros []|]. rewrite vops_cons, vops_one, gets_cons. intro I. apply in_app_or in I as [I|I].
  - apply in_app_or in I as [I|I].
    + apply in_map_iff in I as ([[b v] n] & <- & I). cbn. apply in_or_app. now left.
    + destruct c as [|r' ob [] n]; try destruct I. cbn in I. destruct (Nat.eqb r' r); [|destruct I]. destruct I as [<-|[]]. exact Logic.I.
  - specialize (IH I). destruct o; [|exact Logic.I]. apply in_or_app. now right.
Qed.
Lemma gets_vops h m : In m (gets r i h) -> In (vm m) (vops h).
Proof.
  induction h as [|c h IH]; [intros []|]. rewrite vops_cons, vops_one, gets_cons. intro I. apply in_or_app. apply in_app_or in I as [I|I].
  - left. apply in_or_app. left. now apply in_map.
  - right. now apply IH.
Qed.
Lemma vops_cut h : forall l1 m l2, vops h = l1 ++ vm m :: l2 -> exists e1 e2, gets r i h = e1 ++ m :: e2 /\ forall m', In m' e1 -> In (vm m') l1.
Proof.
  assert (CUT : forall es x y l1 m l2, map vm es ++ x ++ y = l1 ++ vm m :: l2 -> (x = [] \/ exists n, x = [VCollect n]) ->
    (exists e1 e2, es = e1 ++ m :: e2 /\ l1 = map vm e1) \/ exists l1', l1 = map vm es ++ x ++ l1' /\ y = l1' ++ vm m :: l2).
  { induction es as [|e es IH]; intros x y l1 m l2 E X; cbn [map app] in *.
    - right. destruct X as [->|(n & ->)]; cbn [app] in *; [exists l1; auto|]. destruct l1 as [|o l1]; [discriminate|]. injection E as -> E. exists l1. auto.
    - destruct l1 as [|o l1]; cbn [app] in E.
      + injection E as E1 E2 E3 _. left. exists [], es. split; [|reflexivity]. cbn [app]. f_equal. destruct e as [[]], m as [[]]. cbn in *. congruence.
      + injection E as E0 E. destruct (IH x y l1 m l2 E X) as [(e1 & e2 & -> & ->)|(l1' & -> & ->)].
        * left. exists (e :: e1), e2. split; [reflexivity|]. cbn [map]. now rewrite E0.
        * right. exists l1'. rewrite E0. auto. }
  induction h as [|c h IH]; intros l1 m l2 E; [destruct l1; discriminate|].
  rewrite vops_cons, vops_one, <- app_assoc in E. rewrite gets_cons.
  destruct (CUT _ _ _ l1 m l2 E) as [(e1 & e2 & -> & ->)|(l1' & -> & E')].
  - destruct c as [|r' ob [] n]; cbn; auto. destruct (Nat.eqb r' r); eauto.
  - exists e1, (e2 ++ gets r i h). split; [now rewrite <- app_assoc|]. intros. now apply in_map.
  - destruct (IH l1' m l2 E') as (e1 & e2 & -> & K). exists (measured_in r i c ++ e1), e2. split; [now rewrite <- app_assoc|].
    intros m' I. apply in_app_or in I as [I|I]; [apply in_or_app; left; now apply in_map|]. apply in_or_app. right. apply in_or_app. right. now apply K.
Qed.
Lemma api_usable h : Forall (api_call float_int obj_hash obj) h -> forall m, In m (gets r i h) -> usable float_int obj_hash ks (m_attrs m).
Proof.
  assert (U : forall b, usable float_int obj_hash None b -> usable float_int obj_hash ks b).
  { intros b [A B]. split; [exact A|]. intros k v _ E. apply (B k v Logic.I E). }
  intros F m I. unfold Spec_Streams.gets in I. apply in_flat_map in I as (c & Ic & I). rewrite Forall_forall in F. specialize (F c Ic).
  destruct c as [j b z now|r' obs tmo now]; cbn [Spec_Streams.measured_in] in I.
  - destruct (N.eqb j i && takes _ z); [|destruct I]. destruct I as [<-|[]]. apply U, F.
  - destruct (Nat.eqb r' r); [|destruct I]. cbn in F. unfold observed in I. apply in_flat_map in I as ([[j b] z] & Io & I).
    rewrite Forall_forall in F. specialize (F _ Io). destruct (N.eqb j i); [|destruct I]. destruct I as [<-|[]]. apply U, F.
Qed.

(** ** One point for each set of attributes *)
Lemma choose_points {DP : Type} (cur : list measurement) (reps : list (option mattrs * Z)) (pt : option mattrs * Z -> list DP) (R : option mattrs -> Z -> DP -> Prop) :
  (forall x y rx ry, nth_error reps x = Some rx -> nth_error reps y = Some ry -> same_attributes (fst rx) (fst ry) -> x = y) ->
  (forall m, In m cur -> exists rep, In rep reps /\ same_attributes (fst rep) (m_attrs m)) ->
  (forall rep, In rep reps -> (sel (fst rep) cur = [] /\ pt rep = []) \/ (sel (fst rep) cur <> [] /\ exists p, pt rep = [p] /\ R (fst rep) (snd rep) p)) ->
  exists reps', each_attrs cur reps' /\ Forall2 (fun a p => exists st, In (a, st) reps /\ R a st p) reps' (flat_map pt reps).
Proof.
  intros D C T.
  exists (map fst (filter (fun rep => match pt rep with [] => false | _ => true end) reps)). split; [split; [|split]|].
  - clear C T. induction reps as [|rep reps IH]; [constructor|]. cbn [filter].
    assert (IH' : ForallOrdPairs (fun a b => ~ same_attributes a b) (map fst (filter (fun rep => match pt rep with [] => false | _ => true end) reps))).
    { apply IH. intros x y rx ry X Y SS. specialize (D (S x) (S y) rx ry X Y SS). lia. }
    destruct (pt rep); [exact IH'|]. cbn [map]. constructor; [|exact IH']. apply Forall_forall. intros a I SS. apply in_map_iff in I as (ry & <- & I).
    apply filter_In in I as [I _]. apply In_nth_error in I as (y & Y). specialize (D 0%nat (S y) rep ry eq_refl Y SS). lia.
  - intros a I. apply in_map_iff in I as (rep & <- & I). apply filter_In in I as [I N]. destruct (T rep I) as [[_ E]|[N' _]].
    + rewrite E in N. discriminate.
    + now apply sel_some.
  - intros m I. destruct (C m I) as (rep & Ir & S). exists (fst rep). split; [|exact S]. apply in_map. apply filter_In. split; [exact Ir|].
    destruct (T rep Ir) as [[E _]|(N' & p & -> & _)]; [|reflexivity]. exfalso. exact (proj1 (sel_none _ _) E m I S).
  - clear D C. assert (K : forall sub, incl sub reps -> Forall2 (fun a p => exists st, In (a, st) reps /\ R a st p)
        (map fst (filter (fun rep => match pt rep with [] => false | _ => true end) sub)) (flat_map pt sub)).
    { induction sub as [|rep sub IH]; intro I; [constructor|]. cbn [filter flat_map].
      assert (I' : incl sub reps) by (intros x X; apply I; now right). specialize (IH I').
      destruct (T rep (I rep (or_introl eq_refl))) as [[_ E]|(N' & p & E & q)]; rewrite E; [exact IH|].
      cbn [map app]. constructor; [|exact IH]. exists (snd rep). split; [|exact q]. destruct rep; apply I; now left. }
    apply K. intros x X; exact X.
Qed.

Variable t : temporality.
Definition series_now (g : aggregation) (h : list pcall) obs now :=
  vm_run float_int obj_hash (create g (in_kind (obj i)) (in_adv (obj i))) aggregate (fun a now => collect a t now) ks (vops h ++ map vm (observed i obs now)).
Notation first_at := (first_at float_int obj_hash ks).
Lemma shown_attrs a : stream_attrs ks a = shown ks a.
Proof.
  unfold stream_attrs, shown, given. destruct ks as [l|]; [|reflexivity]. apply filter_ext. intros [k v]. cbn [fst].
  destruct (in_dec str_eq_dec k l) as [I|I].
  - apply existsb_exists. exists k. split; [exact I|now apply str_eqb_eq].
  - destruct (existsb (str_eqb k) l) eqn:E; [|reflexivity]. exfalso. apply I. apply existsb_exists in E as (x & X & E). apply str_eqb_eq in E. now subst.
Qed.
(** The points, for an aggregation that is known in each window; [cur0] is where the points are expected. *)
Lemma points_now g h h0 part obs now (f : mattrs -> Z -> window -> option point) :
  Forall (api_call float_int obj_hash obj) h -> Forall (fun ob : observation => usable float_int obj_hash None (snd (fst ob))) obs -> since r h h0 part ->
  (forall d st hh, snd (agg_run t (create g (in_kind (obj i)) (in_adv (obj i)) d st) hh) = map (f d st) (windows hh)) ->
  forall cur, (forall m, In m cur -> In m (gets r i h ++ observed i obs now)) ->
  (forall a st, sel a (gets r i h ++ observed i obs now) <> [] ->
     let w := W (stream_ops (Q a) false (vops h0)) (sel a (gets r i part ++ observed i obs now)) now in
     (sel a cur = [] <-> f (shown ks a) st w = None)) ->
  exists reps, each_attrs cur reps
  /\ Forall2 (fun a p => exists st, first_at a (gets r i h ++ observed i obs now) st
       /\ Some p = f (shown ks a) st (W (stream_ops (Q a) false (vops h0)) (sel a (gets r i part ++ observed i obs now)) now))
       reps (snd (vm_collect (fun a now => collect a t now) (series_now g h obs now) now)).
Proof.
  intros F FO S W0 cur Hc K.
  set (hv := vops h ++ map vm (observed i obs now)).
  set (all := gets r i h ++ observed i obs now) in *.
  assert (HV : hv = Proof_Pipeline.vops obj r i (h ++ [PCollect r obs true now])).
  { rewrite vops_app, vops_one. cbn [Spec_Streams.measured_in ends_of]. rewrite Nat.eqb_refl, app_nil_r. reflexivity. }
  assert (AL : all = gets r i (h ++ [PCollect r obs true now])).
  { rewrite gets_app. unfold all. f_equal. unfold Spec_Streams.gets. cbn [flat_map Spec_Streams.measured_in]. now rewrite Nat.eqb_refl, app_nil_r. }
  assert (U : Forall (op_usable float_int obj_hash ks) hv).
  { apply Forall_forall. intros o I. unfold hv in I. apply in_app_or in I as [I|I].
    - pose proof (vops_measure h o I) as J. destruct o as [b v n|n]; [|exact Logic.I]. apply (api_usable h F (b, v, n) J).
    - apply in_map_iff in I as (m & <- & I). cbn. unfold observed in I. apply in_flat_map in I as ([[j b] z] & Io & I).
      destruct (N.eqb j i); [|destruct I]. destruct I as [<-|[]]. rewrite Forall_forall in FO. destruct (FO _ Io) as [A B]. split; [exact A|].
      intros k v _ E. exact (B k v Logic.I E). }
  destruct (streams_public float_int obj_hash ks agg point (create g (in_kind (obj i)) (in_adv (obj i))) aggregate
              (fun a now => collect a t now) hv now U) as (reps & D & I & C & E).
  unfold series_now. fold hv. destruct (E Q Q_decides) as [_ ->]. clear E.
  assert (FI : forall rep, In rep reps -> first_at (fst rep) all (snd rep)).
  { intros rep Ir. destruct (I rep Ir) as (v & l1 & l2 & Eh & N). rewrite HV in Eh. change (VMeasure (fst rep) v (snd rep)) with (vm (fst rep, v, snd rep)) in Eh.
    destruct (vops_cut _ l1 _ l2 Eh) as (e1 & e2 & Ee & X). rewrite AL, Ee. exists e1, (fst rep, v, snd rep), e2. split; [reflexivity|]. split; [apply sames_refl|].
    split; [reflexivity|]. apply with_is. symmetry. apply sel_none. intros m Im. eapply N. apply X. exact Im. }
  assert (NE : forall rep, In rep reps -> sel (fst rep) all <> []).
  { intros rep Ir X. destruct (FI rep Ir) as (e1 & m & e2 & Ee & Sm & _). apply (proj1 (sel_none _ _) X m); [rewrite Ee; apply in_or_app; right; now left|exact Sm]. }
  set (ff := fun rep : option mattrs * Z => f (shown ks (fst rep)) (snd rep) (W (stream_ops (Q (fst rep)) false (vops h0)) (sel (fst rep) (gets r i part ++ observed i obs now)) now)).
  assert (PT : forall rep, snd (collect (fst (run_alone aggregate (fun a now => collect a t now)
      (create g (in_kind (obj i)) (in_adv (obj i)) (stream_attrs ks (fst rep)) (snd rep)) (stream_ops (Q (fst rep)) false hv))) t now) = ff rep).
  { intro rep. unfold hv. rewrite (stream_now (fst rep) h h0 part obs now S), shown_attrs. unfold ff.
    apply (window_after t (create g (in_kind (obj i)) (in_adv (obj i)) (shown ks (fst rep)) (snd rep)) (f (shown ks (fst rep)) (snd rep))); [apply W0|].
    destruct S as (_ & _ & C0). exact (proj1 (closed_ops (fst rep) h0 C0)). }
  destruct (choose_points cur reps (fun rep => match ff rep with Some d => [d] | None => [] end)
     (fun a st p => Some p = f (shown ks a) st (W (stream_ops (Q a) false (vops h0)) (sel a (gets r i part ++ observed i obs now)) now))) as (reps' & A & B).
  - exact D.
  - intros m Im. apply Hc in Im. assert (Iv : In (vm m) hv).
    { rewrite HV. apply gets_vops. now rewrite <- AL. }
    destruct (C _ _ _ Iv) as (rep & Ir & Sr). exists rep. auto.
  - intros rep Ir. specialize (K (fst rep) (snd rep) (NE rep Ir)). cbn zeta in K. fold (ff rep) in K. destruct (ff rep) as [p|] eqn:Ep.
    + right. split; [intro X; apply K in X; discriminate|]. exists p. split; [reflexivity|]. rewrite <- Ep. reflexivity.
    + left. split; [now apply K|reflexivity].
  - exists reps'. split; [exact A|]. rewrite (flat_map_ext _ (fun rep => match ff rep with Some d => [d] | None => [] end)) by (intro rep; rewrite PT; reflexivity).
    eapply Forall2_weaken; [|exact B]. intros a p (st & Ir & X). exists st. split; [exact (FI (a, st) Ir)|exact X].
Qed.

(** ** The points of each kind *)
Notation interval_start := (interval_start float_int obj_hash obj ks).
Notation points g h obs now := (snd (vm_collect (fun a now => collect a t now) (series_now g h obs now) now)).
Lemma sum_created k g adv : gives_sum k g -> exists mono, forall d st, create g k adv d st = AgSum (sum_new d mono (instr_temporality k) st).
Proof. intros [-> | [-> I]]; [eexists; reflexivity|]. cbn in I. destruct k; try (exfalso; repeat (destruct I as [I|I]; [discriminate|]); exact I); eexists; reflexivity. Qed.
Lemma first_cut a e1 e2 s : sel a e1 = [] -> first_at a (e1 ++ e2) s -> first_at a e2 s.
Proof.
  intros N (m1 & m & m2 & E & S & T & W). revert m1 E W. induction e1 as [|e e1 IH]; intros m1 E W; [exists m1, m, m2; auto|].
  assert (N1 : forall x, In x (e :: e1) -> ~ same_attributes a (m_attrs x)) by (now apply sel_none).
  destruct m1 as [|x m1]; cbn [app] in E; injection E as -> E.
  - exfalso. exact (N1 m (or_introl eq_refl) S).
  - apply (IH) with (m1 := m1); [|exact E|].
    + apply sel_none. intros y Y. apply N1. now right.
    + inversion W; subst; auto.
Qed.
Lemma delta_start a h h0 part obs now st : since r h h0 part -> first_at a (gets r i h ++ observed i obs now) st ->
  interval_start r i a h0 (gets r i part ++ observed i obs now) (last (collections (stream_ops (Q a) false (vops h0))) st).
Proof.
  intros (-> & _ & C0) F. destruct (closed_ops a h0 C0) as (_ & _ & L & _). specialize (L st). destruct (sel a (gets r i h0)) as [|x l] eqn:E.
  - rewrite L. right. split; [apply with_is; now rewrite E|]. rewrite gets_app, <- app_assoc in F. now apply first_cut in F.
  - left. destruct L as (h1 & c & -> & K). exists (x :: l), h1, c. split; [apply with_is; now rewrite E|]. split; [discriminate|]. auto.
Qed.
Lemma obs_usable obs now : api_call float_int obj_hash obj (PCollect r obs false now) -> Forall (fun ob : observation => usable float_int obj_hash None (snd (fst ob))) obs.
Proof. intro A. cbn in A. eapply Forall_impl; [|exact A]. intros ob [_ X]. exact X. Qed.
Lemma not_observed obs now : synchronous (in_kind (obj i)) = true -> api_call float_int obj_hash obj (PCollect r obs false now) -> observed i obs now = [].
Proof.
  intros SY A. cbn in A. induction A as [|[[j b] v] obs [E _] _ IH]; [reflexivity|]. cbn [observed flat_map]. unfold observed in IH. rewrite IH. cbn in E.
  destruct (N.eqb_spec j i) as [->|]; [congruence|reflexivity].
Qed.
Section Collection.
Variables (h h0 part : list pcall) (obs : list observation) (now : Z).
Hypothesis F : Forall (api_call float_int obj_hash obj) h.
Hypothesis Fo : api_call float_int obj_hash obj (PCollect r obs false now).
Let cur := gets r i part ++ observed i obs now.

Lemma sum_points g : synchronous (in_kind (obj i)) = true -> gives_sum (in_kind (obj i)) g -> covers t r h h0 part ->
  exists reps, each_attrs (gets r i part) reps
   /\ Forall2 (fun a p => exists l s, with_attrs a (gets r i part) l /\ interval_start r i a h0 (gets r i part) s
                 /\ p = NumberPoint (NP (shown ks a) (Some s) now (total l))) reps (points g h obs now).
Proof.
  intros SY GS CV. destruct (sum_created _ g (in_adv (obj i)) GS) as (mono & Cr). unfold instr_temporality in Cr. rewrite SY in Cr.
  assert (NO := not_observed obs now SY Fo). assert (FO := obs_usable obs now Fo).
  destruct CV as [(T & -> & ->)|[T S]].
  - destruct (since_exists h) as (h1 & part1 & S).
    destruct (points_now g h h1 part1 obs now (fun d st w => Some (NumberPoint (NP d (Some st) (w_now w) (total (so_far w))))) F FO S) with (cur := gets r i h) as (reps & E & P2).
    + intros d st hh. rewrite Cr, T. apply sum_cumulative.
    + intros m I. apply in_or_app. now left.
    + intros a st N. rewrite NO, app_nil_r in N. split; [congruence|discriminate].
    + exists reps. split; [exact E|]. eapply Forall2_weaken; [|exact P2]. intros a p (st & Fa & [= ->]). exists (sel a (gets r i h)), st.
      rewrite NO, app_nil_r in Fa. split; [apply with_sel|]. split; [right; split; [constructor|exact Fa]|].
      unfold so_far. cbn [w_before w_since w_now]. destruct S as (-> & _ & C0). destruct (closed_ops a h1 C0) as (_ & -> & _).
      now rewrite NO, app_nil_r, <- sel_app, <- gets_app.
  - destruct (points_now g h h0 part obs now (delta_sync) F FO S) with (cur := gets r i part) as (reps & E & P2).
    + intros d st hh. rewrite Cr, T. apply sum_delta.
    + intros m I. apply in_or_app. left. destruct S as (-> & _). rewrite gets_app. apply in_or_app. now right.
    + intros a st _. cbn zeta. unfold delta_sync. cbn [w_since]. rewrite NO, app_nil_r. destruct (sel a (gets r i part)); split; congruence.
    + exists reps. split; [exact E|]. eapply Forall2_weaken; [|exact P2]. intros a p (st & Fa & X). unfold delta_sync in X. cbn [w_since w_now] in X.
      pose proof (delta_start a h h0 part obs now st S Fa) as DS. rewrite NO, app_nil_r in X, DS. destruct (sel a (gets r i part)) eqn:Es; [discriminate|]. injection X as ->.
      exists (sel a (gets r i part)). eexists. split; [apply with_sel|]. split; [exact DS|]. rewrite Es. reflexivity.
Qed.
Lemma histogram_points_now g bounds extremes : synchronous (in_kind (obj i)) = true -> gives_histogram (obj i) g bounds extremes -> covers t r h h0 part ->
  exists reps, each_attrs (gets r i part) reps
   /\ Forall2 (fun a p => exists l s, with_attrs a (gets r i part) l /\ l <> [] /\ interval_start r i a h0 (gets r i part) s
                 /\ p = HistogramPoint (hpoint_of (shown ks a) s now bounds extremes l)) reps (points g h obs now).
Proof.
  intros SY GS CV.
  assert (Cr : forall d st, create g (in_kind (obj i)) (in_adv (obj i)) d st = AgHist (hist_new d DELTA st bounds extremes)).
  { destruct GS as [-> | (-> & K & -> & A)]; intros d st.
    - cbn. unfold instr_temporality. now rewrite SY.
    - rewrite K. cbn. destruct A as [-> | [-> ->]]; reflexivity. }
  assert (NO := not_observed obs now SY Fo). assert (FO := obs_usable obs now Fo).
  destruct CV as [(T & -> & ->)|[T S]].
  - destruct (since_exists h) as (h1 & part1 & S).
    destruct (points_now g h h1 part1 obs now (fun d st w => Some (HistogramPoint (hpoint_of d st (w_now w) bounds extremes (so_far w))))) with (cur := gets r i h) as (reps & E & P2); [exact F|exact FO|exact S| | | |].
    + intros d st hh. rewrite Cr, T. apply hist_cumulative.
    + intros m I. apply in_or_app. now left.
    + intros a st N. rewrite NO, app_nil_r in N. split; [congruence|discriminate].
    + exists reps. split; [exact E|]. eapply Forall2_weaken; [|exact P2]. intros a p (st & Fa & [= ->]). exists (sel a (gets r i h)), st.
      rewrite NO, app_nil_r in Fa. split; [apply with_sel|]. split.
      { destruct Fa as (e1 & m & e2 & -> & Sm & _). intro X. apply (proj1 (sel_none _ _) X m); [apply in_or_app; right; now left|exact Sm]. }
      split; [right; split; [constructor|exact Fa]|].
      unfold so_far. cbn [w_before w_since w_now]. destruct S as (-> & _ & C0). destruct (closed_ops a h1 C0) as (_ & -> & _).
      now rewrite NO, app_nil_r, <- sel_app, <- gets_app.
  - destruct (points_now g h h0 part obs now (fun d st w => match w_since w with [] => None | l => Some (HistogramPoint (hpoint_of d (previous_time st w) (w_now w) bounds extremes l)) end)) with (cur := gets r i part) as (reps & E & P2); [exact F|exact FO|exact S| | | |].
    + intros d st hh. rewrite Cr, T. apply hist_delta.
    + intros m I. apply in_or_app. left. destruct S as (-> & _). rewrite gets_app. apply in_or_app. now right.
    + intros a st _. cbn zeta. cbn [w_since]. rewrite NO, app_nil_r. destruct (sel a (gets r i part)); split; congruence.
    + exists reps. split; [exact E|]. eapply Forall2_weaken; [|exact P2]. intros a p (st & Fa & X). cbn [w_since w_now] in X.
      pose proof (delta_start a h h0 part obs now st S Fa) as DS. rewrite NO, app_nil_r in X, DS. destruct (sel a (gets r i part)) eqn:Es; [discriminate|]. injection X as ->.
      exists (sel a (gets r i part)). eexists. split; [apply with_sel|]. split; [congruence|]. split; [exact DS|]. rewrite Es. reflexivity.
Qed.
Lemma gauge_points_now g : gives_gauge (in_kind (obj i)) g -> since r h h0 part ->
  exists reps, each_attrs cur reps
   /\ Forall2 (fun a p => exists l, with_attrs a cur l /\ l <> [] /\ p = NumberPoint (NP (shown ks a) None now (last l 0))) reps (points g h obs now).
Proof.
  intros GG S. assert (FO := obs_usable obs now Fo).
  assert (Cr : forall d st, create g (in_kind (obj i)) (in_adv (obj i)) d st = AgLast (last_new d)).
  { intros d st. destruct GG as [-> | [-> I]]; [reflexivity|]. cbn in I. destruct I as [<- | [<- | []]]; reflexivity. }
  destruct (points_now g h h0 part obs now (fun d st w => match w_since w with [] => None | x :: l => Some (NumberPoint (NP d None (w_now w) (last (x :: l) 0))) end)) with (cur := cur) as (reps & E & P2); [exact F|exact FO|exact S| | | |].
  - intros d st hh. rewrite Cr. apply last_value.
  - intros m I. unfold cur in I. destruct S as (-> & _). rewrite gets_app, <- app_assoc. apply in_or_app. now right.
  - intros a st _. cbn zeta. cbn [w_since]. fold cur. destruct (sel a cur); split; congruence.
  - exists reps. split; [exact E|]. eapply Forall2_weaken; [|exact P2]. intros a p (st & _ & X). cbn [w_since w_now] in X. fold cur in X.
    destruct (sel a cur) eqn:Es; [discriminate|]. injection X as ->. exists (sel a cur). split; [apply with_sel|]. rewrite Es. split; [discriminate|reflexivity].
Qed.
Lemma observed_points_cumulative g : synchronous (in_kind (obj i)) = false -> gives_sum (in_kind (obj i)) g -> t = CUMULATIVE -> since r h h0 part ->
  exists reps, each_attrs cur reps
   /\ Forall2 (fun a p => exists l s, with_attrs a cur l /\ first_at a (gets r i h ++ observed i obs now) s
                 /\ p = NumberPoint (NP (shown ks a) (Some s) now (total l))) reps (points g h obs now).
Proof.
  intros SY GS T S. assert (FO := obs_usable obs now Fo). destruct (sum_created _ g (in_adv (obj i)) GS) as (mono & Cr). unfold instr_temporality in Cr. rewrite SY in Cr.
  destruct (points_now g h h0 part obs now cumulative_async) with (cur := cur) as (reps & E & P2); [exact F|exact FO|exact S| | | |].
  - intros d st hh. rewrite Cr, T. apply async_cumulative.
  - intros m I. unfold cur in I. destruct S as (-> & _). rewrite gets_app, <- app_assoc. apply in_or_app. now right.
  - intros a st _. cbn zeta. unfold cumulative_async. cbn [w_since]. fold cur. destruct (sel a cur); split; congruence.
  - exists reps. split; [exact E|]. eapply Forall2_weaken; [|exact P2]. intros a p (st & Fa & X). unfold cumulative_async in X. cbn [w_since w_now] in X. fold cur in X.
    exists (sel a cur), st. split; [apply with_sel|]. split; [exact Fa|]. destruct (sel a cur) eqn:Es; [discriminate|]. injection X as ->. reflexivity.
Qed.
Lemma observed_points_delta g : synchronous (in_kind (obj i)) = false -> gives_sum (in_kind (obj i)) g -> t = DELTA -> since r h h0 part ->
  exists reps, each_attrs cur reps
   /\ Forall2 (fun a p => exists l told s, with_attrs a cur l /\ last_told r i a h0 told
                 /\ match told with None => first_at a cur s | Some (_, n) => s = n end
                 /\ p = NumberPoint (NP (shown ks a) (Some s) now (total l - match told with None => 0 | Some (x, _) => x end))) reps (points g h obs now).
Proof.
  intros SY GS T S. assert (FO := obs_usable obs now Fo). destruct (sum_created _ g (in_adv (obj i)) GS) as (mono & Cr). unfold instr_temporality in Cr. rewrite SY in Cr.
  destruct (points_now g h h0 part obs now delta_async) with (cur := cur) as (reps & E & P2); [exact F|exact FO|exact S| | | |].
  - intros d st hh. rewrite Cr, T. apply async_delta.
  - intros m I. unfold cur in I. destruct S as (-> & _). rewrite gets_app, <- app_assoc. apply in_or_app. now right.
  - intros a st _. cbn zeta. unfold delta_async. cbn [w_since]. fold cur. destruct (sel a cur); split; congruence.
  - exists reps. split; [exact E|]. eapply Forall2_weaken; [|exact P2]. intros a p (st & Fa & X). unfold delta_async in X. cbn [w_since w_now] in X. fold cur in X.
    destruct S as (-> & _ & C0). destruct (closed_ops a h0 C0) as (_ & _ & _ & TB). exists (sel a cur), (told_by a h0).
    exists (report_time st (last_nonempty (windows (stream_ops (Q a) false (vops h0))))). split; [apply with_sel|]. split; [exact TB|].
    unfold last_report in X. cbn [w_before] in X. unfold told_by in *. destruct (last_nonempty (windows (stream_ops (Q a) false (vops h0)))) as [w|] eqn:EL; cbn [option_map report report_time] in *.
    + split; [reflexivity|]. destruct (sel a cur) eqn:Es; [discriminate|]. injection X as ->. reflexivity.
    + split; [|destruct (sel a cur) eqn:Es; [discriminate|]; injection X as ->; reflexivity].
      destruct TB as [[TB _]|(? & ? & ? & ? & ? & ? & _ & _ & _ & _ & _ & K)]; [|discriminate]. apply with_is in TB. rewrite gets_app, <- app_assoc in Fa. now apply first_cut in Fa.
Qed.
End Collection.
End One.
End Keys.

(** ** The storage and the request *)
Section Request.
Variable fnmatch : str -> str -> bool.
Context {Scope : Type} `{EqDec Scope}.
Variable the_scope : Scope -> scope.
Variable scope_of : N -> Scope.
Variable views : list (@view aggregation).
Variable readers : list (@reader aggregation).
Variable infty : bool -> Z.
Variable to_float : Z -> option Z.
Notation applies := (applies fnmatch (fun s => sco_name (the_scope s)) (fun s => sco_version (the_scope s)) (fun s => sco_schema (the_scope s)) obj scope_of asks_explicit).
Notation view_match := (view_match fnmatch (fun s => sco_name (the_scope s)) (fun s => sco_version (the_scope s)) (fun s => sco_schema (the_scope s)) obj scope_of).
Notation output_after := (output_after float_int obj_hash fnmatch the_scope obj scope_of views readers).
Notation otlp_request := (otlp_request float_int the_scope infty to_float).
Notation api_call := (api_call float_int obj_hash obj).
Notation seen_through := (seen_through fnmatch the_scope obj scope_of views).
Notation metric_in := (metric_in the_scope obj scope_of).

Theorem request_of h r obs now h' rd i v g :
  seen_through i v -> asked obj rd i v g ->
  nth_error readers r = Some rd ->
  Forall api_call (h ++ PCollect r obs false now :: h') ->
  (exists m, In m (gets r i h ++ observed i obs now)) ->
  (forall s s', same_scope_key float_int (Some (the_scope s)) (Some (the_scope s')) = true -> s = s') ->
  let t := rd_temporality rd (in_kind (obj i)) in
  let points := snd (vm_collect (fun a now => collect a t now) (series_now (v_keys v) r i t g h obs now) now) in
  exists out, output_after h (h ++ PCollect r obs false now :: h') = Some (CMetrics r out)
  /\ (points <> [] -> agg_shape obj g i <> ShDrop -> forall res req, otlp_request res out = Some req ->
      exists d, metric_in res i v req d
      /\ data_read to_float (sm_data (otlp_metric infty (Metric (renamed (v_name v) (in_name (obj i))) (renamed (v_descr v) (in_descr (obj i))) (in_unit (obj i)) (agg_shape obj g i) t
            (match in_kind (obj i) with ICounter | IObservableCounter => true | _ => false end) points))) d).
Proof.
  intros ST AS R F (m0 & Im0) Inj t points.
  set (applying := fun i v => view_match v i && compatible obj asks_explicit v i).
  assert (FH : Forall (cop_hashable float_int obj_hash) (flat_map (pcall_ops obj) h ++ CCollect r obs false now :: flat_map (pcall_ops obj) h')).
  { pose proof (api_hashables float_int obj_hash obj _ F) as X. rewrite flat_map_app in X. exact X. }
  destruct (collect_reports float_int obj_hash fnmatch (fun s => sco_name (the_scope s)) (fun s => sco_version (the_scope s)) (fun s => sco_schema (the_scope s))
    obj scope_of Default asks_default asks_explicit (fun g i => create g (in_kind (obj i)) (in_adv (obj i))) aggregate
    (fun t a now => collect a t now) (agg_shape obj) views readers applying (fun i v => view_match_spec _ _ _ _ _ _ _ v i) _ r obs now _ rd FH R) as (out & Eo & No & Go).
  exists out. split.
  { unfold Model_Pipeline.output_after, sdk_run. rewrite flat_map_app. exact Eo. }
  intros NE SD res req Q0.
  specialize (Go (scope_of i)).
  assert (Op : ops_for r i (flat_map (pcall_ops obj) h ++ [CCollect r obs true now]) = vops obj r i h ++ map vm (observed i obs now)).
  { unfold ops_for. rewrite flat_map_app. cbn [flat_map ops_of]. rewrite Nat.eqb_refl, observed_vm, !app_nil_r. reflexivity. }
  assert (St : exists v', In v' (streams Default views applying i) /\ v_name v' = v_name v /\ v_descr v' = v_descr v /\ v_keys v' = v_keys v /\ v_agg v' = v_agg v).
  { unfold streams. destruct ST as [[Iv Av]|(NV & E1 & E2 & E3 & E4)].
    - exists v. split; [|auto]. assert (I : In v (filter (applying i) views)) by (apply filter_In; split; [exact Iv|]; apply view_match_spec; exact Av).
      destruct (filter (applying i) views); [destruct I|exact I].
    - exists (DEFAULT_VIEW Default). rewrite E1, E2, E3, E4. split; [|auto].
      replace (filter (applying i) views) with (@nil (@view aggregation)); [now left|]. symmetry.
      clear - NV. induction views as [|v' vs IH]; [reflexivity|]. cbn [filter]. destruct (applying i v') eqn:E.
      + exfalso. apply (NV v'); [now left|]. apply view_match_spec. exact E.
      + apply IH. intros x I. apply NV. now right. }
  destruct St as (v' & Iv' & V1 & V2 & V3 & V4).
  set (M := Metric (renamed (v_name v) (in_name (obj i))) (renamed (v_descr v) (in_descr (obj i))) (in_unit (obj i)) (agg_shape obj g i) t
            (match in_kind (obj i) with ICounter | IObservableCounter => true | _ => false end) points).
  assert (Ag : (if asks_default (v_agg v') then rd_aggregation rd (in_kind (obj i)) else v_agg v') = g).
  { rewrite V4. destruct AS as [[A ->]|[A ->]]; [|now rewrite A]. destruct (v_agg v); try reflexivity. congruence. }
  assert (Mo : In M (metrics_of float_int obj_hash obj Default asks_default (fun g i => create g (in_kind (obj i)) (in_adv (obj i))) aggregate
    (fun t a now => collect a t now) (agg_shape obj) views applying rd r (flat_map (pcall_ops obj) h ++ [CCollect r obs true now]) now i)).
  { unfold metrics_of. apply in_flat_map. exists v'. split; [exact Iv'|]. unfold series_of. rewrite Op. unfold agg_for. rewrite Ag, V3. fold t.
    change (vm_run _ _ _ _ _ _ _) with (series_now (v_keys v) r i t g h obs now). change (snd (vm_collect _ _ now)) with points.
    unfold reported. rewrite Ag, V1, V2. fold t. unfold M. destruct points as [|p ps]; [congruence|].
    destruct (agg_shape obj g i); try (now left). congruence. }
  assert (Iu : In i (Spec_Storage.once [] (used r (flat_map (pcall_ops obj) h ++ [CCollect r obs true now])))).
  { apply once_in; [|intros []]. unfold used. rewrite flat_map_app. apply in_or_app. apply in_app_or in Im0 as [I|I].
    - left. unfold Spec_Streams.gets in I. apply in_flat_map in I as (c & Ic & I). apply in_flat_map. destruct c as [j b z n|r' ob tmo n]; cbn [Spec_Streams.measured_in] in I.
      + destruct (N.eqb_spec j i) as [->|]; [|destruct I]. cbn [andb] in I. destruct (takes _ z) eqn:Tz; [|destruct I].
        exists (CMeasure i b z n). split; [|now left]. apply in_flat_map. exists (PCall i b z n). split; [exact Ic|]. cbn [pcall_ops]. rewrite (takes_offered i), Tz. now left.
      + destruct (Nat.eqb r' r) eqn:Er; [|destruct I]. exists (CCollect r' ob tmo n). split; [apply in_flat_map; exists (PCollect r' ob tmo n); split; [exact Ic|now left]|].
        rewrite Er. unfold observed in I. apply in_flat_map in I as ([[j b] z] & Io & I). destruct (N.eqb_spec j i) as [->|]; [|destruct I].
        apply in_map_iff. exists (i, b, z). auto.
    - right. cbn [flat_map]. rewrite Nat.eqb_refl, app_nil_r. unfold observed in I. apply in_flat_map in I as ([[j b] z] & Io & I). destruct (N.eqb_spec j i) as [->|]; [|destruct I].
      apply in_map_iff. exists (i, b, z). auto. }
  set (L := flat_map _ _) in Go. assert (IM : In M L).
  { unfold L. apply in_flat_map. exists i. split; [exact Iu|]. destruct (eq_dec (scope_of i) (scope_of i)) as [_|N]; [|contradiction]. exact Mo. }
  assert (Gs : dget (scope_of i) out = Some L) by (rewrite Go; destruct L; [destruct IM|reflexivity]). clear Go.
  apply dget_In in Gs. unfold Model_Pipeline.otlp_request in Q0.
  apply encode_metrics_ok in Q0.
  2:{ cbn. repeat constructor. }
  2:{ constructor; [|constructor]. cbn [snd]. now apply scopes_different. }
  inversion Q0 as [|? gr ? tl [Rg Sg] Tl]; subst. inversion Tl; subst. cbn [fst snd] in Rg, Sg. clear Q0 Tl.
  assert (X : exists sg, In sg (pr_scopes gr) /\ scope_metrics_read to_float (the_scope (scope_of i), map (otlp_metric infty) L) sg).
  { clear - Sg Gs. remember (map _ out) as l eqn:E. assert (I : In (the_scope (scope_of i), map (otlp_metric infty) L) l).
    { subst l. apply in_map_iff. exists (scope_of i, L). auto. }
    clear E Gs. induction Sg as [|x y l l' R _ IH]; [destruct I|]. destruct I as [->|I].
    - exists y. split; [now left|exact R].
    - destruct (IH I) as (sg & A & B). exists sg. split; [now right|exact B]. }
  destruct X as (sg & Isg & Ssg & Msg). cbn [fst snd] in Ssg, Msg.
  assert (Y : exists m, In m (pg_items sg) /\ metric_read to_float (otlp_metric infty M) m).
  { clear - Msg IM. remember (map _ L) as l eqn:E. assert (I : In (otlp_metric infty M) l) by (subst l; now apply in_map).
    clear E IM. induction Msg as [|x y l l' R _ IH]; [destruct I|]. destruct I as [->|I].
    - exists y. split; [now left|exact R].
    - destruct (IH I) as (m & A & B). exists m. split; [now right|exact B]. }
  destruct Y as (m & Im & N1 & N2 & N3 & D). exists (pm_data m). split; [|exact D].
  exists gr, sg, m. split; [reflexivity|]. split; [exact Rg|]. split; [exact Isg|]. split; [exact Ssg|]. split; [exact Im|]. auto.
Qed.
Lemma some_points ks cur reps (pts : list point) R : (exists m, In m cur) -> each_attrs float_int obj_hash ks cur reps -> Forall2 R reps pts -> pts <> [].
Proof. intros (m & I) (_ & _ & C) F E. subst pts. inversion F; subst. destruct (C m I) as (a' & [] & _). Qed.
Lemma sum_shape g i : gives_sum (in_kind (obj i)) g -> agg_shape obj g i = ShSum.
Proof. intro GS. unfold agg_shape. destruct (sum_created _ g (in_adv (obj i)) GS) as (mono & ->). reflexivity. Qed.

(** The sums of a request, from the points *)
Lemma sum_data ks cur reps pts t mono d (R : option mattrs -> point -> Prop) (U : option mattrs -> pb_num -> Prop) :
  (exists m, In m cur) -> each_attrs float_int obj_hash ks cur reps -> Forall2 R reps pts ->
  (forall a p, R a p -> exists q, p = NumberPoint q /\ forall b, num_read true (otlp_num q) b -> U a b) ->
  data_read to_float (MSum (otlp_nums pts) (temporality_number t) mono) d ->
  exists ps, d = PbSum ps (temporality_number t) mono /\ Forall2 U reps ps.
Proof.
  intros NE E P2 K D. pose proof (some_points ks cur reps pts R NE E P2) as NP0. cbn in D.
  assert (D' : exists ps, d = PbSum ps (temporality_number t) mono /\ Forall2 (num_read true) (otlp_nums pts) ps).
  { destruct (otlp_nums pts) as [|x xs] eqn:En; [|exact D]. exfalso. destruct P2 as [|a p ? ? r0 _]; [congruence|]. destruct (K a p r0) as (q & -> & _). discriminate. }
  destruct D' as (ps & -> & Fn). exists ps. split; [reflexivity|].
  eapply Forall2_weaken; [|eapply (nums_read true (fun a p b => U a b)); [exact P2|exact K|exact Fn]]. intros a b (p & _ & X). exact X.
Qed.
Lemma gauge_data ks cur reps pts d (R : option mattrs -> point -> Prop) (U : option mattrs -> pb_num -> Prop) :
  (exists m, In m cur) -> each_attrs float_int obj_hash ks cur reps -> Forall2 R reps pts ->
  (forall a p, R a p -> exists q, p = NumberPoint q /\ forall b, num_read false (otlp_num q) b -> U a b) ->
  data_read to_float (MGauge (otlp_nums pts)) d ->
  exists ps, d = PbGauge ps /\ Forall2 U reps ps.
Proof.
  intros NE E P2 K D. pose proof (some_points ks cur reps pts R NE E P2) as NP0. cbn in D.
  assert (D' : exists ps, d = PbGauge ps /\ Forall2 (num_read false) (otlp_nums pts) ps).
  { destruct (otlp_nums pts) as [|x xs] eqn:En; [|exact D]. exfalso. destruct P2 as [|a p ? ? r0 _]; [congruence|]. destruct (K a p r0) as (q & -> & _). discriminate. }
  destruct D' as (ps & -> & Fn). exists ps. split; [reflexivity|].
  eapply Forall2_weaken; [|eapply (nums_read false (fun a p b => U a b)); [exact P2|exact K|exact Fn]]. intros a b (p & _ & X). exact X.
Qed.
Lemma histogram_data ks cur reps pts t d (R : option mattrs -> point -> Prop) (U : option mattrs -> pb_hist -> Prop) :
  (exists m, In m cur) -> each_attrs float_int obj_hash ks cur reps -> Forall2 R reps pts ->
  (forall a p, R a p -> exists q, p = HistogramPoint q /\ forall b, hist_read to_float (otlp_hist infty q) b -> U a b) ->
  data_read to_float (MHistogram (otlp_hists infty pts) (temporality_number t)) d ->
  exists ps, d = PbHistogram ps (temporality_number t) /\ Forall2 U reps ps.
Proof.
  intros NE E P2 K D. pose proof (some_points ks cur reps pts R NE E P2) as NP0. cbn in D.
  assert (D' : exists ps, d = PbHistogram ps (temporality_number t) /\ Forall2 (hist_read to_float) (otlp_hists infty pts) ps).
  { destruct (otlp_hists infty pts) as [|x xs] eqn:En; [|exact D]. exfalso. destruct P2 as [|a p ? ? r0 _]; [congruence|]. destruct (K a p r0) as (q & -> & _). discriminate. }
  destruct D' as (ps & -> & Fn). exists ps. split; [reflexivity|].
  eapply Forall2_weaken; [|eapply (hists_read infty to_float (fun a p b => U a b)); [exact P2|exact K|exact Fn]]. intros a b (p & _ & X). exact X.
Qed.

Section Final.
Variables (h : list pcall) (r : nat) (obs : list observation) (now : Z) (h' : list pcall) (rd : @reader aggregation) (i : N) (v : @view aggregation) (g : aggregation).
Variables (h0 part : list pcall).
Hypothesis ST : seen_through i v.
Hypothesis AS : asked obj rd i v g.
Hypothesis RD : nth_error readers r = Some rd.
Hypothesis F : Forall api_call (h ++ PCollect r obs false now :: h').
Hypothesis OK : forall s, scope_ok (Some (the_scope s)).
Hypothesis Inj : forall s s', python_equal_scopes float_int (Some (the_scope s)) (Some (the_scope s')) -> s = s'.
Notation t := (rd_temporality rd (in_kind (obj i))).
Notation ks := (v_keys v).
Notation with_attrs := (with_attrs float_int obj_hash ks).
Notation each_attrs := (each_attrs float_int obj_hash ks).
Notation is_counter := (match in_kind (obj i) with ICounter | IObservableCounter => true | _ => false end).
Lemma F_h : Forall api_call h. Proof. now apply Forall_app in F as [? _]. Qed.
Lemma F_c : api_call (PCollect r obs false now). Proof. apply Forall_app in F as [_ X]. now inversion X. Qed.
Lemma counter_is : is_counter = true <-> in_kind (obj i) = ICounter \/ in_kind (obj i) = IObservableCounter.
Proof. destruct (in_kind (obj i)); split; intro X; auto; try discriminate; destruct X; discriminate. Qed.
Theorem sums_in : synchronous (in_kind (obj i)) = true -> gives_sum (in_kind (obj i)) g -> covers t r h h0 part ->
  (exists m, In m (gets r i part)) ->
  exists out, output_after h (h ++ PCollect r obs false now :: h') = Some (CMetrics r out)
  /\ forall res req, otlp_request res out = Some req ->
     exists pts mono reps, metric_in res i v req (PbSum pts (temporality_number t) mono)
     /\ (mono = true <-> in_kind (obj i) = ICounter \/ in_kind (obj i) = IObservableCounter)
     /\ each_attrs (gets r i part) reps
     /\ Forall2 (fun a p => exists l s, with_attrs a (gets r i part) l /\ interval_start float_int obj_hash obj ks r i a h0 (gets r i part) s
                   /\ number_is ks now a s (total l) p) reps pts.
Proof.
  intros SY GS CV NE.
  assert (NE' : exists m, In m (gets r i h ++ observed i obs now)).
  { destruct NE as (m & I). exists m. apply in_or_app. left. rewrite (covers_app _ _ _ _ _ CV), gets_app. apply in_or_app. now right. }
  destruct (sum_points ks r i t h h0 part obs now F_h F_c g SY GS CV) as (reps & E & P2).
  pose proof (some_points ks _ _ _ _ NE E P2) as NP0.
  destruct (request_of h r obs now h' rd i v g ST AS RD F NE' (scopes_injective float_int the_scope OK Inj)) as (out & O & Q0).
  exists out. split; [exact O|]. intros res req Rq. rewrite (sum_shape g i GS) in Q0.
  destruct (Q0 NP0 ltac:(discriminate) res req Rq) as (d & InR & D). cbn [otlp_metric sm_data m_shape m_points m_temporality m_monotonic] in D.
  destruct (sum_data ks _ _ _ t is_counter d _ (fun a p => exists l s, with_attrs a (gets r i part) l /\ interval_start float_int obj_hash obj ks r i a h0 (gets r i part) s
                   /\ number_is ks now a s (total l) p) NE E P2) as (ps & -> & K); [|exact D|].
  { intros a p (l & s & A & B & ->). eexists. split; [reflexivity|]. intros b (B1 & B2 & B3 & B4 & _). exists l, s. split; [exact A|]. split; [exact B|].
    split; [exact B1|]. split; [exact B2|]. split; [exact B3|exact B4]. }
  exists ps. eexists. exists reps. split; [exact InR|]. split; [apply counter_is|]. auto.
Qed.
Theorem histograms_in bounds extremes : synchronous (in_kind (obj i)) = true -> gives_histogram (obj i) g bounds extremes -> sorted bounds -> covers t r h h0 part ->
  (exists m, In m (gets r i part)) ->
  exists out, output_after h (h ++ PCollect r obs false now :: h') = Some (CMetrics r out)
  /\ forall res req, otlp_request res out = Some req ->
     exists pts reps, metric_in res i v req (PbHistogram pts (temporality_number t))
     /\ each_attrs (gets r i part) reps
     /\ Forall2 (fun a p => exists l s, with_attrs a (gets r i part) l /\ interval_start float_int obj_hash obj ks r i a h0 (gets r i part) s
                   /\ histogram_is ks infty to_float bounds extremes now a s l p) reps pts.
Proof.
  intros SY GS So CV NE.
  assert (NE' : exists m, In m (gets r i h ++ observed i obs now)).
  { destruct NE as (m & I). exists m. apply in_or_app. left. rewrite (covers_app _ _ _ _ _ CV), gets_app. apply in_or_app. now right. }
  destruct (histogram_points_now ks r i t h h0 part obs now F_h F_c g bounds extremes SY GS CV) as (reps & E & P2).
  pose proof (some_points ks _ _ _ _ NE E P2) as NP0.
  destruct (request_of h r obs now h' rd i v g ST AS RD F NE' (scopes_injective float_int the_scope OK Inj)) as (out & O & Q0).
  exists out. split; [exact O|]. intros res req Rq.
  assert (SH : agg_shape obj g i = ShHistogram).
  { unfold agg_shape. destruct GS as [-> | (-> & K & _)]; [reflexivity|]. rewrite K. reflexivity. }
  rewrite SH in Q0.
  destruct (Q0 NP0 ltac:(discriminate) res req Rq) as (d & InR & D). cbn [otlp_metric sm_data m_shape m_points m_temporality m_monotonic] in D.
  destruct (histogram_data ks _ _ _ t d _ (fun a p => exists l s, with_attrs a (gets r i part) l /\ interval_start float_int obj_hash obj ks r i a h0 (gets r i part) s
                   /\ histogram_is ks infty to_float bounds extremes now a s l p) NE E P2) as (ps & -> & K); [|exact D|].
  { intros a p (l & s & A & N & S & ->). eexists. split; [reflexivity|]. intros b (B1 & B2 & B3 & B4 & B5 & B6 & B7 & _ & B9 & B10). exists l, s. split; [exact A|]. split; [exact S|].
    destruct (hpoint_of_spec (shown ks a) s now bounds extremes l So) as (H1 & H2 & H3 & H4 & H5 & H6 & H7 & H8).
    set (hp := hpoint_of (shown ks a) s now bounds extremes l) in *.
    cbn [otlp_hist h_attrs h_start h_time h_count h_sum h_buckets h_bounds h_min h_max] in B1, B2, B3, B4, B5, B6, B7, B9, B10.
    assert (Bd : Forall2 (fun b f => to_float b = Some f) bounds (ph_bounds b)).
    { rewrite H1 in B7. apply Forall2_map_l in B7. exact B7. }
    split; [exact B1|]. split; [exact B2|]. split; [exact B3|]. split; [congruence|]. split; [rewrite H5 in B5; exact B5|].
    split; [rewrite B6; exact H2|]. split; [rewrite B6; exact H6|]. split; [exact Bd|]. split.
    - intro Ex. destruct (H7 Ex) as [Mi Ma]. split.
      + destruct Mi as [[-> _]|(x & Ex0 & Ix & Lx)]; [congruence|]. rewrite Ex0 in B9. cbn in B9. destruct (ph_min b) as [f|]; [|contradiction]. exists x, f. auto.
      + destruct Ma as [[-> _]|(x & Ex0 & Ix & Lx)]; [congruence|]. rewrite Ex0 in B10. cbn in B10. destruct (ph_max b) as [f|]; [|contradiction]. exists x, f. auto.
    - intro Ex. destruct (H8 Ex) as [Mi Ma]. rewrite Mi in B9. rewrite Ma in B10. cbn in B9, B10. destruct (ph_min b), (ph_max b); try contradiction. split; congruence. }
  exists ps, reps. auto.
Qed.
Theorem gauges_in : gives_gauge (in_kind (obj i)) g -> since r h h0 part ->
  (exists m, In m (gets r i part ++ observed i obs now)) ->
  exists out, output_after h (h ++ PCollect r obs false now :: h') = Some (CMetrics r out)
  /\ forall res req, otlp_request res out = Some req ->
     exists pts reps, metric_in res i v req (PbGauge pts)
     /\ each_attrs (gets r i part ++ observed i obs now) reps
     /\ Forall2 (fun a p => exists l z, with_attrs a (gets r i part ++ observed i obs now) (l ++ [z]) /\ number_is ks now a 0 z p) reps pts.
Proof.
  intros GG S NE.
  assert (NE' : exists m, In m (gets r i h ++ observed i obs now)).
  { destruct NE as (m & I). exists m. destruct S as (-> & _). rewrite gets_app, <- app_assoc. apply in_or_app. now right. }
  destruct (gauge_points_now ks r i t h h0 part obs now F_h F_c g GG S) as (reps & E & P2).
  pose proof (some_points ks _ _ _ _ NE E P2) as NP0.
  destruct (request_of h r obs now h' rd i v g ST AS RD F NE' (scopes_injective float_int the_scope OK Inj)) as (out & O & Q0).
  exists out. split; [exact O|]. intros res req Rq.
  assert (SH : agg_shape obj g i = ShGauge).
  { unfold agg_shape. destruct GG as [-> | [-> I]]; [reflexivity|]. cbn in I. destruct I as [<- | [<- | []]]; reflexivity. }
  rewrite SH in Q0.
  destruct (Q0 NP0 ltac:(discriminate) res req Rq) as (d & InR & D). cbn [otlp_metric sm_data m_shape m_points m_temporality m_monotonic] in D.
  destruct (gauge_data ks _ _ _ d _ (fun a p => exists l z, with_attrs a (gets r i part ++ observed i obs now) (l ++ [z]) /\ number_is ks now a 0 z p) NE E P2) as (ps & -> & K); [|exact D|].
  { intros a p (l & A & N & ->). eexists. split; [reflexivity|]. intros b (B1 & B2 & B3 & B4 & _). destruct (exists_last N) as (l' & z & ->).
    cbn [otlp_num n_value np_value] in B4. rewrite last_snoc in B4. exists l', z. split; [exact A|]. split; [exact B1|]. split; [exact B2|]. split; [exact B3|exact B4]. }
  exists ps, reps. auto.
Qed.
Theorem observed_cumulative : synchronous (in_kind (obj i)) = false -> gives_sum (in_kind (obj i)) g -> t = CUMULATIVE -> since r h h0 part ->
  (exists m, In m (gets r i part ++ observed i obs now)) ->
  exists out, output_after h (h ++ PCollect r obs false now :: h') = Some (CMetrics r out)
  /\ forall res req, otlp_request res out = Some req ->
     exists pts mono reps, metric_in res i v req (PbSum pts 2 mono)
     /\ (mono = true <-> in_kind (obj i) = IObservableCounter)
     /\ each_attrs (gets r i part ++ observed i obs now) reps
     /\ Forall2 (fun a p => exists l s, with_attrs a (gets r i part ++ observed i obs now) l
                   /\ first_at float_int obj_hash ks a (gets r i h ++ observed i obs now) s /\ number_is ks now a s (total l) p) reps pts.
Proof.
  intros SY GS T S NE.
  assert (NE' : exists m, In m (gets r i h ++ observed i obs now)).
  { destruct NE as (m & I). exists m. destruct S as (-> & _). rewrite gets_app, <- app_assoc. apply in_or_app. now right. }
  destruct (observed_points_cumulative ks r i t h h0 part obs now F_h F_c g SY GS T S) as (reps & E & P2).
  pose proof (some_points ks _ _ _ _ NE E P2) as NP0.
  destruct (request_of h r obs now h' rd i v g ST AS RD F NE' (scopes_injective float_int the_scope OK Inj)) as (out & O & Q0).
  exists out. split; [exact O|]. intros res req Rq. rewrite (sum_shape g i GS) in Q0.
  destruct (Q0 NP0 ltac:(discriminate) res req Rq) as (d & InR & D). cbn [otlp_metric sm_data m_shape m_points m_temporality m_monotonic] in D.
  destruct (sum_data ks _ _ _ t is_counter d _ (fun a p => exists l s, with_attrs a (gets r i part ++ observed i obs now) l
                   /\ first_at float_int obj_hash ks a (gets r i h ++ observed i obs now) s /\ number_is ks now a s (total l) p) NE E P2) as (ps & -> & K); [|exact D|].
  { intros a p (l & s & A & B & ->). eexists. split; [reflexivity|]. intros b (B1 & B2 & B3 & B4 & _). exists l, s. split; [exact A|]. split; [exact B|].
    split; [exact B1|]. split; [exact B2|]. split; [exact B3|exact B4]. }
  rewrite T in InR. exists ps. eexists. exists reps. split; [exact InR|]. split; [|auto]. rewrite counter_is. split; [intros [X|X]; [rewrite X in SY; discriminate|exact X]|auto].
Qed.
Theorem observed_delta : synchronous (in_kind (obj i)) = false -> gives_sum (in_kind (obj i)) g -> t = DELTA -> since r h h0 part ->
  (exists m, In m (gets r i part ++ observed i obs now)) ->
  exists out, output_after h (h ++ PCollect r obs false now :: h') = Some (CMetrics r out)
  /\ forall res req, otlp_request res out = Some req ->
     exists pts mono reps, metric_in res i v req (PbSum pts 1 mono)
     /\ (mono = true <-> in_kind (obj i) = IObservableCounter)
     /\ each_attrs (gets r i part ++ observed i obs now) reps
     /\ Forall2 (fun a p => exists l told s, with_attrs a (gets r i part ++ observed i obs now) l
                   /\ last_told float_int obj_hash obj ks r i a h0 told
                   /\ match told with None => first_at float_int obj_hash ks a (gets r i part ++ observed i obs now) s | Some (_, n) => s = n end
                   /\ number_is ks now a s (total l - match told with None => 0 | Some (x, _) => x end) p) reps pts.
Proof.
  intros SY GS T S NE.
  assert (NE' : exists m, In m (gets r i h ++ observed i obs now)).
  { destruct NE as (m & I). exists m. destruct S as (-> & _). rewrite gets_app, <- app_assoc. apply in_or_app. now right. }
  destruct (observed_points_delta ks r i t h h0 part obs now F_h F_c g SY GS T S) as (reps & E & P2).
  pose proof (some_points ks _ _ _ _ NE E P2) as NP0.
  destruct (request_of h r obs now h' rd i v g ST AS RD F NE' (scopes_injective float_int the_scope OK Inj)) as (out & O & Q0).
  exists out. split; [exact O|]. intros res req Rq. rewrite (sum_shape g i GS) in Q0.
  destruct (Q0 NP0 ltac:(discriminate) res req Rq) as (d & InR & D). cbn [otlp_metric sm_data m_shape m_points m_temporality m_monotonic] in D.
  destruct (sum_data ks _ _ _ t is_counter d _ (fun a p => exists l told s, with_attrs a (gets r i part ++ observed i obs now) l
                   /\ last_told float_int obj_hash obj ks r i a h0 told
                   /\ match told with None => first_at float_int obj_hash ks a (gets r i part ++ observed i obs now) s | Some (_, n) => s = n end
                   /\ number_is ks now a s (total l - match told with None => 0 | Some (x, _) => x end) p) NE E P2) as (ps & -> & K); [|exact D|].
  { intros a p (l & told & s & A & B & C & ->). eexists. split; [reflexivity|]. intros b (B1 & B2 & B3 & B4 & _). exists l, told, s. split; [exact A|]. split; [exact B|]. split; [exact C|].
    split; [exact B1|]. split; [exact B2|]. split; [exact B3|exact B4]. }
  rewrite T in InR. exists ps. eexists. exists reps. split; [exact InR|]. split; [|auto]. rewrite counter_is. split; [intros [X|X]; [rewrite X in SY; discriminate|exact X]|auto].
Qed.
End Final.
End Request.
End Streams.
