(** Proofs about metrics from the calls to the request. *)
From Verif Require Import Proof_Dict Proof_Str Proof_Metrics Proof_View Proof_Otlp Proof_OtlpFields Proof_Storage Spec_Pipeline.
From Coq Require Import Lia.
Local Open Scope Z_scope.

(** ** The last window of a history *)
Lemma replay_snoc h o : replay (h ++ [o]) = match o with
  | Measure v => (fst (replay h), snd (replay h) ++ [v])
  | Collect t => (fst (replay h) ++ map Measure (snd (replay h)) ++ [Collect t], [])
  end.
Proof. unfold replay. rewrite fold_left_app. reflexivity. Qed.
Lemma replay_facts h : snd (replay h) = since_last [] h /\ measured (fst (replay h)) ++ snd (replay h) = measured h
  /\ collections (fst (replay h)) = collections h.
Proof.
  induction h as [|o h (A & B & C)] using rev_ind; [cbn; auto|]. rewrite replay_snoc, since_last_app, measured_app, collections_app, <- A.
  destruct o as [v|t]; cbn [fst snd since_last].
  - rewrite app_assoc, B, C. cbn. rewrite app_nil_r. auto.
  - rewrite measured_window, collections_window, B, C. cbn. rewrite !app_nil_r. auto.
Qed.
Lemma last_window t a f hh now : (forall h, snd (agg_run t a h) = map f (windows h)) ->
  exists b, snd (collect (fst (agg_run t a hh)) t now) = f (W b (since_last [] hh) now)
  /\ measured b ++ since_last [] hh = measured hh /\ collections b = collections hh.
Proof.
  intro F. destruct (replay_facts hh) as (A & B & C). exists (fst (replay hh)). rewrite A in B. split; [|auto].
  pose proof (F (hh ++ [Collect now])) as E. unfold agg_run, run_alone in E. rewrite fold_left_app in E. cbn [fold_left] in E.
  fold (run_alone aggregate (fun a now => collect a t now) a hh) in E. fold (agg_run t a hh) in E.
  unfold windows in E. rewrite windows_app in E. fold (replay hh) in E. cbn [windows_from] in E.
  destruct (collect (fst (agg_run t a hh)) t now) as [a' p]. cbn [snd] in E. rewrite map_app in E. apply app_inj_tail in E as [_ E].
  cbn [snd]. now rewrite <- A.
Qed.

Section Pipeline.
Variable float_int : Z -> option Z.
Variable obj_hash : N -> bool.
Variable obj : N -> instr.
Notation same_attributes := (same_stream float_int obj_hash None).
Notation amounts := (amounts float_int obj_hash obj).
Notation measures := (measures float_int obj_hash obj).
Notation api_call := (api_call float_int obj_hash obj).
Notation each_set := (each_set float_int obj_hash obj).

Lemma same_refl a : same_attributes a a.
Proof. intros k _. unfold equal_values. destruct (look a k); auto. Qed.
Lemma same_sym a b : same_attributes a b -> same_attributes b a.
Proof. intros H k K. specialize (H k K). unfold equal_values in *. destruct (look a k), (look b k); auto. Qed.
Lemma same_trans a b c : same_attributes a b -> same_attributes b c -> same_attributes a c.
Proof.
  intros H1 H2 k K. specialize (H1 k K). specialize (H2 k K). unfold equal_values in *.
  destruct (look a k), (look b k), (look c k); auto; try contradiction. congruence.
Qed.

(** A decision procedure for equal attributes *)
Definition eqv (v w : option pyval) : bool :=
  match v, w with
  | None, None => true
  | Some v, Some w =>
      match canon float_int obj_hash v, canon float_int obj_hash w with
      | Some x, Some y => ckey_eqb x y
      | None, None => true
      | _, _ => false
      end
  | _, _ => false
  end.
Lemma eqv_spec v w : eqv v w = true <-> equal_values float_int obj_hash v w.
Proof.
  unfold eqv, equal_values. destruct v as [v|], w as [w|]; try tauto; try (split; [discriminate|contradiction]).
  destruct (canon float_int obj_hash v), (canon float_int obj_hash w); try tauto; try (split; discriminate).
  rewrite ckey_eqb_spec. split; congruence.
Qed.
Definition P (a b : option mattrs) : bool := forallb (fun k => eqv (look a k) (look b k)) (keys (given a) ++ keys (given b)).
Lemma look_out a k : ~ In k (keys (given a)) -> look a k = None.
Proof. destruct a as [d|]; [|reflexivity]. cbn. intro N. now apply dget_keys. Qed.
Lemma P_spec a b : P a b = true <-> same_attributes a b.
Proof.
  unfold P. rewrite forallb_forall. split.
  - intros H k _. apply eqv_spec. destruct (in_dec str_eq_dec k (keys (given a) ++ keys (given b))) as [I|I]; [now apply H|].
    rewrite in_app_iff in I. rewrite !look_out by tauto. reflexivity.
  - intros H k _. apply eqv_spec, H. exact Logic.I.
Qed.
Lemma P_decides a : decides float_int obj_hash None (P a) a.
Proof. intros b _. apply P_spec. Qed.

Lemma offered_spec k z v : offered k z = Some v <-> v = z /\ counts k z.
Proof.
  assert (X : forall v, Some z = Some v <-> v = z /\ True) by (intro; split; [intros [= <-]; auto|intros [-> _]; reflexivity]).
  assert (Y : (if z <? 0 then None else Some z) = Some v <-> v = z /\ 0 <= z).
  { destruct (Z.ltb_spec z 0); split.
    - discriminate.
    - lia.
    - intros [= <-]. auto.
    - intros [-> _]. reflexivity. }
  unfold offered, counts. destruct k; auto.
Qed.

(** ** Amounts *)
Lemma amounts_det i a h l l' : amounts i a h l -> amounts i a h l' -> l = l'.
Proof.
  intro H. revert l'. induction H as [|c z h l M _ IH|c h l M _ IH]; intros l' H'; inversion H' as [|c' z' h' l1 M' H1|c' h' l1 M' H1]; subst; auto.
  - destruct M as (b & n & -> & _), M' as (b' & n' & [= _ -> _] & _). f_equal. auto.
  - exfalso. eapply M'. exact M.
  - exfalso. eapply M. exact M'.
Qed.
Lemma measures_same i a b c z : same_attributes a b -> measures i a c z -> measures i b c z.
Proof. intros S (d & n & -> & D & C). exists d, n. split; [reflexivity|]. split; [|exact C]. apply same_trans with a; [now apply same_sym|exact D]. Qed.
Lemma amounts_same i a b h l : same_attributes a b -> amounts i a h l -> amounts i b h l.
Proof.
  intros S H. induction H; [constructor| |].
  - constructor; [now apply measures_same with a|assumption].
  - apply am_skip; [|assumption]. intros z M. apply (H z). apply measures_same with b; [now apply same_sym|exact M].
Qed.
Lemma amounts_app i a h1 h2 l1 l2 : amounts i a h1 l1 -> amounts i a h2 l2 -> amounts i a (h1 ++ h2) (l1 ++ l2).
Proof. intros H1 H2. induction H1; cbn [app]; [exact H2|constructor; assumption|apply am_skip; assumption]. Qed.
Lemma amounts_In i a h l c z : amounts i a h l -> In c h -> measures i a c z -> l <> [].
Proof.
  intros A. induction A as [|c' z' h l M _ IH|c' h l M _ IH]; intros I X; [destruct I|discriminate|].
  destruct I as [->|I]; [exfalso; eapply M; exact X|now apply IH].
Qed.
Lemma amounts_has i a h l : amounts i a h l -> l <> [] -> exists c z, In c h /\ measures i a c z.
Proof.
  intros A. induction A as [|c' z' h l M _ IH|c' h l M _ IH]; intro N; [congruence| |].
  - exists c', z'. split; [now left|exact M].
  - destruct (IH N) as (c & z & I & X). exists c, z. split; [now right|exact X].
Qed.

(** ** What a stream sees of the calls *)
Section Stream.
Variable r : nat.
Variable i : N.
Hypothesis SY : synchronous (in_kind (obj i)) = true.
Definition vops (h : list pcall) : list vop := ops_for r i (flat_map (pcall_ops obj) h).
Lemma vops_app h1 h2 : vops (h1 ++ h2) = vops h1 ++ vops h2.
Proof. unfold vops, ops_for. now rewrite !flat_map_app. Qed.
Lemma obs_none (obs : list observation) now : Forall (fun ob : observation => synchronous (in_kind (obj (fst (fst ob)))) = false /\ usable float_int obj_hash None (snd (fst ob))) obs ->
  flat_map (fun ob : observation => let '(j, attrs, v) := ob in if N.eqb j i then [VMeasure attrs v now] else []) obs = [].
Proof.
  induction 1 as [|[[j b] v] obs [E _] _ IH]; [reflexivity|]. cbn [flat_map]. rewrite IH. cbn in E.
  destruct (N.eqb_spec j i) as [->|]; [congruence|reflexivity].
Qed.
Lemma vops_cons c h : vops (c :: h) = vops [c] ++ vops h.
Proof. apply (vops_app [c] h). Qed.
Lemma vops_call c : api_call c ->
  vops [c] = match c with
             | PCall j b z now => if N.eqb j i then match offered (in_kind (obj i)) z with Some v => [VMeasure b v now] | None => [] end else []
             | PCollect r' _ tmo now => if Nat.eqb r' r then if tmo then [] else [VCollect now] else []
             end.
Proof.
  intro A. unfold vops, ops_for. cbn [flat_map]. rewrite app_nil_r. destruct c as [j b z now|r' obs tmo now]; cbn [pcall_ops].
  - destruct (N.eqb_spec j i) as [->|N].
    + destruct (offered _ z); cbn [flat_map ops_of]; rewrite ?N.eqb_refl; reflexivity.
    + destruct (offered _ z); cbn [flat_map ops_of]; [|reflexivity]. destruct (N.eqb_spec j i); [contradiction|reflexivity].
  - cbn [flat_map ops_of]. destruct (Nat.eqb r' r); [|reflexivity]. cbn in A. rewrite (obs_none obs now A), app_nil_r. reflexivity.
Qed.
Definition started (a : option mattrs) (l : list vop) : bool := existsb (fun o => match o with VMeasure b _ _ => P a b | _ => false end) l.
Lemma stream_app a l2 : forall l1 s, stream_ops (P a) s (l1 ++ l2) = stream_ops (P a) s l1 ++ stream_ops (P a) (s || started a l1) l2.
Proof.
  induction l1 as [|[b v n|n] l1 IH]; intros s; cbn [app stream_ops started existsb].
  - now rewrite orb_false_r.
  - destruct (P a b); cbn [orb].
    + rewrite orb_true_r. cbn [app]. f_equal. rewrite IH. reflexivity.
    + rewrite IH. reflexivity.
  - fold (started a l1). destruct s; cbn [app]; rewrite IH; reflexivity.
Qed.
Lemma amounts_measured a h : Forall api_call h -> forall s, amounts i a h (measured (stream_ops (P a) s (vops h))).
Proof.
  induction 1 as [|c h A _ IH]; intros s; [constructor|]. rewrite vops_cons, vops_call, stream_app by exact A.
  rewrite measured_app. destruct c as [j b z now|r' obs tmo now].
  - destruct (N.eqb_spec j i) as [->|N].
    + destruct (offered (in_kind (obj i)) z) as [v|] eqn:O.
      * apply offered_spec in O as [-> C]. cbn [stream_ops]. destruct (P a b) eqn:Pb; cbn [measured flat_map app].
        -- constructor; [|apply IH]. exists b, now. apply P_spec in Pb. auto.
        -- apply am_skip; [|apply IH]. intros y (b' & n & [= -> _ _] & S & _). apply P_spec in S. congruence.
      * apply am_skip; [|apply IH]. intros y (b' & n & [= -> -> _] & S & C). assert (O' : offered (in_kind (obj i)) y = Some y) by (now apply offered_spec). congruence.
    + apply am_skip; [|apply IH]. intros y (b' & n & [= E _ _ _] & _). contradiction.
  - assert (E : forall l : list vop, l = [] \/ (exists n, l = [VCollect n]) -> measured (stream_ops (P a) s l) = []).
    { intros l [->|(n & ->)]; [reflexivity|]. cbn. destruct s; reflexivity. }
    rewrite E by (destruct (Nat.eqb r' r), tmo; eauto). cbn [app]. apply am_skip; [|apply IH]. intros y (b' & n & X & _). discriminate.
Qed.
Lemma started_spec a h s : Forall api_call h -> started a (vops h) = true <-> measured (stream_ops (P a) s (vops h)) <> [].
Proof.
  intros _. generalize (vops h). intro l. revert s. induction l as [|[b v n|n] l IH]; intros s; cbn [started existsb stream_ops].
  - split; [discriminate|]. cbn. congruence.
  - destruct (P a b); cbn; [split; [discriminate|reflexivity]|apply IH].
  - fold (started a l). destruct s; cbn; apply IH.
Qed.
Lemma unstarted a l : started a l = false -> stream_ops (P a) false l = [].
Proof.
  induction l as [|[b v n|n] l IH]; cbn [started existsb stream_ops]; [reflexivity| |exact IH].
  destruct (P a b); [discriminate|exact IH].
Qed.
(** Calls without a collection by this reader *)
Lemma vops_part part : Forall api_call part -> (forall c now, In c part -> ~ collects r c now) -> forall o, In o (vops part) -> exists b v n, o = VMeasure b v n.
Proof.
  induction 1 as [|c h A _ IH]; intros N o I; [destruct I|]. rewrite vops_cons, vops_call in I by exact A. apply in_app_or in I as [I|I].
  - destruct c as [j b z now|r' obs tmo now].
    + destruct (N.eqb j i); [|destruct I]. destruct (offered _ z); [|destruct I]. destruct I as [<-|[]]. eauto.
    + destruct (Nat.eqb_spec r' r) as [->|]; [|destruct I]. destruct tmo; [destruct I|]. exfalso. apply (N (PCollect r obs false now) now); [now left|]. eexists; reflexivity.
  - apply IH; [|exact I]. intros c' n I'. apply N. now right.
Qed.
Lemma only_measures a s l : (forall o, In o l -> exists b v n, o = VMeasure b v n) -> collections (stream_ops (P a) s l) = []
  /\ forall x, since_last x (stream_ops (P a) s l) = x ++ measured (stream_ops (P a) s l).
Proof.
  revert s. induction l as [|o l IH]; intros s H; [cbn; split; [reflexivity|intro; now rewrite app_nil_r]|].
  destruct (H o (or_introl eq_refl)) as (b & v & n & ->). cbn [stream_ops].
  assert (H' : forall o, In o l -> exists b v n, o = VMeasure b v n) by (intros; apply H; now right).
  destruct (P a b); [|now apply IH]. destruct (IH true H') as [A B]. split; [cbn; exact A|]. intro x. cbn [since_last measured flat_map].
  rewrite B. change (flat_map _ _) with (measured (stream_ops (P a) true l)). now rewrite <- app_assoc.
Qed.
Lemma measured_start a l : forall s, measured (stream_ops (P a) s l) = measured (stream_ops (P a) false l).
Proof.
  induction l as [|[b v n|n] l IH]; intros s; cbn [stream_ops]; [reflexivity| |].
  - destruct (P a b); [reflexivity|apply IH].
  - destruct s; [|reflexivity]. cbn. apply IH.
Qed.
(** The part since the last collection *)
Lemma since_stream a h h0 part : Forall api_call h -> since r h h0 part ->
  amounts i a part (since_last [] (stream_ops (P a) false (vops h)))
  /\ forall d, match measured (stream_ops (P a) false (vops h0)) with
               | [] => last (collections (stream_ops (P a) false (vops h))) d = d
               | _ => exists h1 c, h0 = h1 ++ [c] /\ collects r c (last (collections (stream_ops (P a) false (vops h))) d)
               end.
Proof.
  intros F (-> & N & H0). apply Forall_app in F as [F0 F1]. rewrite vops_app, stream_app. cbn [orb].
  destruct (only_measures a (started a (vops h0)) (vops part) (vops_part part F1 N)) as [A B].
  rewrite since_last_app, collections_app, A, app_nil_r, B.
  assert (Z : since_last [] (stream_ops (P a) false (vops h0)) = []
     /\ forall d, match measured (stream_ops (P a) false (vops h0)) with
               | [] => last (collections (stream_ops (P a) false (vops h0))) d = d
               | _ => exists h1 c, h0 = h1 ++ [c] /\ collects r c (last (collections (stream_ops (P a) false (vops h0))) d)
               end).
  { destruct H0 as [->|(h1 & c & now & -> & obs & ->)]; [split; reflexivity|]. apply Forall_app in F0 as [F0 Fc]. inversion Fc as [|? ? Hc _]; subst.
    rewrite vops_app, stream_app, vops_call, Nat.eqb_refl, since_last_app, measured_app, collections_app by exact Hc. cbn [orb stream_ops].
    destruct (started a (vops h1)) eqn:St.
    - change (measured [Collect now]) with (@nil Z). change (collections [Collect now]) with [now]. rewrite app_nil_r. split; [reflexivity|]. intro d.
      assert (M := proj1 (started_spec a h1 false F0) St). revert M. destruct (measured (stream_ops (P a) false (vops h1))) as [|m0 ms]; intros M0; [now elim M0|].
      exists h1, (PCollect r obs false now).
      split; [reflexivity|]. rewrite last_snoc. eexists; reflexivity.
    - rewrite unstarted by exact St. cbn. auto. }
  destruct Z as [-> Z]. cbn [app]. split; [now apply amounts_measured|exact Z].
Qed.
Lemma vops_In b v n h : Forall api_call h -> In (VMeasure b v n) (vops h) -> In (PCall i b v n) h /\ counts (in_kind (obj i)) v.
Proof.
  induction 1 as [|c h A _ IH]; intros I; [destruct I|]. rewrite vops_cons, vops_call in I by exact A. apply in_app_or in I as [I|I].
  - destruct c as [j b' z now|r' obs tmo now].
    + destruct (N.eqb_spec j i) as [->|]; [|destruct I]. destruct (offered _ z) eqn:O; [|destruct I]. destruct I as [[= -> -> ->]|[]].
      apply offered_spec in O as [-> C]. split; [now left|exact C].
    + destruct (Nat.eqb r' r); [|destruct I]. destruct tmo; [destruct I|]. destruct I as [E|[]]; discriminate.
  - destruct (IH I). split; [now right|assumption].
Qed.
Lemma vops_split b v n h : Forall api_call h -> forall l1 l2, vops h = l1 ++ VMeasure b v n :: l2 -> exists h1 h2, h = h1 ++ PCall i b v n :: h2 /\ vops h1 = l1.
Proof.
  induction 1 as [|c h A _ IH]; intros l1 l2 E; [destruct l1; discriminate|]. rewrite vops_cons in E.
  assert (L : vops [c] = [] \/ exists o, vops [c] = [o]).
  { rewrite vops_call by exact A. destruct c as [j b' z now|r' obs tmo now].
    - destruct (N.eqb j i); [|auto]. destruct (offered _ z); eauto.
    - destruct (Nat.eqb r' r); [|auto]. destruct tmo; eauto. }
  assert (Skip : forall k1, vops [c] ++ k1 = l1 -> vops h = k1 ++ VMeasure b v n :: l2 -> exists h1 h2, c :: h = h1 ++ PCall i b v n :: h2 /\ vops h1 = l1).
  { intros k1 K1 K2. destruct (IH k1 l2 K2) as (h1 & h2 & -> & V). exists (c :: h1), h2. split; [reflexivity|]. now rewrite vops_cons, V. }
  destruct L as [L|[o L]]; rewrite L in E; cbn [app] in E.
  - apply (Skip l1); [now rewrite L|exact E].
  - destruct l1 as [|o' l1]; cbn [app] in E; injection E as -> E.
    + exists [], h. split; [|reflexivity]. cbn [app]. f_equal.
      rewrite vops_call in L by exact A. destruct c as [j b' z now|r' obs tmo now].
      * destruct (N.eqb_spec j i) as [->|]; [|discriminate]. destruct (offered _ z) eqn:O; [|discriminate]. injection L as -> -> ->.
        apply offered_spec in O as [-> _]. reflexivity.
      * destruct (Nat.eqb r' r); [|discriminate]. destruct tmo; discriminate.
    + apply (Skip l1); [now rewrite L|exact E].
Qed.
Notation first_measured := (first_measured float_int obj_hash obj).
Lemma vops_first b n h : Forall api_call h ->
  (exists v l1 l2, vops h = l1 ++ VMeasure b v n :: l2 /\ forall a w n, In (VMeasure a w n) l1 -> ~ same_attributes b a) -> first_measured i b h n.
Proof.
  intros F (v & l1 & l2 & E & N). assert (I : In (VMeasure b v n) (vops h)) by (rewrite E; apply in_or_app; right; now left).
  destruct (vops_In b v n h F I) as [_ C]. destruct (vops_split b v n h F l1 l2 E) as (h1 & h2 & -> & V). exists b, v, h1, h2.
  split; [reflexivity|]. split; [apply same_refl|]. split; [exact C|]. apply Forall_app in F as [F _].
  pose proof (amounts_measured b h1 F false) as M. destruct (measured (stream_ops (P b) false (vops h1))) as [|z l] eqn:Em; [exact M|]. exfalso.
  assert (S : started b (vops h1) = true) by (apply (started_spec b h1 false F); congruence).
  apply existsb_exists in S as (o & Io & Po). rewrite V in Io. destruct o as [a w m|]; [|discriminate]. apply P_spec in Po. exact (N a w m Io Po).
Qed.
Lemma In_vops b v n h : Forall api_call h -> In (PCall i b v n) h -> counts (in_kind (obj i)) v -> In (VMeasure b v n) (vops h).
Proof.
  induction 1 as [|c h A _ IH]; intros I C; [destruct I|]. rewrite vops_cons, vops_call by exact A. apply in_or_app. destruct I as [->|I].
  - left. rewrite N.eqb_refl. assert (O : offered (in_kind (obj i)) v = Some v) by (now apply offered_spec). rewrite O. now left.
  - right. now apply IH.
Qed.
Lemma vops_usable h : Forall api_call h -> Forall (op_usable float_int obj_hash None) (vops h).
Proof.
  induction 1 as [|c h A _ IH]; [constructor|]. rewrite vops_cons, vops_call by exact A. apply Forall_app. split; [|exact IH].
  destruct c as [j b' z now|r' obs tmo now].
  - destruct (N.eqb j i); [|constructor]. destruct (offered _ z); repeat constructor; destruct A as [_ []]; assumption.
  - destruct (Nat.eqb r' r); [|constructor]. destruct tmo; repeat constructor.
Qed.

(** ** One point for each set of attributes *)
Lemma select (part : list pcall) (reps : list (option mattrs * Z)) (pt : option mattrs * Z -> list point) (Q : option mattrs -> list Z -> point -> Prop) :
  (forall x y rx ry, nth_error reps x = Some rx -> nth_error reps y = Some ry -> same_attributes (fst rx) (fst ry) -> x = y) ->
  (forall a l, amounts i a part l -> l <> [] -> exists rep, In rep reps /\ same_attributes (fst rep) a) ->
  (forall rep, In rep reps -> exists l, amounts i (fst rep) part l /\ ((l = [] /\ pt rep = []) \/ (l <> [] /\ exists p, pt rep = [p] /\ Q (fst rep) l p))) ->
  exists reps', each_set i part reps' /\ Forall2 (fun a p => exists l, amounts i a part l /\ l <> [] /\ Q a l p) reps' (flat_map pt reps).
Proof.
  intros D C T.
  exists (map fst (filter (fun rep => match pt rep with [] => false | _ => true end) reps)). split; [split; [|split]|].
  - clear C T. induction reps as [|rep reps IH]; [constructor|]. cbn [filter].
    assert (IH' : ForallOrdPairs (fun a b => ~ same_attributes a b) (map fst (filter (fun rep => match pt rep with [] => false | _ => true end) reps))).
    { apply IH. intros x y rx ry X Y SS. specialize (D (S x) (S y) rx ry X Y SS). lia. }
    destruct (pt rep); [exact IH'|]. cbn [map]. constructor; [|exact IH']. apply Forall_forall. intros a I SS. apply in_map_iff in I as (ry & <- & I).
    apply filter_In in I as [I _]. apply In_nth_error in I as (y & Y). specialize (D 0%nat (S y) rep ry eq_refl Y SS). lia.
  - intros a I. apply in_map_iff in I as (rep & <- & I). apply filter_In in I as [I N]. destruct (T rep I) as (l & A & [[-> E]|[N' _]]).
    + rewrite E in N. discriminate.
    + eauto.
  - intros a l A N. destruct (C a l A N) as (rep & I & S). exists (fst rep). split; [|exact S]. apply in_map. apply filter_In. split; [exact I|].
    destruct (T rep I) as (l' & A' & [[-> E]|(N' & p & -> & _)]); [|reflexivity]. exfalso. apply N. apply (amounts_det i a part l []); [exact A|].
    now apply amounts_same with (fst rep).
  - clear D C. induction reps as [|rep reps IH]; [constructor|]. cbn [filter flat_map].
    specialize (IH (fun r I => T r (or_intror I))). destruct (T rep (or_introl eq_refl)) as (l & A & [[-> E]|(N' & p & E & q)]); rewrite E.
    + exact IH.
    + cbn [map app]. constructor; [|exact IH]. exists l. auto.
Qed.

(** The points of the default view of [i]. *)
Variable t : temporality.
Definition the_series (g : aggregation) (h : list pcall) :=
  vm_run float_int obj_hash (create g (in_kind (obj i)) (in_adv (obj i))) aggregate (fun a now => collect a t now) None (vops h).
Lemma series_points g h now h0 part (Q : option mattrs -> list Z -> point -> Prop) : Forall api_call h -> since r h h0 part \/ (h0 = [] /\ part = h) ->
  (forall a st, let hh := stream_ops (P a) false (vops h) in
     first_measured i a h st ->
     exists l, amounts i a part l /\
     match snd (collect (fst (agg_run t (create g (in_kind (obj i)) (in_adv (obj i)) (given a) st) hh)) t now) with
     | None => l = []
     | Some p => l <> [] /\ Q a l p
     end) ->
  exists reps, each_set i part reps
   /\ Forall2 (fun a p => exists l, amounts i a part l /\ l <> [] /\ Q a l p) reps (snd (vm_collect (fun a now => collect a t now) (the_series g h) now)).
Proof.
  intros F CV K.
  destruct (streams_public float_int obj_hash None agg point (create g (in_kind (obj i)) (in_adv (obj i))) aggregate
              (fun a now => collect a t now) (vops h) now (vops_usable h F)) as (reps & D & I & C & E).
  unfold the_series. destruct (E P P_decides) as [_ ->]. clear E. apply select.
  - exact D.
  - intros a l A N. destruct (amounts_has i a part l A N) as (c & z & Ic & (b & n & -> & S & Cz)).
    assert (Ih : In (PCall i b z n) h).
    { destruct CV as [(-> & _)|[_ ->]]; [apply in_or_app; now right|exact Ic]. }
    destruct (C b z n (In_vops b z n h F Ih Cz)) as (rep & Ir & S'). exists rep. split; [exact Ir|]. apply same_trans with b; [exact S'|now apply same_sym].
  - intros rep Ir. destruct (K (fst rep) (snd rep)) as (l & A & M); [apply vops_first; [exact F|exact (I rep Ir)]|]. exists l. split; [exact A|].
    change (stream_attrs None (fst rep)) with (given (fst rep)).
    unfold agg_run in M. destruct (snd (collect _ t now)) as [p|].
    + right. destruct M as [N q]. eauto.
    + left. auto.
Qed.
Notation start_time := (start_time float_int obj_hash obj).

(** The stream of one rep, in the two temporalities *)
Lemma stream_cumulative a h : Forall api_call h -> amounts i a h (measured (stream_ops (P a) false (vops h))).
Proof. intro F. now apply amounts_measured. Qed.
Lemma first_measures a st h : first_measured i a h st -> forall l, amounts i a h l -> l <> [].
Proof.
  intros (b & z & p1 & p2 & -> & S & C & _) l A. apply (amounts_In i a _ l (PCall i b z st) z A); [apply in_or_app; right; now left|].
  exists b, st. auto.
Qed.
Lemma start_cumulative a st h : first_measured i a h st -> start_time i a r [] h st.
Proof. intro I. right. split; [constructor|exact I]. Qed.
Lemma start_delta a st h h0 part : Forall api_call h -> since r h h0 part -> first_measured i a h st ->
  start_time i a r h0 part (last (collections (stream_ops (P a) false (vops h))) st).
Proof.
  intros F S I. destruct (since_stream a h h0 part F S) as [_ L]. specialize (L st). destruct S as (-> & N & H0). apply Forall_app in F as [F0 F1].
  pose proof (amounts_measured a h0 F0 false) as A0. destruct (measured (stream_ops (P a) false (vops h0))) as [|z l] eqn:E.
  - rewrite L. right. split; [exact A0|]. destruct I as (b & z & p1 & p2 & Eh & S & C & A1).
    assert (X : exists q, p1 = h0 ++ q).
    { clear - Eh A0 S C. revert p1 Eh. induction h0 as [|c h0 IH]; intros p1 Eh; [exists p1; reflexivity|].
      inversion A0 as [|? ? ? ? M A|? ? ? M A]; subst. destruct p1 as [|c' p1]; cbn [app] in Eh; injection Eh as -> Eh.
      - exfalso. apply (M z). exists b, st. auto.
      - destruct (IH A p1 Eh) as (q & ->). exists q. reflexivity. }
    destruct X as (q & ->). rewrite <- app_assoc in Eh. apply app_inv_head in Eh. exists b, z, q, p2. split; [exact Eh|]. split; [exact S|]. split; [exact C|].
    clear - A1. revert A1. induction h0 as [|c h0 IH]; cbn [app]; [auto|]. intro A. inversion A; subst. auto.
  - left. destruct L as (h1 & c & -> & K). exists (z :: l), h1, c. split; [exact A0|]. split; [discriminate|]. auto.
Qed.

Notation points g h now := (snd (vm_collect (fun a now => collect a t now) (the_series g h) now)).
Lemma counter_points h now h0 part : in_kind (obj i) = ICounter \/ in_kind (obj i) = IUpDownCounter -> Forall api_call h -> covers t r h h0 part ->
  exists reps, each_set i part reps
   /\ Forall2 (fun a p => exists l, amounts i a part l /\ l <> []
                /\ exists s, p = NumberPoint (NP (given a) (Some s) now (total l)) /\ start_time i a r h0 part s) reps (points Default h now).
Proof.
  intros K F CV. apply series_points with (h0 := h0); [exact F| |].
  { destruct CV as [(_ & -> & ->)|[_ S]]; auto. }
  intros a st hh I.
  assert (Cr : exists mono, create Default (in_kind (obj i)) (in_adv (obj i)) (given a) st = AgSum (sum_new (given a) mono DELTA st)).
  { destruct K as [-> | ->]; eexists; reflexivity. }
  destruct Cr as (mono & ->). destruct CV as [(-> & -> & ->)|[-> S]].
  - exists (measured hh). split; [now apply stream_cumulative|].
    destruct (last_window CUMULATIVE (AgSum (sum_new (given a) mono DELTA st)) _ hh now (sum_cumulative (given a) mono st)) as (b & -> & M & _).
    split; [eapply first_measures; [exact I|now apply stream_cumulative]|]. exists st. split; [|now apply start_cumulative].
    unfold so_far. cbn [w_before w_since w_now]. now rewrite M.
  - exists (since_last [] hh). destruct (since_stream a h h0 part F S) as [A _]. split; [exact A|].
    destruct (last_window DELTA (AgSum (sum_new (given a) mono DELTA st)) _ hh now (sum_delta (given a) mono st)) as (b & -> & _ & L).
    unfold delta_sync. cbn [w_since]. destruct (since_last [] hh) as [|x l] eqn:E; [reflexivity|]. split; [discriminate|].
    eexists. split; [reflexivity|]. unfold previous_time. cbn [w_before]. rewrite L. now apply start_delta.
Qed.
Lemma histogram_points h now h0 part : in_kind (obj i) = IHistogram -> Forall api_call h -> covers t r h h0 part ->
  exists reps, each_set i part reps
   /\ Forall2 (fun a p => exists l, amounts i a part l /\ l <> []
                /\ exists s, p = HistogramPoint (hpoint_of (given a) s now (match in_adv (obj i) with Some b => b | None => DEFAULT_BOUNDARIES end) true l)
                             /\ start_time i a r h0 part s) reps (points Default h now).
Proof.
  intros K F CV. apply series_points with (h0 := h0); [exact F| |].
  { destruct CV as [(_ & -> & ->)|[_ S]]; auto. }
  intros a st hh I. set (bounds := match in_adv (obj i) with Some b => b | None => DEFAULT_BOUNDARIES end).
  assert (Cr : create Default (in_kind (obj i)) (in_adv (obj i)) (given a) st = AgHist (hist_new (given a) DELTA st bounds true)) by (now rewrite K).
  rewrite Cr.
  destruct CV as [(-> & -> & ->)|[-> S]].
  - exists (measured hh). split; [now apply stream_cumulative|].
    destruct (last_window CUMULATIVE _ _ hh now (hist_cumulative (given a) st bounds true)) as (b & -> & M & _).
    split; [eapply first_measures; [exact I|now apply stream_cumulative]|]. exists st. split; [|now apply start_cumulative].
    unfold so_far. cbn [w_before w_since w_now]. now rewrite M.
  - exists (since_last [] hh). destruct (since_stream a h h0 part F S) as [A _]. split; [exact A|].
    destruct (last_window DELTA _ _ hh now (hist_delta (given a) st bounds true)) as (b & -> & _ & L).
    cbn [w_since]. destruct (since_last [] hh) as [|x l] eqn:E; [reflexivity|]. split; [discriminate|].
    eexists. split; [reflexivity|]. unfold previous_time. cbn [w_before]. rewrite L. now apply start_delta.
Qed.
Lemma gauge_points h now h0 part : in_kind (obj i) = IGauge -> Forall api_call h -> since r h h0 part ->
  exists reps, each_set i part reps
   /\ Forall2 (fun a p => exists l, amounts i a part l /\ l <> [] /\ p = NumberPoint (NP (given a) None now (last l 0))) reps (points Default h now).
Proof.
  intros K F S. apply series_points with (h0 := h0); [exact F|now left|].
  intros a st hh I. assert (Cr : create Default (in_kind (obj i)) (in_adv (obj i)) (given a) st = AgLast (last_new (given a))) by (now rewrite K). rewrite Cr.
  exists (since_last [] hh). destruct (since_stream a h h0 part F S) as [A _]. split; [exact A|].
  destruct (last_window t _ _ hh now (last_value (given a) t)) as (b & -> & _ & L).
  cbn [w_since]. destruct (since_last [] hh) as [|x l] eqn:E; [reflexivity|]. split; [discriminate|]. reflexivity.
Qed.
End Stream.

(** ** The storage and the request *)
Section Request.
Variable fnmatch : str -> str -> bool.
Context {Scope : Type} `{EqDec Scope}.
Variable the_scope : Scope -> scope.
Variable scope_of : N -> Scope.
Variable views : list (@view aggregation).
Variable readers : list (@reader aggregation).
Variable infty : bool -> Z.
Variable to_float : Z -> option Z.
Notation applies := (applies fnmatch (fun s => sco_name (the_scope s)) (fun s => sco_version (the_scope s)) (fun s => sco_schema (the_scope s)) obj scope_of asks_explicit).
Notation view_match := (view_match fnmatch (fun s => sco_name (the_scope s)) (fun s => sco_version (the_scope s)) (fun s => sco_schema (the_scope s)) obj scope_of).
Notation output_after := (output_after float_int obj_hash fnmatch the_scope obj scope_of views readers).
Notation otlp_request := (otlp_request float_int the_scope infty to_float).

Lemma api_hashable c : api_call c -> Forall (cop_hashable float_int obj_hash) (pcall_ops obj c).
Proof.
  assert (U : forall b, usable float_int obj_hash None b -> hashable float_int obj_hash b).
  { intros b [N V] d k v -> I. apply (V k v Logic.I). cbn. apply In_dget; [now apply N|exact I]. }
  intro A. destruct c as [j b z n|r obs tmo n]; cbn [pcall_ops].
  - destruct (offered _ z); [|constructor]. constructor; [|constructor]. apply U, A.
  - constructor; [|constructor]. cbn in *. eapply Forall_impl; [|exact A]. intros ob [_ X]. now apply U.
Qed.
Lemma api_hashables h : Forall api_call h -> Forall (cop_hashable float_int obj_hash) (flat_map (pcall_ops obj) h).
Proof. induction 1; [constructor|]. cbn [flat_map]. apply Forall_app. split; [now apply api_hashable|assumption]. Qed.

Lemma scopes_different (out : dict Scope (list (@metric point))) :
  (forall s s', same_scope_key float_int (Some (the_scope s)) (Some (the_scope s')) = true -> s = s') -> NoDup (keys out) ->
  all_different (fun a b => same_scope_key float_int (Some a) (Some b)) (map fst (map (fun e => (the_scope (fst e), map (otlp_metric infty) (snd e))) out)).
Proof.
  intros I N. rewrite map_map. cbn [fst]. unfold all_different. induction out as [|[s ms] out IH]; [constructor|]. cbn [map fst] in *.
  inversion N as [|? ? N1 N2]; subst. constructor; [|now apply IH]. apply Forall_forall. intros s' E. apply in_map_iff in E as ([s0 m0] & <- & E). cbn [fst].
  destruct (same_scope_key _ _ _) eqn:K; [|reflexivity]. apply I in K. subst s0. exfalso. apply N1. apply in_map_iff. exists (s, m0). auto.
Qed.

Lemma once_in l : forall seen x, In x l -> ~ In x seen -> In x (Spec_Storage.once seen l).
Proof.
  induction l as [|y l IH]; intros seen x I N; [destruct I|]. cbn [Spec_Storage.once]. destruct I as [->|I].
  - destruct (in_dec N.eq_dec x seen); [contradiction|now left].
  - destruct (in_dec N.eq_dec y seen); [now apply IH|]. destruct (N.eq_dec y x) as [->|E]; [now left|]. right. apply IH; [exact I|]. intros [K|K]; contradiction.
Qed.
Theorem request_has h r obs now h' rd i :
  synchronous (in_kind (obj i)) = true ->
  (forall v, In v views -> ~ applies i v) ->
  nth_error readers r = Some rd -> rd_aggregation rd (in_kind (obj i)) = Default ->
  Forall api_call (h ++ PCollect r obs false now :: h') ->
  (exists c z a, In c h /\ measures i a c z) ->
  (forall s s', same_scope_key float_int (Some (the_scope s)) (Some (the_scope s')) = true -> s = s') ->
  let t := rd_temporality rd (in_kind (obj i)) in
  let points := snd (vm_collect (fun a now => collect a t now) (the_series r i t Default h) now) in
  exists out, output_after h (h ++ PCollect r obs false now :: h') = Some (CMetrics r out)
  /\ (points <> [] -> agg_shape obj Default i <> ShDrop -> forall res req, otlp_request res out = Some req ->
      exists d, in_request obj res (the_scope (scope_of i)) i req d
      /\ data_read to_float (sm_data (otlp_metric infty (Metric (in_name (obj i)) (in_descr (obj i)) (in_unit (obj i)) (agg_shape obj Default i) t
            (match in_kind (obj i) with ICounter | IObservableCounter => true | _ => false end) points))) d).
Proof.
  intros SY NV R AG F (c & z & a0 & Ic & (b0 & n0 & -> & _ & Cz)) Inj t points.
  set (applying := fun i v => view_match v i && compatible obj asks_explicit v i).
  assert (FH : Forall (cop_hashable float_int obj_hash) (flat_map (pcall_ops obj) h ++ CCollect r obs false now :: flat_map (pcall_ops obj) h')).
  { pose proof (api_hashables _ F) as X. rewrite flat_map_app in X. exact X. }
  destruct (collect_reports float_int obj_hash fnmatch (fun s => sco_name (the_scope s)) (fun s => sco_version (the_scope s)) (fun s => sco_schema (the_scope s))
    obj scope_of Default asks_default asks_explicit (fun g i => create g (in_kind (obj i)) (in_adv (obj i))) aggregate
    (fun t a now => collect a t now) (agg_shape obj) views readers applying (fun i v => view_match_spec _ _ _ _ _ _ _ v i) _ r obs now _ rd FH R) as (out & Eo & No & Go).
  exists out. split.
  { unfold Model_Pipeline.output_after, sdk_run. rewrite flat_map_app. exact Eo. }
  intros NE SD res req Q. apply Forall_app in F as [F1 F2]. inversion F2 as [|? ? Fc _]; subst.
  specialize (Go (scope_of i)).
  assert (Op : ops_for r i (flat_map (pcall_ops obj) h ++ [CCollect r obs true now]) = vops r i h).
  { unfold ops_for. rewrite flat_map_app. cbn [flat_map ops_of]. rewrite Nat.eqb_refl, (obs_none i SY obs now Fc). cbn [app]. now rewrite app_nil_r. }
  assert (St : streams Default views applying i = [DEFAULT_VIEW Default]).
  { unfold streams. replace (filter (applying i) views) with (@nil (@view aggregation)); [reflexivity|]. symmetry.
    clear - NV. induction views as [|v vs IH]; [reflexivity|]. cbn [filter]. destruct (applying i v) eqn:E.
    - exfalso. apply (NV v); [now left|]. apply view_match_spec. exact E.
    - apply IH. intros v' I. apply NV. now right. }
  set (M := Metric (in_name (obj i)) (in_descr (obj i)) (in_unit (obj i)) (agg_shape obj Default i) t
            (match in_kind (obj i) with ICounter | IObservableCounter => true | _ => false end) points).
  assert (Mo : metrics_of float_int obj_hash obj Default asks_default (fun g i => create g (in_kind (obj i)) (in_adv (obj i))) aggregate
    (fun t a now => collect a t now) (agg_shape obj) views applying rd r (flat_map (pcall_ops obj) h ++ [CCollect r obs true now]) now i = [M]).
  { unfold metrics_of. rewrite St. cbn [flat_map]. rewrite app_nil_r. unfold series_of. rewrite Op. unfold agg_for. cbn [v_agg DEFAULT_VIEW asks_default v_keys].
    rewrite AG. fold t. change (vm_run _ _ _ _ _ _ _) with (the_series r i t Default h). change (snd (vm_collect _ _ now)) with points.
    unfold reported. cbn [v_agg DEFAULT_VIEW asks_default v_name v_descr]. rewrite AG. fold t. unfold M. destruct points as [|p ps]; [congruence|].
    destruct (agg_shape obj Default i); try reflexivity. congruence. }
  assert (Iu : In i (Spec_Storage.once [] (used r (flat_map (pcall_ops obj) h ++ [CCollect r obs true now])))).
  { apply once_in; [|intros []]. unfold used. rewrite flat_map_app. apply in_or_app. left. apply in_flat_map. exists (CMeasure i b0 z n0). split; [|now left].
    apply in_flat_map. exists (PCall i b0 z n0). split; [exact Ic|]. cbn [pcall_ops]. assert (O : offered (in_kind (obj i)) z = Some z) by (now apply offered_spec).
    rewrite O. now left. }
  set (L := flat_map _ _) in Go. assert (IM : In M L).
  { unfold L. apply in_flat_map. exists i. split; [exact Iu|]. destruct (eq_dec (scope_of i) (scope_of i)) as [_|N]; [|contradiction]. rewrite Mo. now left. }
  assert (Gs : dget (scope_of i) out = Some L) by (rewrite Go; destruct L; [destruct IM|reflexivity]). clear Go.
  apply dget_In in Gs. unfold Model_Pipeline.otlp_request in Q.
  apply encode_metrics_ok in Q.
  2:{ cbn. repeat constructor. }
  2:{ constructor; [|constructor]. cbn [snd]. now apply scopes_different. }
  inversion Q as [|? g ? tl [Rg Sg] Tl]; subst. inversion Tl; subst. cbn [fst snd] in Rg, Sg. clear Q Tl.
  assert (X : exists sg, In sg (pr_scopes g) /\ scope_metrics_read to_float (the_scope (scope_of i), map (otlp_metric infty) L) sg).
  { clear - Sg Gs. remember (map _ out) as l eqn:E. assert (I : In (the_scope (scope_of i), map (otlp_metric infty) L) l).
    { subst l. apply in_map_iff. exists (scope_of i, L). auto. }
    clear E Gs. induction Sg as [|x y l l' R _ IH]; [destruct I|]. destruct I as [->|I].
    - exists y. split; [now left|exact R].
    - destruct (IH I) as (sg & A & B). exists sg. split; [now right|exact B]. }
  destruct X as (sg & Isg & Ssg & Msg). cbn [fst snd] in Ssg, Msg.
  assert (Y : exists m, In m (pg_items sg) /\ metric_read to_float (otlp_metric infty M) m).
  { clear - Msg IM. remember (map _ L) as l eqn:E. assert (I : In (otlp_metric infty M) l) by (subst l; now apply in_map).
    clear E IM. induction Msg as [|x y l l' R _ IH]; [destruct I|]. destruct I as [->|I].
    - exists y. split; [now left|exact R].
    - destruct (IH I) as (m & A & B). exists m. split; [now right|exact B]. }
  destruct Y as (m & Im & N1 & N2 & N3 & D). exists (pm_data m). split; [|exact D].
  exists g, sg, m. split; [reflexivity|]. split; [exact Rg|]. split; [exact Isg|]. split; [exact Ssg|]. split; [exact Im|]. auto.
Qed.

(** ** The three kinds of instruments *)
Notation start_time := (start_time float_int obj_hash obj).
Lemma nums_read w (Q : option mattrs -> point -> pb_num -> Prop) reps pts pbs (R : option mattrs -> point -> Prop) :
  Forall2 R reps pts -> (forall a p, R a p -> exists q, p = NumberPoint q /\ forall b, num_read w (otlp_num q) b -> Q a p b) ->
  Forall2 (num_read w) (otlp_nums pts) pbs -> Forall2 (fun a b => exists p, R a p /\ Q a p b) reps pbs.
Proof.
  intros F K. revert pbs. induction F as [|a p reps pts r0 F IH]; intros pbs N.
  - inversion N; constructor.
  - destruct (K a p r0) as (q & -> & K'). unfold otlp_nums in N. cbn [flat_map app] in N. inversion N as [|? b ? pbs' Nb N']; subst.
    constructor; [|now apply IH]. exists (NumberPoint q). auto.
Qed.
Lemma hists_read (Q : option mattrs -> point -> pb_hist -> Prop) reps pts pbs (R : option mattrs -> point -> Prop) :
  Forall2 R reps pts -> (forall a p, R a p -> exists q, p = HistogramPoint q /\ forall b, hist_read to_float (otlp_hist infty q) b -> Q a p b) ->
  Forall2 (hist_read to_float) (otlp_hists infty pts) pbs -> Forall2 (fun a b => exists p, R a p /\ Q a p b) reps pbs.
Proof.
  intros F K. revert pbs. induction F as [|a p reps pts r0 F IH]; intros pbs N.
  - inversion N; constructor.
  - destruct (K a p r0) as (q & -> & K'). unfold otlp_hists in N. cbn [flat_map app] in N. inversion N as [|? b ? pbs' Nb N']; subst.
    constructor; [|now apply IH]. exists (HistogramPoint q). auto.
Qed.
Lemma Forall2_map_l {X Y W} (f : X -> Y) (R : Y -> W -> Prop) l : forall m, Forall2 R (map f l) m -> Forall2 (fun x w => R (f x) w) l m.
Proof. induction l as [|x l IH]; intros m F; inversion F; subst; constructor; auto. Qed.
Lemma Forall2_weaken {X Y} (R Q : X -> Y -> Prop) l m : (forall x y, R x y -> Q x y) -> Forall2 R l m -> Forall2 Q l m.
Proof. intros I F. induction F; constructor; auto. Qed.
Lemma scopes_injective : (forall s, scope_ok (Some (the_scope s))) ->
  (forall s s', python_equal_scopes float_int (Some (the_scope s)) (Some (the_scope s')) -> s = s') ->
  forall s s', same_scope_key float_int (Some (the_scope s)) (Some (the_scope s')) = true -> s = s'.
Proof. intros OK I s s' E. apply I. apply scope_key_spec; auto. Qed.
Lemma nonempty_points i part reps (pts : list point) R : (exists a l, amounts i a part l /\ l <> []) -> each_set i part reps -> Forall2 R reps pts -> pts <> [].
Proof. intros (a & l & A & N) (_ & _ & C) F E. subst pts. inversion F; subst. destruct (C a l A N) as (a' & [] & _). Qed.
Lemma part_has i part h h0 : (exists a l, amounts i a part l /\ l <> []) -> h = h0 ++ part -> exists c z a, In c h /\ measures i a c z.
Proof. intros (a & l & A & N) ->. destruct (amounts_has i a part l A N) as (c & z & I & M). exists c, z, a. split; [apply in_or_app; now right|exact M]. Qed.
Lemma covers_app t r h h0 part : covers t r h h0 part -> h = h0 ++ part.
Proof. intros [(_ & -> & ->)|(_ & -> & _)]; reflexivity. Qed.

Theorem counter_request h r obs now h' rd i h0 part :
  in_kind (obj i) = ICounter \/ in_kind (obj i) = IUpDownCounter ->
  (forall v, In v views -> ~ applies i v) ->
  nth_error readers r = Some rd -> rd_aggregation rd (in_kind (obj i)) = Default ->
  Forall api_call (h ++ PCollect r obs false now :: h') ->
  covers (rd_temporality rd (in_kind (obj i))) r h h0 part -> (exists a l, amounts i a part l /\ l <> []) ->
  (forall s, scope_ok (Some (the_scope s))) ->
  (forall s s', python_equal_scopes float_int (Some (the_scope s)) (Some (the_scope s')) -> s = s') ->
  exists out, output_after h (h ++ PCollect r obs false now :: h') = Some (CMetrics r out)
  /\ forall res req, otlp_request res out = Some req ->
     exists pts mono reps,
       in_request obj res (the_scope (scope_of i)) i req (PbSum pts (temporality_number (rd_temporality rd (in_kind (obj i)))) mono)
       /\ (mono = true <-> in_kind (obj i) = ICounter)
       /\ each_set i part reps
       /\ Forall2 (fun a p => exists l s, amounts i a part l /\ start_time i a r h0 part s /\ says_number now a s (total l) p) reps pts.
Proof.
  intros K NV R AG F CV Ne OK Inj.
  assert (SY : synchronous (in_kind (obj i)) = true) by (destruct K as [-> | ->]; reflexivity).
  assert (F1 : Forall api_call h) by (now apply Forall_app in F as [? _]).
  destruct (counter_points r i SY _ h now h0 part K F1 CV) as (reps & E & P2).
  pose proof (nonempty_points i part reps _ _ Ne E P2) as NP0.
  destruct (request_has h r obs now h' rd i SY NV R AG F (part_has i part h h0 Ne (covers_app _ r h h0 part CV)) (scopes_injective OK Inj)) as (out & O & Q).
  exists out. split; [exact O|]. intros res req Rq.
  assert (SH : agg_shape obj Default i = ShSum) by (unfold agg_shape; destruct K as [-> | ->]; reflexivity). rewrite SH in Q.
  destruct (Q NP0 ltac:(discriminate) res req Rq) as (d & InR & D). cbn [otlp_metric sm_data m_shape m_points m_temporality m_monotonic] in D.
  set (pts := snd (vm_collect _ _ now)) in *.
  assert (D' : exists ps, d = PbSum ps (temporality_number (rd_temporality rd (in_kind (obj i))))
                 (match in_kind (obj i) with ICounter | IObservableCounter => true | _ => false end) /\ Forall2 (num_read true) (otlp_nums pts) ps).
  { destruct (otlp_nums pts) as [|x xs] eqn:En; [|exact D]. exfalso. destruct pts as [|p pts']; [congruence|]. inversion P2 as [|a ? ? ? (l & _ & _ & s0 & -> & _) _]; subst. discriminate. }
  destruct D' as (ps & -> & Fn). exists ps. eexists. exists reps. split; [exact InR|]. split.
  { destruct K as [-> | ->]; split; congruence. }
  split; [exact E|]. eapply Forall2_weaken; [|eapply (nums_read true (fun a p b => exists l s, amounts i a part l /\ start_time i a r h0 part s /\ says_number now a s (total l) b)); [exact P2| |exact Fn]].
  - intros a b (p & _ & X). exact X.
  - intros a p (l & A & _ & s & -> & S). eexists. split; [reflexivity|]. intros b (B1 & B2 & B3 & B4 & _). exists l, s. split; [exact A|]. split; [exact S|].
    split; [exact B1|]. split; [exact B2|]. split; [exact B3|exact B4].
Qed.
Theorem gauge_request h r obs now h' rd i h0 part :
  in_kind (obj i) = IGauge ->
  (forall v, In v views -> ~ applies i v) ->
  nth_error readers r = Some rd -> rd_aggregation rd (in_kind (obj i)) = Default ->
  Forall api_call (h ++ PCollect r obs false now :: h') ->
  since r h h0 part -> (exists a l, amounts i a part l /\ l <> []) ->
  (forall s, scope_ok (Some (the_scope s))) ->
  (forall s s', python_equal_scopes float_int (Some (the_scope s)) (Some (the_scope s')) -> s = s') ->
  exists out, output_after h (h ++ PCollect r obs false now :: h') = Some (CMetrics r out)
  /\ forall res req, otlp_request res out = Some req ->
     exists pts reps,
       in_request obj res (the_scope (scope_of i)) i req (PbGauge pts)
       /\ each_set i part reps
       /\ Forall2 (fun a p => exists l z, amounts i a part (l ++ [z]) /\ says_number now a 0 z p) reps pts.
Proof.
  intros K NV R AG F S Ne OK Inj.
  assert (SY : synchronous (in_kind (obj i)) = true) by (rewrite K; reflexivity).
  assert (F1 : Forall api_call h) by (now apply Forall_app in F as [? _]).
  destruct (gauge_points r i SY (rd_temporality rd (in_kind (obj i))) h now h0 part K F1 S) as (reps & E & P2).
  pose proof (nonempty_points i part reps _ _ Ne E P2) as NP0.
  destruct (request_has h r obs now h' rd i SY NV R AG F (part_has i part h h0 Ne (proj1 S)) (scopes_injective OK Inj)) as (out & O & Q).
  exists out. split; [exact O|]. intros res req Rq.
  assert (SH : agg_shape obj Default i = ShGauge) by (unfold agg_shape; rewrite K; reflexivity). rewrite SH in Q.
  destruct (Q NP0 ltac:(discriminate) res req Rq) as (d & InR & D). cbn [otlp_metric sm_data m_shape m_points m_temporality m_monotonic] in D.
  set (pts := snd (vm_collect _ _ now)) in *.
  assert (D' : exists ps, d = PbGauge ps /\ Forall2 (num_read false) (otlp_nums pts) ps).
  { destruct (otlp_nums pts) as [|x xs] eqn:En; [|exact D]. exfalso. destruct pts as [|p pts']; [congruence|]. inversion P2 as [|a ? ? ? (l & _ & _ & ->) _]; subst. discriminate. }
  destruct D' as (ps & -> & Fn). exists ps, reps. split; [exact InR|].
  split; [exact E|]. eapply Forall2_weaken; [|eapply (nums_read false (fun a p b => exists l z, amounts i a part (l ++ [z]) /\ says_number now a 0 z b)); [exact P2| |exact Fn]].
  - intros a b (p & _ & X). exact X.
  - intros a p (l & A & N & ->). eexists. split; [reflexivity|]. intros b (B1 & B2 & B3 & B4 & _). destruct (exists_last N) as (l' & z & ->).
    rewrite last_snoc in B4. exists l', z. split; [exact A|]. split; [exact B1|]. split; [exact B2|]. split; [exact B3|exact B4].
Qed.
Theorem histogram_request h r obs now h' rd i h0 part bounds :
  in_kind (obj i) = IHistogram -> in_adv (obj i) = Some bounds \/ (in_adv (obj i) = None /\ bounds = DEFAULT_BOUNDARIES) -> sorted bounds ->
  (forall v, In v views -> ~ applies i v) ->
  nth_error readers r = Some rd -> rd_aggregation rd (in_kind (obj i)) = Default ->
  Forall api_call (h ++ PCollect r obs false now :: h') ->
  covers (rd_temporality rd (in_kind (obj i))) r h h0 part -> (exists a l, amounts i a part l /\ l <> []) ->
  (forall s, scope_ok (Some (the_scope s))) ->
  (forall s s', python_equal_scopes float_int (Some (the_scope s)) (Some (the_scope s')) -> s = s') ->
  exists out, output_after h (h ++ PCollect r obs false now :: h') = Some (CMetrics r out)
  /\ forall res req, otlp_request res out = Some req ->
     exists pts reps,
       in_request obj res (the_scope (scope_of i)) i req (PbHistogram pts (temporality_number (rd_temporality rd (in_kind (obj i)))))
       /\ each_set i part reps
       /\ Forall2 (fun a p => exists l s, amounts i a part l /\ start_time i a r h0 part s /\ says_histogram to_float bounds now a s l p) reps pts.
Proof.
  intros K Bo So NV R AG F CV Ne OK Inj.
  assert (SY : synchronous (in_kind (obj i)) = true) by (rewrite K; reflexivity).
  assert (F1 : Forall api_call h) by (now apply Forall_app in F as [? _]).
  destruct (histogram_points r i SY _ h now h0 part K F1 CV) as (reps & E & P2).
  assert (Bo' : match in_adv (obj i) with Some b => b | None => DEFAULT_BOUNDARIES end = bounds) by (destruct Bo as [->|[-> ->]]; reflexivity).
  rewrite Bo' in P2.
  pose proof (nonempty_points i part reps _ _ Ne E P2) as NP0.
  destruct (request_has h r obs now h' rd i SY NV R AG F (part_has i part h h0 Ne (covers_app _ r h h0 part CV)) (scopes_injective OK Inj)) as (out & O & Q).
  exists out. split; [exact O|]. intros res req Rq.
  assert (SH : agg_shape obj Default i = ShHistogram) by (unfold agg_shape; rewrite K; reflexivity). rewrite SH in Q.
  destruct (Q NP0 ltac:(discriminate) res req Rq) as (d & InR & D). cbn [otlp_metric sm_data m_shape m_points m_temporality m_monotonic] in D.
  set (pts := snd (vm_collect _ _ now)) in *.
  assert (D' : exists ps, d = PbHistogram ps (temporality_number (rd_temporality rd (in_kind (obj i)))) /\ Forall2 (hist_read to_float) (otlp_hists infty pts) ps).
  { destruct (otlp_hists infty pts) as [|x xs] eqn:En; [|exact D]. exfalso. destruct pts as [|p pts']; [congruence|]. inversion P2 as [|a ? ? ? (l & _ & _ & s0 & -> & _) _]; subst. discriminate. }
  destruct D' as (ps & -> & Fn). exists ps, reps. split; [exact InR|].
  split; [exact E|]. eapply Forall2_weaken; [|eapply (hists_read (fun a p b => exists l s, amounts i a part l /\ start_time i a r h0 part s /\ says_histogram to_float bounds now a s l b)); [exact P2| |exact Fn]].
  - intros a b (p & _ & X). exact X.
  - intros a p (l & A & N & s & -> & S). eexists. split; [reflexivity|]. intros b (B1 & B2 & B3 & B4 & B5 & B6 & B7 & _ & B9 & B10). exists l, s. split; [exact A|]. split; [exact S|].
    destruct (hpoint_of_spec (given a) s now bounds true l So) as (H1 & H2 & H3 & H4 & H5 & H6 & H7 & _).
    set (hp := hpoint_of (given a) s now bounds true l) in *. destruct (H7 eq_refl) as [Mi Ma].
    cbn [otlp_hist h_attrs h_start h_time h_count h_sum h_buckets h_bounds h_min h_max] in B1, B2, B3, B4, B5, B6, B7, B9, B10.
    assert (Bd : Forall2 (fun b f => to_float b = Some f) bounds (ph_bounds b)).
    { rewrite H1 in B7. apply Forall2_map_l in B7. exact B7. }
    split; [exact B1|]. split; [exact B2|]. split; [exact B3|]. split; [congruence|]. split; [rewrite H5 in B5; exact B5|].
    split; [rewrite B6; exact H2|]. split; [rewrite B6; exact H6|]. split; [exact Bd|]. split.
    + destruct Mi as [[-> _]|(x & Ex & Ix & Lx)]; [congruence|]. rewrite Ex in B9. cbn in B9. destruct (ph_min b) as [f|]; [|contradiction]. exists x, f. auto.
    + destruct Ma as [[-> _]|(x & Ex & Ix & Lx)]; [congruence|]. rewrite Ex in B10. cbn in B10. destruct (ph_max b) as [f|]; [|contradiction]. exists x, f. auto.
Qed.
End Request.
End Pipeline.
