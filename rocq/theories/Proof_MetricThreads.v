(** Proofs about the metrics SDK with threads: a program logic for the code of the calls, and what it gives for every schedule. *)
From Verif Require Export Spec_MetricThreads.
From Coq Require Import Lia.
Local Open Scope Z_scope.

Section Logic.
Context {V T K A D : Type}.
Variable keq : K -> K -> bool.
Hypothesis keq_refl : forall k, keq k k = true.
Hypothesis keq_sym : forall k k', keq k k' = keq k' k.
Hypothesis keq_trans : forall k k' k'', keq k k' = true -> keq k' k'' = true -> keq k k'' = true.
Variable key_of : V -> T -> option K.
Variable new_agg : V -> T -> Z -> A.
Variable aggregate1 : A -> Z -> A.
Variable collect1 : V -> A -> Z -> A * option D.
Variable views_of : nat -> N -> list V.
Variable readers : nat.
Notation prog := (@prog V K A D).
Notation mem := (@mem V K A).
Notation action := (@action D).
Notation find_k := (find_k keq).

Lemma lock_eqb_spec a b : lock_eqb a b = true <-> a = b.
Proof. destruct a, b; cbn; try (split; [discriminate|intros [=]]); try (split; reflexivity); rewrite Nat.eqb_eq; split; [intros ->; reflexivity|intros [=]; assumption|..]; try (intros ->; reflexivity); intros [=]; assumption. Qed.
Lemma lock_eqb_refl a : lock_eqb a a = true.
Proof. now apply lock_eqb_spec. Qed.
Definition rank (l : lock) : nat := match l with LC => 0 | LS _ => 1 | LM _ => 2 | LA _ => 3 end.

(** ** Tables *)
Lemma find_i_app i (t l : list (N * list nat)) ms : find_i i t = Some ms -> find_i i (t ++ l) = Some ms.
Proof. induction t as [|[j x] t IH]; cbn; [discriminate|]. destruct (N.eqb i j); auto. Qed.
Lemma find_i_in i (t : list (N * list nat)) ms : find_i i t = Some ms -> In (i, ms) t.
Proof. induction t as [|[j x] t IH]; cbn; [discriminate|]. destruct (N.eqb_spec i j) as [->|]; [intros [= ->]; now left|auto]. Qed.
Lemma find_i_none i (t : list (N * list nat)) : find_i i t = None -> ~ In i (map fst t).
Proof. induction t as [|[j x] t IH]; cbn; [auto|]. destruct (N.eqb_spec i j) as [->|N]; [discriminate|]. intros E [->|I]; [congruence|now apply IH]. Qed.
Lemma in_find_i i (t : list (N * list nat)) ms : NoDup (map fst t) -> In (i, ms) t -> find_i i t = Some ms.
Proof.
  induction t as [|[j x] t IH]; [intros _ []|]. cbn. intros ND [[= -> ->]|I]; [now rewrite N.eqb_refl|]. inversion ND as [|? ? N1 N2]; subst.
  destruct (N.eqb_spec i j) as [->|]; [|now apply IH]. exfalso. apply N1. apply (in_map fst) in I. exact I.
Qed.
Lemma put_i_new i ms (t : list (N * list nat)) : find_i i t = None -> put_i i ms t = t ++ [(i, ms)].
Proof. induction t as [|[j x] t IH]; [reflexivity|]. cbn. destruct (N.eqb i j); [discriminate|]. intro E. now rewrite IH. Qed.
Lemma find_k_app k t l a : find_k k t = Some a -> find_k k (t ++ l) = Some a.
Proof. induction t as [|[j x] t IH]; cbn; [discriminate|]. destruct (keq k j); auto. Qed.
Lemma find_k_in k t a : find_k k t = Some a -> exists k', In (k', a) t /\ keq k k' = true.
Proof.
  induction t as [|[j x] t IH]; cbn; [discriminate|]. destruct (keq k j) eqn:E; [intros [= ->]; exists j; split; [now left|exact E]|].
  intro H. destruct (IH H) as (k' & I & Q). exists k'. split; [now right|exact Q].
Qed.
Lemma find_k_none k t : find_k k t = None -> forall k' a, In (k', a) t -> keq k k' = false.
Proof. induction t as [|[j x] t IH]; cbn; [intros _ k' a []|]. destruct (keq k j) eqn:E; [discriminate|]. intros H k' a [[= <- <-]|I]; [exact E|eapply IH; eassumption]. Qed.
Lemma put_k_new k a t : find_k k t = None -> put_k keq k a t = t ++ [(k, a)].
Proof. induction t as [|[j x] t IH]; [reflexivity|]. cbn. destruct (keq k j); [discriminate|]. intro E. now rewrite IH. Qed.
Definition apart (t : list (K * nat)) : Prop := ForallOrdPairs (fun x y => keq (fst x) (fst y) = false) t.
Lemma keq_cong k k' k'' : keq k k' = true -> keq k k'' = keq k' k''.
Proof.
  intro E. destruct (keq k' k'') eqn:E2; [eapply keq_trans; eassumption|]. destruct (keq k k'') eqn:E3; [|reflexivity].
  rewrite <- E2. symmetry. eapply keq_trans; [rewrite keq_sym; exact E|exact E3].
Qed.
Lemma find_k_cong k k' t : keq k k' = true -> find_k k t = find_k k' t.
Proof. intro E. induction t as [|[j x] t IH]; [reflexivity|]. cbn. rewrite (keq_cong _ _ j E), IH. reflexivity. Qed.
Lemma in_find_k k a t : apart t -> In (k, a) t -> find_k k t = Some a.
Proof.
  induction t as [|[j x] t IH]; intros F; [intros []|]. inversion F as [|? ? F1 F2]; subst. intros [[= -> ->]|I]; cbn; [now rewrite keq_refl|].
  rewrite Forall_forall in F1. specialize (F1 _ I). cbn in F1. rewrite keq_sym, F1. auto.
Qed.
Lemma apart_snoc t k a : apart t -> (forall k' b, In (k', b) t -> keq k k' = false) -> apart (t ++ [(k, a)]).
Proof.
  induction 1 as [|x l F1 F2 IH]; intro H; [constructor; constructor|]. cbn. constructor.
  - apply Forall_app. split; [exact F1|]. constructor; [|constructor]. cbn. rewrite keq_sym. destruct x. eapply H. now left.
  - apply IH. intros. eapply H. right. eassumption.
Qed.

(** ** Worlds: the memory, and for the proof where a match belongs and what an aggregation was made for *)
Record world := Wd { mm : mem; place : nat -> option (nat * N * nat); own : nat -> option (nat * K * T * Z) }.
Definition prefix {B} (a b : list B) : Prop := exists l, b = a ++ l.
Record ext (held : list lock) (W W' : world) : Prop := {
  e_S : forall r, prefix (tS (mm W) r) (tS (mm W') r);
  e_Sh : forall r, In (LS r) held -> tS (mm W') r = tS (mm W) r;
  e_M : forall m, prefix (tM (mm W) m) (tM (mm W') m);
  e_Mh : forall m, In (LM m) held -> tM (mm W') m = tM (mm W) m;
  e_V : forall m w, vw (mm W) m = Some w -> vw (mm W') m = Some w;
  e_P : forall m p, place W m = Some p -> place W' m = Some p;
  e_A : forall a, st (mm W) a <> None -> st (mm W') a <> None;
  e_Ah : forall a x, In (LA a) held -> st (mm W) a = Some x -> st (mm W') a = Some x;
  e_O : forall a o, own W a = Some o -> own W' a = Some o }.
Lemma prefix_refl {B} (a : list B) : prefix a a. Proof. exists []. now rewrite app_nil_r. Qed.
Lemma prefix_trans {B} (a b c : list B) : prefix a b -> prefix b c -> prefix a c.
Proof. intros [x ->] [y ->]. exists (x ++ y). now rewrite app_assoc. Qed.
Lemma ext_refl held W : ext held W W.
Proof. constructor; auto using prefix_refl. Qed.
Lemma ext_trans held W W' W'' : ext held W W' -> ext held W' W'' -> ext held W W''.
Proof.
  intros E F. constructor; intros.
  - eapply prefix_trans; [apply (e_S _ _ _ E)|apply (e_S _ _ _ F)].
  - rewrite (e_Sh _ _ _ F), (e_Sh _ _ _ E); auto.
  - eapply prefix_trans; [apply (e_M _ _ _ E)|apply (e_M _ _ _ F)].
  - rewrite (e_Mh _ _ _ F), (e_Mh _ _ _ E); auto.
  - apply (e_V _ _ _ F), (e_V _ _ _ E). assumption.
  - apply (e_P _ _ _ F), (e_P _ _ _ E). assumption.
  - apply (e_A _ _ _ F), (e_A _ _ _ E). assumption.
  - apply (e_Ah _ _ _ F), (e_Ah _ _ _ E); auto.
  - apply (e_O _ _ _ F), (e_O _ _ _ E). assumption.
Qed.
Lemma ext_less held held' W W' : incl held' held -> ext held W W' -> ext held' W W'.
Proof. intros I E. destruct E. constructor; eauto. Qed.

Record wf (W : world) : Prop := {
  f_S : forall r i ms, In (i, ms) (tS (mm W) r) -> length ms = length (views_of r i) /\ forall j m, nth_error ms j = Some m -> place W m = Some (r, i, j);
  f_Sd : forall r, NoDup (map fst (tS (mm W) r));
  f_Md : forall m, apart (tM (mm W) m);
  f_M : forall m k a, In (k, a) (tM (mm W) m) -> exists attrs now, own W a = Some (m, k, attrs, now);
  f_P : forall m r i j, place W m = Some (r, i, j) -> exists w, nth_error (views_of r i) j = Some w /\ vw (mm W) m = Some w;
  f_O : forall a m k attrs now, own W a = Some (m, k, attrs, now) -> exists w, vw (mm W) m = Some w /\ key_of w attrs = Some k;
  f_nM : forall m, (nM (mm W) <= m)%nat -> vw (mm W) m = None /\ place W m = None /\ tM (mm W) m = [];
  f_nA : forall a, (nA (mm W) <= a)%nat -> st (mm W) a = None /\ own W a = None;
  f_A : forall a o, own W a = Some o -> st (mm W) a <> None }.

(** An aggregation that can be found from the tables *)
Definition published (W : world) (a : nat) : Prop :=
  exists r i ms m k, In (i, ms) (tS (mm W) r) /\ In m ms /\ In (k, a) (tM (mm W) m).
Lemma prefix_in {B} (a b : list B) x : prefix a b -> In x a -> In x b.
Proof. intros [l ->] I. apply in_or_app. now left. Qed.
Lemma published_ext held W W' a : ext held W W' -> published W a -> published W' a.
Proof.
  intros E (r & i & ms & m & k & I1 & I2 & I3). exists r, i, ms, m, k.
  split; [eapply prefix_in; [apply (e_S _ _ _ E)|exact I1]|]. split; [exact I2|]. eapply prefix_in; [apply (e_M _ _ _ E)|exact I3].
Qed.
Definition legal (W : world) (a : nat) (x x' : A) (act : action) : Prop :=
  match act with
  | AMeasure v => x' = aggregate1 x v
  | ACollect now p => exists m k attrs now0 w, own W a = Some (m, k, attrs, now0) /\ vw (mm W) m = Some w /\ (x', p) = collect1 w x now
  end.

(** ** The logic: [good auth Q p held acts W]: from world [W] on, holding [held] and having done [acts], program [p] does nothing
    wrong whatever other threads do, and ends in [Q]. *)
Definition w_setS W r i ms := Wd (Mem (upd (tS (mm W)) r (tS (mm W) r ++ [(i, ms)])) (tM (mm W)) (vw (mm W)) (st (mm W)) (nM (mm W)) (nA (mm W))) (place W) (own W).
Definition w_newM W v pl := Wd (Mem (tS (mm W)) (tM (mm W)) (upd (vw (mm W)) (nM (mm W)) (Some v)) (st (mm W)) (S (nM (mm W))) (nA (mm W))) (upd (place W) (nM (mm W)) (Some pl)) (own W).
Definition w_setM W m k a := Wd (Mem (tS (mm W)) (upd (tM (mm W)) m (tM (mm W) m ++ [(k, a)])) (vw (mm W)) (st (mm W)) (nM (mm W)) (nA (mm W))) (place W) (own W).
Definition w_newA W x o := Wd (Mem (tS (mm W)) (tM (mm W)) (vw (mm W)) (upd (st (mm W)) (nA (mm W)) (Some x)) (nM (mm W)) (S (nA (mm W)))) (place W) (upd (own W) (nA (mm W)) (Some o)).
Definition w_setA W a x := Wd (Mem (tS (mm W)) (tM (mm W)) (vw (mm W)) (upd (st (mm W)) a (Some x)) (nM (mm W)) (nA (mm W))) (place W) (own W).
Fixpoint good {R} (auth : nat -> N -> T -> Z -> Prop) (Q : list lock -> list (nat * action) -> world -> R -> Prop) (p : prog R) (held : list lock) (acts : list (nat * action)) (W : world) : Prop :=
  forall W', wf W' -> ext held W W' ->
  match p with
  | Ret r => Q held acts W' r
  | Acquire l q => Forall (fun l' => rank l' < rank l)%nat held /\ good auth Q q (l :: held) acts W'
  | Release l q => exists held', held = l :: held' /\ good auth Q q held' acts W'
  | GetS r f => good auth Q (f (tS (mm W') r)) held acts W'
  | SetS r i ms q =>
      In (LS r) held /\ find_i i (tS (mm W') r) = None
      /\ (length ms = length (views_of r i) /\ forall j m, nth_error ms j = Some m -> place W' m = Some (r, i, j))
      /\ good auth Q q held acts (w_setS W' r i ms)
  | NewM v f => exists r i j, nth_error (views_of r i) j = Some v /\ good auth Q (f (nM (mm W'))) held acts (w_newM W' v (r, i, j))
  | GetV m f => exists w, vw (mm W') m = Some w /\ good auth Q (f w) held acts W'
  | GetM m f => good auth Q (f (tM (mm W') m)) held acts W'
  | SetM m k a q =>
      In (LM m) held /\ find_k k (tM (mm W') m) = None /\ (exists attrs now, own W' a = Some (m, k, attrs, now))
      /\ good auth Q q held acts (w_setM W' m k a)
  | NewA x f => exists m k attrs now w, vw (mm W') m = Some w /\ key_of w attrs = Some k /\ x = new_agg w attrs now
      /\ (exists r i j, place W' m = Some (r, i, j) /\ auth r i attrs now)
      /\ good auth Q (f (nA (mm W'))) held acts (w_newA W' x (m, k, attrs, now))
  | GetA a f => In (LA a) held /\ exists x, st (mm W') a = Some x /\ good auth Q (f x) held acts W'
  | SetA a x act q =>
      In (LA a) held /\ published W' a /\ (exists x0, st (mm W') a = Some x0 /\ legal W' a x0 x act)
      /\ good auth Q q held (acts ++ [(a, act)]) (w_setA W' a x)
  end.
Lemma good_ext {R} auth Q (p : prog R) held acts W W' : ext held W W' -> good auth Q p held acts W -> good auth Q p held acts W'.
Proof. intros E G. destruct p; cbn [good] in *; intros W'' F E'; apply G; auto; eapply ext_trans; eassumption. Qed.
Lemma good_post {R} auth (Q Q' : _ -> _ -> _ -> R -> Prop) : (forall h a W r, wf W -> Q h a W r -> Q' h a W r) -> forall p held acts W, good auth Q p held acts W -> good auth Q' p held acts W.
Proof.
  intro H. induction p; cbn [good]; intros held acts W G W' F E; specialize (G W' F E); auto.
  - destruct G. auto.
  - destruct G as (h & -> & G). eauto.
  - destruct G as (? & ? & ? & G). auto.
  - destruct G as (? & ? & ? & ? & G). eauto 8.
  - destruct G as (? & ? & G). eauto.
  - destruct G as (? & ? & ? & G). auto.
  - destruct G as (a1 & a2 & a3 & a4 & a5 & ? & ? & ? & ? & G). exists a1, a2, a3, a4, a5. auto 10.
  - destruct G as (? & ? & ? & G). eauto.
  - destruct G as (? & ? & ? & G). auto.
Qed.
Lemma good_bind {R R'} auth Q (g : R -> prog R') : forall (p : prog R) held acts W, good auth (fun h a W r => good auth Q (g r) h a W) p held acts W -> good auth Q (bind p g) held acts W.
Proof.
  induction p; cbn [bind]; intros held acts W G.
  - cbn [good] in G. revert G. generalize (g r). intros p G. destruct p; cbn [good] in *; intros W' F X; apply (G W' F X); auto using ext_refl.
  - cbn [good] in *. intros W' F E. destruct (G W' F E). auto.
  - cbn [good] in *. intros W' F E. destruct (G W' F E) as (h & -> & G'). eauto.
  - cbn [good] in *. intros W' F E. auto.
  - cbn [good] in *. intros W' F E. destruct (G W' F E) as (? & ? & ? & G'). auto.
  - cbn [good] in *. intros W' F E. destruct (G W' F E) as (? & ? & ? & ? & G'). eauto 8.
  - cbn [good] in *. intros W' F E. destruct (G W' F E) as (? & ? & G'). eauto.
  - cbn [good] in *. intros W' F E. auto.
  - cbn [good] in *. intros W' F E. destruct (G W' F E) as (? & ? & ? & G'). auto.
  - cbn [good] in *. intros W' F E. destruct (G W' F E) as (a1 & a2 & a3 & a4 & a5 & ? & ? & ? & ? & G'). exists a1, a2, a3, a4, a5. auto 10.
  - cbn [good] in *. intros W' F E. destruct (G W' F E) as (? & ? & ? & G'). eauto.
  - cbn [good] in *. intros W' F E. destruct (G W' F E) as (? & ? & ? & G'). auto.
Qed.

(** Rules for the instructions *)
Ltac go W' F E := cbn [good]; intros W' F E.
Lemma ext_setS held W r i ms : ~ In (LS r) held -> ext held W (w_setS W r i ms).
Proof.
  intro N. constructor; cbn; auto using prefix_refl.
  - intro r'. unfold upd. destruct (Nat.eqb_spec r' r) as [->|]; [eexists; reflexivity|apply prefix_refl].
  - intros r' I. unfold upd. destruct (Nat.eqb_spec r' r) as [->|]; [contradiction|reflexivity].
Qed.
Lemma ext_newM held W v pl : wf W -> ext held W (w_newM W v pl).
Proof.
  intro F. destruct (f_nM _ F (nM (mm W)) (le_n _)) as (N1 & N2 & N3). constructor; cbn; auto using prefix_refl; intros m x H; unfold upd; destruct (Nat.eqb_spec m (nM (mm W))) as [->|]; congruence.
Qed.
Lemma ext_setM held W m k a : ~ In (LM m) held -> ext held W (w_setM W m k a).
Proof.
  intro N. constructor; cbn; auto using prefix_refl.
  - intro m'. unfold upd. destruct (Nat.eqb_spec m' m) as [->|]; [eexists; reflexivity|apply prefix_refl].
  - intros m' I. unfold upd. destruct (Nat.eqb_spec m' m) as [->|]; [contradiction|reflexivity].
Qed.
Lemma ext_newA held W x o : wf W -> ext held W (w_newA W x o).
Proof.
  intros F. destruct (f_nA _ F (nA (mm W)) (le_n _)) as (N1 & N2). constructor; cbn; auto using prefix_refl.
  - intros a H. unfold upd. destruct (Nat.eqb_spec a (nA (mm W))); congruence.
  - intros a y I H. unfold upd. destruct (Nat.eqb_spec a (nA (mm W))) as [->|]; congruence.
  - intros a o' H. unfold upd. destruct (Nat.eqb_spec a (nA (mm W))) as [->|]; congruence.
Qed.
Lemma ext_setA held W a x : ~ In (LA a) held -> ext held W (w_setA W a x).
Proof.
  intro N. constructor; cbn; auto using prefix_refl.
  - intros b H. unfold upd. destruct (Nat.eqb_spec b a); congruence.
  - intros b y I H. unfold upd. destruct (Nat.eqb_spec b a) as [->|]; [contradiction|exact H].
Qed.
Definition below (n : nat) (held : list lock) : Prop := Forall (fun l => rank l < n)%nat held.
Lemma below_notin n l held : below n held -> rank l = n -> ~ In l held.
Proof. intros B R I. unfold below in B. rewrite Forall_forall in B. specialize (B _ I). lia. Qed.
Lemma below_le n n' held : (n <= n')%nat -> below n held -> below n' held.
Proof. intros L B. eapply Forall_impl; [|exact B]. cbn. intros. lia. Qed.
Lemma below_cons n l held : (rank l < n)%nat -> below n held -> below n (l :: held).
Proof. intros R B. constructor; assumption. Qed.
Lemma ext_tail l held W W' : ext (l :: held) W W' -> ext held W W'.
Proof. apply ext_less. intros x I. now right. Qed.
Ltac ext_chain :=
  match goal with
  | H : ext ?h ?W ?X |- ext ?h ?W ?Y => first [exact H | refine (ext_trans _ _ _ _ H _); clear H; ext_chain]
  | H : ext (?l :: ?h) ?W ?X |- ext ?h ?W ?Y => refine (ext_trans _ _ _ _ (ext_tail _ _ _ _ H) _); clear H; ext_chain
  | |- ext ?h ?W ?W => apply ext_refl
  | _ => idtac
  end.

(** ** What the pieces of code do *)
Record target := Tg { g_r : nat; g_i : N; g_j : nat; g_attrs : T; g_v : Z }.
(** [a] is the aggregation for the target, and the value is added to it. *)
Definition hit (W : world) (g : target) (x : nat * action) : Prop :=
  snd x = AMeasure (g_v g) /\ published W (fst x) /\
  exists m w k k' attrs' now', own W (fst x) = Some (m, k', attrs', now') /\ place W m = Some (g_r g, g_i g, g_j g)
    /\ nth_error (views_of (g_r g) (g_i g)) (g_j g) = Some w /\ key_of w (g_attrs g) = Some k /\ keq k k' = true.
Definition unhashable (g : target) : Prop := exists w, nth_error (views_of (g_r g) (g_i g)) (g_j g) = Some w /\ key_of w (g_attrs g) = None.
Definition recorded (W : world) (gs : list target) (acts : list (nat * action)) (res : @result D) : Prop :=
  (res = RDone /\ Forall2 (hit W) gs acts)
  \/ (res = RTypeError /\ exists gs1 g gs2, gs = gs1 ++ g :: gs2 /\ Forall2 (hit W) gs1 acts /\ unhashable g).
Lemma hit_ext held W W' g x : ext held W W' -> hit W g x -> hit W' g x.
Proof.
  intros E (V1 & P & m & w & k & k' & a' & n' & O & PL & H). split; [exact V1|]. split; [eapply published_ext; eassumption|].
  exists m, w, k, k', a', n'. split; [eapply e_O; eassumption|]. split; [eapply e_P; eassumption|exact H].
Qed.
Lemma hits_ext held W W' gs l : ext held W W' -> Forall2 (hit W) gs l -> Forall2 (hit W') gs l.
Proof. intros E F. induction F; constructor; [eapply hit_ext; eassumption|assumption]. Qed.
Lemma recorded_ext held W W' gs l res : ext held W W' -> recorded W gs l res -> recorded W' gs l res.
Proof.
  intros E [[R H]|(R & g1 & g & g2 & Q & H & U)]; [left|right]; (split; [exact R|]); [eapply hits_ext; eassumption|].
  exists g1, g, g2. split; [exact Q|]. split; [eapply hits_ext; eassumption|exact U].
Qed.
Lemma recorded_app W gs1 gs2 l1 l2 res : recorded W gs1 l1 RDone -> recorded W gs2 l2 res -> recorded W (gs1 ++ gs2) (l1 ++ l2) res.
Proof.
  intros [[_ H1]|([=] & _)] [[R H2]|(R & g1 & g & g2 & -> & H2 & U)]; [left|right]; (split; [exact R|]); [now apply Forall2_app|].
  exists (gs1 ++ g1), g, g2. split; [now rewrite app_assoc|]. split; [now apply Forall2_app|exact U].
Qed.
Lemma recorded_fail W gs1 gs2 l1 res : recorded W gs1 l1 res -> res <> RDone -> recorded W (gs1 ++ gs2) l1 res.
Proof.
  intros [[R _]|(R & g1 & g & g2 & -> & H2 & U)] N; [contradiction|]. right. split; [exact R|]. exists g1, g, (g2 ++ gs2).
  split; [now rewrite <- app_assoc|]. now split.
Qed.
Section Code.
Variable auth : nat -> N -> T -> Z -> Prop.
Notation good := (good auth).

Lemma good_aggregate_in (Q : _ -> _ -> _ -> _ -> Prop) a v held acts W :
  published W a -> below 3 held ->
  (forall W', wf W' -> ext held W W' -> Q held (acts ++ [(a, AMeasure v)]) W' RDone) ->
  good Q (aggregate_in aggregate1 a v) held acts W.
Proof.
  intros P B H. unfold aggregate_in. go W1 F1 E1. split; [exact B|]. go W2 F2 E2. split; [now left|].
  assert (P2 : published W2 a) by (eapply published_ext; [exact E2|]; eapply published_ext; eassumption).
  assert (X : exists x, st (mm W2) a = Some x).
  { destruct P2 as (r & i & ms & m & k & _ & _ & I). destruct (f_M _ F2 _ _ _ I) as (at' & n' & O). destruct (st (mm W2) a) as [x|] eqn:E; [now exists x|]. exfalso. exact (f_A _ F2 _ _ O E). }
  destruct X as (x & X). exists x. split; [exact X|]. go W3 F3 E3. split; [now left|]. split; [eapply published_ext; eassumption|].
  split; [exists x; split; [exact (e_Ah _ _ _ E3 a x (or_introl eq_refl) X)|reflexivity]|].
  go W4 F4 E4. exists held. split; [reflexivity|]. go W5 F5 E5. apply H; [exact F5|].
  ext_chain. eapply ext_trans; [|exact (ext_trans _ _ _ _ (ext_tail _ _ _ _ E4) E5)]. apply ext_setA. eapply below_notin; [exact B|reflexivity].
Qed.

Definition known (W : world) (r : nat) (i : N) (j m : nat) : Prop :=
  exists ms, In (i, ms) (tS (mm W) r) /\ nth_error ms j = Some m.
Lemma known_ext held W W' r i j m : ext held W W' -> known W r i j m -> known W' r i j m.
Proof. intros E (ms & I & N). exists ms. split; [eapply prefix_in; [apply (e_S _ _ _ E)|exact I]|exact N]. Qed.
Lemma known_place W r i j m : wf W -> known W r i j m -> place W m = Some (r, i, j).
Proof. intros F (ms & I & N). now apply (f_S _ F _ _ _ I). Qed.
Lemma known_published W r i j m k a : known W r i j m -> In (k, a) (tM (mm W) m) -> published W a.
Proof. intros (ms & I & N) J. exists r, i, ms, m, k. split; [exact I|]. split; [eapply nth_error_In; exact N|exact J]. Qed.

Lemma good_found (Q : _ -> _ -> _ -> _ -> Prop) attrs v m r i j w k a held acts W : wf W ->
  known W r i j m -> nth_error (views_of r i) j = Some w -> key_of w attrs = Some k -> find_k k (tM (mm W) m) = Some a -> below 3 held ->
  (forall W' a, wf W' -> ext held W W' -> hit W' (Tg r i j attrs v) (a, AMeasure v) -> Q held (acts ++ [(a, AMeasure v)]) W' RDone) ->
  good Q (GetM m (fun tab => match find_k k tab with None => Ret RKeyError | Some a => aggregate_in aggregate1 a v end)) held acts W.
Proof.
  intros F P NV KO FK B H. go W1 F1 E1.
  assert (FK1 : find_k k (tM (mm W1) m) = Some a) by (destruct (e_M _ _ _ E1 m) as [l ->]; now apply find_k_app).
  rewrite FK1. destruct (find_k_in _ _ _ FK1) as (k' & I & KE). apply (known_ext _ _ _ _ _ _ _ E1) in P.
  destruct (f_M _ F1 _ _ _ I) as (at' & n' & O). pose proof (known_published _ _ _ _ _ _ _ P I) as PB.
  apply good_aggregate_in; [exact PB|exact B|]. intros W2 F2 E2. apply H; [exact F2|ext_chain|].
  apply (hit_ext _ _ _ _ _ E2). split; [reflexivity|]. split; [exact PB|]. exists m, w, k, k', at', n'. cbn. split; [exact O|].
  split; [now apply known_place|]. split; [exact NV|]. now split.
Qed.
Lemma good_consume_match (Q : _ -> _ -> _ -> _ -> Prop) attrs v now m r i j held acts W :
  wf W -> known W r i j m -> auth r i attrs now -> below 2 held ->
  (forall W' a, wf W' -> ext held W W' -> hit W' (Tg r i j attrs v) (a, AMeasure v) -> Q held (acts ++ [(a, AMeasure v)]) W' RDone) ->
  (forall W', wf W' -> ext held W W' -> unhashable (Tg r i j attrs v) -> Q held acts W' RTypeError) ->
  good Q (consume_match keq key_of new_agg aggregate1 attrs v now m) held acts W.
Proof.
  intros F P AU B H1 H2. unfold consume_match. destruct (f_P _ F _ _ _ _ (known_place _ _ _ _ _ F P)) as (w & NV & VW).
  go W1 F1 E1. exists w. split; [eapply e_V; eassumption|]. destruct (key_of w attrs) as [k|] eqn:KO.
  2: { go W2 F2 E2. apply H2; [exact F2|ext_chain|]. exists w. now split. }
  go W2 F2 E2. destruct (find_k k (tM (mm W2) m)) as [a|] eqn:FK.
  { eapply good_found; [exact F2|eapply known_ext; [exact E2|]; eapply known_ext; eassumption|exact NV|exact KO|exact FK|eapply below_le; [|exact B]; lia|].
    intros W' a' F' E' HT. apply H1; [exact F'|ext_chain|exact HT]. }
  go W3 F3 E3. split; [exact B|]. go W4 F4 E4.
  assert (X4 : ext held W W4) by ext_chain.
  destruct (find_k k (tM (mm W4) m)) as [a|] eqn:FK4.
  { go W5 F5 E5. exists held. split; [reflexivity|]. apply ext_tail in E5.
    eapply good_found with (a := a); [exact F5|exact (known_ext _ _ _ _ _ _ _ (ext_trans _ _ _ _ X4 E5) P)|exact NV|exact KO| |eapply below_le; [|exact B]; lia|].
    - destruct (e_M _ _ _ E5 m) as [l ->]. now apply find_k_app.
    - intros W' a' F' E' HT. apply H1; [exact F'|clear E4 E3 E2 E1; ext_chain|exact HT]. }
  go W5 F5 E5. exists m, k, attrs, now, w. assert (VW4 : vw (mm W5) m = Some w) by (eapply e_V; [exact E5|]; eapply e_V; eassumption).
  split; [exact VW4|]. split; [exact KO|]. split; [reflexivity|].
  assert (X5 : ext held W W5) by (apply ext_tail in E5; clear E4 E3 E2 E1; ext_chain).
  split; [exists r, i, j; split; [apply (e_P _ _ _ X5); now apply known_place|exact AU]|].
  assert (B3 : below 3 (LM m :: held)) by (apply below_cons; [cbn; lia|eapply below_le; [|exact B]; lia]).
  set (a := nA (mm W5)). set (W5' := w_newA W5 _ _).
  assert (E5' : ext (LM m :: held) W5 W5') by (apply ext_newA; exact F5).
  go W6 F6 E6. split; [now left|].
  assert (EQ : tM (mm W6) m = tM (mm W4) m). { rewrite (e_Mh _ _ _ E6 m (or_introl eq_refl)), (e_Mh _ _ _ E5' m (or_introl eq_refl)). apply (e_Mh _ _ _ E5 m). now left. }
  split; [now rewrite EQ|].
  split; [exists attrs, now; apply (e_O _ _ _ E6); unfold W5'; cbn; unfold upd; now rewrite Nat.eqb_refl|].
  go W7 F7 E7. exists held. split; [reflexivity|].
  assert (X6 : ext held W W6). { apply ext_tail in E5', E6. clear - X5 E5' E6 key_of. eapply ext_trans; [exact X5|]. eapply ext_trans; eassumption. }
  assert (X6' : ext held W6 (w_setM W6 m k a)) by (apply ext_setM; eapply below_notin; [exact B|reflexivity]).
  assert (X7 : ext held W W7) by (apply ext_tail in E7; eapply ext_trans; [exact X6|]; eapply ext_trans; eassumption).
  eapply good_found with (a := a); [exact F7|eapply known_ext; eassumption|exact NV|exact KO| |eapply below_le; [|exact B]; lia|].
  - destruct (e_M _ _ _ E7 m) as [l ->]. apply find_k_app. cbn. unfold upd. rewrite Nat.eqb_refl. rewrite EQ.
    clear - FK4 keq_refl. induction (tM (mm W4) m) as [|[k' b] t IH]; cbn in *; [now rewrite keq_refl|]. destruct (keq k k'); [discriminate|auto].
  - intros W' a' F' E' HT. apply H1; [exact F'|eapply ext_trans; eassumption|exact HT].
Qed.
(** Making the matches of an instrument *)
Lemma good_new_matches (Q : _ -> _ -> _ -> _ -> Prop) r i held acts : forall vs vs0 pre g W,
  views_of r i = vs0 ++ vs -> length pre = length vs0 -> (forall j m, nth_error pre j = Some m -> place W m = Some (r, i, j)) ->
  (forall W' ms, wf W' -> ext held W W' -> length ms = length vs ->
    (forall j m, nth_error (pre ++ ms) j = Some m -> place W' m = Some (r, i, j)) -> good Q (g ms) held acts W') ->
  wf W -> good Q (new_matches vs g) held acts W.
Proof.
  induction vs as [|v vs IH]; intros vs0 pre g W VO LP PL H F; cbn [new_matches].
  { apply H; [exact F|apply ext_refl|reflexivity|]. now rewrite app_nil_r. }
  go W1 F1 E1. exists r, i, (length vs0). split; [rewrite VO, nth_error_app2, Nat.sub_diag by lia; reflexivity|].
  set (m := nM (mm W1)). set (W1' := w_newM W1 v (r, i, length vs0)).
  assert (E1' : ext held W1 W1') by now apply ext_newM.
  assert (PL' : forall j m', nth_error (pre ++ [m]) j = Some m' -> place W1' m' = Some (r, i, j)).
  { intros j m' N. destruct (Nat.lt_ge_cases j (length pre)) as [L|L].
    - rewrite nth_error_app1 in N by exact L. apply (e_P _ _ _ E1'), (e_P _ _ _ E1). now apply PL.
    - rewrite nth_error_app2 in N by exact L. destruct (j - length pre)%nat eqn:EJ; [|destruct n; discriminate]. injection N as <-.
      unfold W1'. cbn. unfold upd, m. rewrite Nat.eqb_refl. do 2 f_equal. lia. }
  (* the world just after making it need not be given to others: it is well-formed *)
  enough (G : good Q (new_matches vs (fun ms => g (m :: ms))) held acts W1') by exact G.
  assert (F1' : wf W1').
  { destruct (f_nM _ F1 m (le_n _)) as (N1 & N2 & N3). destruct F1. constructor; cbn; auto.
    - intros r' i' ms I. destruct (f_S0 _ _ _ I) as [LN PP]. split; [exact LN|]. intros j m' N. unfold upd. destruct (Nat.eqb_spec m' (nM (mm W1))) as [->|]; [|now apply PP].
      specialize (PP _ _ N). fold m in PP. congruence.
    - intros m' r' i' j'. unfold upd. destruct (Nat.eqb_spec m' (nM (mm W1))) as [->|NE].
      + intros [= <- <- <-]. exists v. split; [rewrite VO, nth_error_app2, Nat.sub_diag by lia; reflexivity|reflexivity].
      + apply f_P0.
    - intros a m' k at' n' O. destruct (f_O0 _ _ _ _ _ O) as (w & V1 & KO). exists w. split; [|exact KO]. unfold upd. destruct (Nat.eqb_spec m' (nM (mm W1))) as [->|]; [fold m in V1; congruence|exact V1].
    - intros m' L. destruct (f_nM0 m' ltac:(lia)) as (A1 & A2 & A3). unfold upd. destruct (Nat.eqb_spec m' (nM (mm W1))) as [->|]; [lia|auto]. }
  apply (IH (vs0 ++ [v]) (pre ++ [m])); [now rewrite <- app_assoc|rewrite !app_length; cbn; lia|exact PL'| |exact F1'].
  intros W' ms F' E' LN PP. apply H; [exact F'|ext_chain; exact E'|cbn; lia|]. intros j m' N. apply PP. now rewrite <- app_assoc.
Qed.
Lemma good_get_or_init (Q : _ -> _ -> _ -> _ -> Prop) r i held acts W : wf W -> below 1 held ->
  (forall W' ms, wf W' -> ext held W W' -> In (i, ms) (tS (mm W') r) -> Q held acts W' ms) ->
  good Q (get_or_init views_of r i) held acts W.
Proof.
  intros F B H. unfold get_or_init. go W1 F1 E1. destruct (find_i i (tS (mm W1) r)) as [ms|] eqn:FI.
  { go W2 F2 E2. apply H; [exact F2|ext_chain|]. apply (prefix_in _ _ _ (e_S _ _ _ E2 r)). now apply find_i_in. }
  go W2 F2 E2. split; [exact B|]. go W3 F3 E3. destruct (find_i i (tS (mm W3) r)) as [ms|] eqn:FI3.
  { go W4 F4 E4. exists held. split; [reflexivity|]. go W5 F5 E5. apply H; [exact F5|ext_chain|].
    apply (prefix_in _ _ _ (e_S _ _ _ E5 r)), (prefix_in _ _ _ (e_S _ _ _ E4 r)). now apply find_i_in. }
  apply (good_new_matches _ r i (LS r :: held) acts (views_of r i) [] []); [reflexivity|reflexivity|intros [|] m [=]| |exact F3].
  intros W4 ms F4 E4 LN PL. go W5 F5 E5. split; [now left|].
  assert (EQ : tS (mm W5) r = tS (mm W3) r) by (rewrite (e_Sh _ _ _ E5 r (or_introl eq_refl)); apply (e_Sh _ _ _ E4 r); now left).
  split; [now rewrite EQ|]. split; [split; [exact LN|]; intros j m N; apply (e_P _ _ _ E5); now apply PL|].
  go W6 F6 E6. exists held. split; [reflexivity|]. go W7 F7 E7.
  assert (X : ext held W5 (w_setS W5 r i ms)) by (apply ext_setS; eapply below_notin; [exact B|reflexivity]).
  apply H; [exact F7| |].
  - apply ext_tail in E3, E4, E5, E6. refine (ext_trans _ _ _ _ E1 (ext_trans _ _ _ _ E2 (ext_trans _ _ _ _ E3 (ext_trans _ _ _ _ E4 (ext_trans _ _ _ _ E5 (ext_trans _ _ _ _ X (ext_trans _ _ _ _ E6 E7))))))).
  - apply (prefix_in _ _ _ (e_S _ _ _ E7 r)), (prefix_in _ _ _ (e_S _ _ _ E6 r)). cbn. unfold upd. rewrite Nat.eqb_refl. apply in_or_app. right. now left.
Qed.
Definition storage_targets (i : N) (attrs : T) (v : Z) (r : nat) : list target := map (fun j => Tg r i j attrs v) (seq 0 (length (views_of r i))).
Lemma good_feed_matches (Q : _ -> _ -> _ -> _ -> Prop) attrs v now r i held all : forall ms ms0 acts W, wf W -> below 1 held -> auth r i attrs now ->
  In (i, all) (tS (mm W) r) -> all = ms0 ++ ms ->
  (forall W' acts' res, wf W' -> ext held W W' -> recorded W' (map (fun j => Tg r i j attrs v) (seq (length ms0) (length ms))) acts' res -> Q held (acts ++ acts') W' res) ->
  good Q (feed_matches keq key_of new_agg aggregate1 attrs v now ms) held acts W.
Proof.
  induction ms as [|m ms IH]; intros ms0 acts W F B AU I EQ H; cbn [feed_matches].
  { go W1 F1 E1. rewrite <- (app_nil_r acts). apply H; [exact F1|exact E1|]. left. split; [reflexivity|constructor]. }
  apply good_bind. assert (KN : known W r i (length ms0) m). { exists all. split; [exact I|]. rewrite EQ, nth_error_app2, Nat.sub_diag by lia. reflexivity. }
  apply (good_consume_match _ _ _ _ _ r i (length ms0)); [exact F|exact KN|exact AU|eapply below_le; [|exact B]; lia| |].
  - intros W1 a F1 E1 HT. apply (IH (ms0 ++ [m])); [exact F1|exact B|exact AU|eapply prefix_in; [apply (e_S _ _ _ E1)|exact I]|now rewrite <- app_assoc|].
    intros W2 acts' res F2 E2 RC. rewrite <- app_assoc. apply H; [exact F2|ext_chain|].
    change (map (fun j => Tg r i j attrs v) (seq (length ms0) (length (m :: ms)))) with ([Tg r i (length ms0) attrs v] ++ map (fun j => Tg r i j attrs v) (seq (S (length ms0)) (length ms))).
    apply recorded_app; [left; split; [reflexivity|]; constructor; [|constructor]; eapply hit_ext; eassumption|]. rewrite app_length in RC. cbn [length] in RC. now replace (S (length ms0)) with (length ms0 + 1)%nat by lia.
  - intros W1 F1 E1 U. go W2 F2 E2. rewrite <- (app_nil_r acts). apply H; [exact F2|ext_chain|]. right. split; [reflexivity|].
    exists [], (Tg r i (length ms0) attrs v), (map (fun j => Tg r i j attrs v) (seq (S (length ms0)) (length ms))). split; [reflexivity|]. split; [constructor|exact U].
Qed.
Lemma good_consume_storage (Q : _ -> _ -> _ -> _ -> Prop) i attrs v now r held acts W : wf W -> below 1 held -> auth r i attrs now ->
  (forall W' acts' res, wf W' -> ext held W W' -> recorded W' (storage_targets i attrs v r) acts' res -> Q held (acts ++ acts') W' res) ->
  good Q (consume_storage keq key_of new_agg aggregate1 views_of i attrs v now r) held acts W.
Proof.
  intros F B AU H. apply good_bind. apply good_get_or_init; [exact F|exact B|]. intros W1 ms F1 E1 I.
  apply (good_feed_matches _ _ _ _ r i _ ms ms []); [exact F1|exact B|exact AU|exact I|reflexivity|].
  intros W2 acts' res F2 E2 RC. apply H; [exact F2|ext_chain|]. unfold storage_targets. cbn [length] in RC. destruct (f_S _ F1 _ _ _ I) as [LN _]. now rewrite <- LN.
Qed.
Lemma good_consume_in (Q : _ -> _ -> _ -> _ -> Prop) i attrs v now held : forall rs acts W, wf W -> below 1 held -> (forall r, auth r i attrs now) ->
  (forall W' acts' res, wf W' -> ext held W W' -> recorded W' (flat_map (storage_targets i attrs v) rs) acts' res -> Q held (acts ++ acts') W' res) ->
  good Q (consume_in keq key_of new_agg aggregate1 views_of i attrs v now rs) held acts W.
Proof.
  induction rs as [|r rs IH]; intros acts W F B AU H; cbn [consume_in].
  { go W1 F1 E1. rewrite <- (app_nil_r acts). apply H; [exact F1|exact E1|]. left. split; [reflexivity|constructor]. }
  apply good_bind. apply good_consume_storage; [exact F|exact B|apply AU|]. intros W1 acts1 res F1 E1 RC.
  assert (FAIL : res <> RDone -> forall W2, wf W2 -> ext held W1 W2 -> Q held (acts ++ acts1) W2 res).
  { intros N W2 F2 E2. apply H; [exact F2|ext_chain|]. cbn [flat_map]. apply recorded_fail; [|exact N]. eapply recorded_ext; eassumption. }
  destruct res; try (go W2 F2 E2; apply FAIL; [discriminate|exact F2|exact E2]).
  apply IH; [exact F1|exact B|exact AU|]. intros W2 acts2 res F2 E2 RC2. rewrite <- app_assoc. apply H; [exact F2|ext_chain|].
  cbn [flat_map]. apply recorded_app; [eapply recorded_ext; eassumption|exact RC2].
Qed.
Definition measure_targets (i : N) (attrs : T) (v : Z) : list target := flat_map (storage_targets i attrs v) (seq 0 readers).
Definition during_targets (r : nat) (d : @during T) : list target :=
  match d with Observes i attrs v => storage_targets i attrs v r | Records i attrs v _ => measure_targets i attrs v | CreatesObservable => [] end.
Lemma good_observe_in (Q : _ -> _ -> _ -> _ -> Prop) r now held : forall ds acts W, wf W -> below 1 held -> ~ In CreatesObservable ds ->
  (forall i attrs v, In (Observes i attrs v) ds -> auth r i attrs now) -> (forall i attrs v now' r', In (Records i attrs v now') ds -> auth r' i attrs now') ->
  (forall W' acts' res, wf W' -> ext held W W' -> recorded W' (flat_map (during_targets r) ds) acts' res -> Q held (acts ++ acts') W' res) ->
  good Q (observe_in keq key_of new_agg aggregate1 views_of readers r ds now) held acts W.
Proof.
  induction ds as [|d ds IH]; intros acts W F B NC A1 A2 H; cbn [observe_in].
  { go W1 F1 E1. rewrite <- (app_nil_r acts). apply H; [exact F1|exact E1|]. left. split; [reflexivity|constructor]. }
  apply good_bind.
  assert (NEXT : forall W1 acts1 res, wf W1 -> ext held W W1 -> recorded W1 (during_targets r d) acts1 res ->
    good Q (match res with RDone => observe_in keq key_of new_agg aggregate1 views_of readers r ds now | _ => Ret res end) held (acts ++ acts1) W1).
  { intros W1 acts1 res F1 E1 RC.
    assert (FAIL : res <> RDone -> forall W2, wf W2 -> ext held W1 W2 -> Q held (acts ++ acts1) W2 res).
    { intros N W2 F2 E2. apply H; [exact F2|ext_chain|]. cbn [flat_map]. apply recorded_fail; [|exact N]. eapply recorded_ext; eassumption. }
    destruct res; try (go W2 F2 E2; apply FAIL; [discriminate|exact F2|exact E2]).
    apply IH; [exact F1|exact B|intro I; apply NC; now right|intros; eapply A1; right; eassumption|intros; eapply A2; right; eassumption|].
    intros W2 acts2 res F2 E2 RC2. rewrite <- app_assoc. apply H; [exact F2|ext_chain|]. cbn [flat_map]. apply recorded_app; [eapply recorded_ext; eassumption|exact RC2]. }
  destruct d as [i attrs v|i attrs v now'|].
  - apply good_consume_storage; [exact F|exact B|eapply A1; now left|]. exact NEXT.
  - apply good_consume_in; [exact F|exact B|intro r'; eapply A2; now left|]. exact NEXT.
  - exfalso. apply NC. now left.
Qed.

(** Collecting *)
Definition points (l : list (nat * option D)) : list D := flat_map (fun x => match snd x with Some d => [d] | None => [] end) l.
Definition colls (now : Z) (l : list (nat * option D)) : list (nat * action) := map (fun x => (fst x, ACollect now (snd x))) l.
Lemma skipn_nth {B} (l : list B) n x : nth_error l n = Some x -> skipn n l = x :: skipn (S n) l.
Proof. revert n. induction l as [|y l IH]; intros [|n] H; cbn in *; try discriminate; [congruence|]. exact (IH _ H). Qed.
Lemma good_iter_aggs (Q : _ -> _ -> _ -> _ -> Prop) now r i j m tab held : forall left ps acts W, wf W -> below 3 held -> In (LM m) held ->
  known W r i j m -> tM (mm W) m = tab -> (left <= length tab)%nat ->
  (forall W' l, wf W' -> ext held W W' -> map fst l = map snd (skipn (length tab - left) tab) -> Q held (acts ++ colls now l) W' (Some (ps ++ points l))) ->
  good Q (iter_aggs collect1 m (length tab) left now ps) held acts W.
Proof.
  induction left as [|left IH]; intros ps acts W F B IL KN EQ LE H; cbn [iter_aggs]; go W1 F1 E1;
    assert (EQ1 : tM (mm W1) m = tab) by (now rewrite (e_Mh _ _ _ E1 m IL)); rewrite EQ1, Nat.eqb_refl; cbn [negb].
  { go W2 F2 E2. rewrite <- (app_nil_r acts), <- (app_nil_r ps). apply (H W2 []); [exact F2|ext_chain|]. rewrite Nat.sub_0_r, skipn_all. reflexivity. }
  destruct (nth_error tab (length tab - S left)) as [[k a]|] eqn:NE; [|apply nth_error_None in NE; lia].
  pose proof (nth_error_In _ _ NE) as IN.
  assert (KN1 : known W1 r i j m) by (eapply known_ext; eassumption).
  destruct (f_P _ F1 _ _ _ _ (known_place _ _ _ _ _ F1 KN1)) as (w & NV & VW1). rewrite <- EQ1 in IN.
  destruct (f_M _ F1 _ _ _ IN) as (at' & n' & O). pose proof (known_published _ _ _ _ _ _ _ KN1 IN) as PB.
  go W2 F2 E2. exists w. split; [eapply e_V; eassumption|]. go W3 F3 E3. split; [exact B|]. go W4 F4 E4. split; [now left|].
  assert (X4 : ext held W1 W4) by (apply ext_tail in E4; exact (ext_trans _ _ _ _ E2 (ext_trans _ _ _ _ E3 E4))).
  pose proof (e_O _ _ _ X4 _ _ O) as O4.
  destruct (st (mm W4) a) as [x|] eqn:SA; [|exfalso; exact (f_A _ F4 _ _ O4 SA)]. exists x. split; [reflexivity|].
  destruct (collect1 w x now) as [x' p] eqn:CO. go W5 F5 E5. split; [now left|]. pose proof (ext_tail _ _ _ _ E5) as E5t. split; [eapply published_ext; [exact E5t|]; eapply published_ext; eassumption|].
  split.
  { exists x. split; [exact (e_Ah _ _ _ E5 a x (or_introl eq_refl) SA)|]. exists m, k, at', n', w. split; [exact (e_O _ _ _ E5t _ _ O4)|].
    split; [exact (e_V _ _ _ E5t _ _ (e_V _ _ _ X4 _ _ VW1))|]. now rewrite CO. }
  go W6 F6 E6. exists held. split; [reflexivity|]. apply ext_tail in E6.
  assert (XA : ext held W5 (w_setA W5 a x')) by (apply ext_setA; eapply below_notin; [exact B|reflexivity]).
  assert (X6 : ext held W W6) by exact (ext_trans _ _ _ _ E1 (ext_trans _ _ _ _ X4 (ext_trans _ _ _ _ E5t (ext_trans _ _ _ _ XA E6)))).
  apply IH; [exact F6|exact B|exact IL|eapply known_ext; eassumption|rewrite (e_Mh _ _ _ X6 m IL); exact EQ|lia|].
  intros W7 l F7 E7 ML. specialize (H W7 ((a, p) :: l) F7 (ext_trans _ _ _ _ X6 E7)).
  rewrite <- app_assoc. cbn [app]. replace (match p with Some d => ps ++ [d] | None => ps end ++ points l) with (ps ++ points ((a, p) :: l)) by (destruct p; cbn; [rewrite <- app_assoc|]; reflexivity).
  apply H. rewrite (skipn_nth _ _ _ NE). replace (S (length tab - S left)) with (length tab - left)%nat by lia. cbn [map fst snd]. now rewrite ML.
Qed.
(** What a collection takes from a match between two moments *)
Definition seen (W W' : world) (m : nat) (l : list (nat * option D)) : Prop :=
  exists tab, prefix (tM (mm W) m) tab /\ prefix tab (tM (mm W') m) /\ map fst l = map snd tab.
Lemma seen_ext h1 h2 W0 W W' W'' m l : ext h1 W0 W -> ext h2 W' W'' -> seen W W' m l -> seen W0 W'' m l.
Proof.
  intros E1 E2 (tab & P1 & P2 & M). exists tab. split; [eapply prefix_trans; [apply (e_M _ _ _ E1)|exact P1]|]. split; [eapply prefix_trans; [exact P2|apply (e_M _ _ _ E2)]|exact M].
Qed.
Lemma good_collect_match (Q : _ -> _ -> _ -> _ -> Prop) now r i j m held acts W : wf W -> below 2 held -> known W r i j m ->
  (forall W' l, wf W' -> ext held W W' -> seen W W' m l -> Q held (acts ++ colls now l) W' (Some (points l))) ->
  good Q (collect_match collect1 now m) held acts W.
Proof.
  intros F B KN H. unfold collect_match. go W1 F1 E1. split; [exact B|]. go W2 F2 E2. pose proof (ext_tail _ _ _ _ E2) as E2t.
  apply good_bind. apply (good_iter_aggs _ now r i j m (tM (mm W2) m)); [exact F2|apply below_cons; [cbn; lia|]; eapply below_le; [|exact B]; lia|now left| |reflexivity|lia|].
  { exact (known_ext _ _ _ _ _ _ _ (ext_trans _ _ _ _ E1 E2t) KN). }
  intros W3 l F3 E3 ML. rewrite Nat.sub_diag in ML. cbn [skipn app] in ML |- *. go W4 F4 E4. exists held. split; [reflexivity|]. go W5 F5 E5. apply ext_tail in E3, E4.
  apply H; [exact F5|exact (ext_trans _ _ _ _ E1 (ext_trans _ _ _ _ E2t (ext_trans _ _ _ _ E3 (ext_trans _ _ _ _ E4 E5))))|].
  exists (tM (mm W2) m). split; [apply (e_M _ _ _ (ext_trans _ _ _ _ E1 E2t))|]. split; [apply (e_M _ _ _ (ext_trans _ _ _ _ E3 (ext_trans _ _ _ _ E4 E5)))|exact ML].
Qed.
Lemma seens_ext h1 h2 W0 W W' W'' ms ls : ext h1 W0 W -> ext h2 W' W'' -> Forall2 (seen W W') ms ls -> Forall2 (seen W0 W'') ms ls.
Proof. intros E1 E2 F. induction F; constructor; [eapply seen_ext; eassumption|assumption]. Qed.
Lemma good_collect_matches (Q : _ -> _ -> _ -> _ -> Prop) now r i all held : forall ms ms0 out acts W, wf W -> below 2 held ->
  In (i, all) (tS (mm W) r) -> all = ms0 ++ ms ->
  (forall W' ls, wf W' -> ext held W W' -> Forall2 (seen W W') ms ls -> Q held (acts ++ flat_map (colls now) ls) W' (Some (out ++ map points ls))) ->
  good Q (collect_matches collect1 now ms out) held acts W.
Proof.
  induction ms as [|m ms IH]; intros ms0 out acts W F B I EQ H; cbn [collect_matches].
  { go W1 F1 E1. rewrite <- (app_nil_r acts), <- (app_nil_r out). apply (H W1 []); [exact F1|exact E1|constructor]. }
  apply good_bind. apply (good_collect_match _ now r i (length ms0)); [exact F|exact B|exists all; split; [exact I|]; rewrite EQ, nth_error_app2, Nat.sub_diag by lia; reflexivity|].
  intros W1 l F1 E1 SE. apply (IH (ms0 ++ [m])); [exact F1|exact B|eapply prefix_in; [apply (e_S _ _ _ E1)|exact I]|now rewrite <- app_assoc|].
  intros W2 ls F2 E2 FS. rewrite <- !app_assoc. apply (H W2 (l :: ls)); [exact F2|exact (ext_trans _ _ _ _ E1 E2)|]. constructor.
  - eapply seen_ext; [apply (ext_refl held)|exact E2|exact SE].
  - eapply seens_ext; [exact E1|apply (ext_refl held)|exact FS].
Qed.
Definition taken (W W' : world) (x : N * list nat) (ls : list (list (nat * option D))) : Prop := Forall2 (seen W W') (snd x) ls.
Definition taken_acts (now : Z) (lss : list (list (list (nat * option D)))) : list (nat * action) := flat_map (flat_map (colls now)) lss.
Definition taken_out (tab : list (N * list nat)) (lss : list (list (list (nat * option D)))) : list (N * list (list D)) := combine (map fst tab) (map (map points) lss).
Lemma good_iter_instruments (Q : _ -> _ -> _ -> _ -> Prop) now r tab held : forall left out acts W, wf W -> below 2 held -> In (LS r) held ->
  tS (mm W) r = tab -> (left <= length tab)%nat ->
  (forall W' lss, wf W' -> ext held W W' -> Forall2 (taken W W') (skipn (length tab - left) tab) lss ->
     Q held (acts ++ taken_acts now lss) W' (Some (out ++ taken_out (skipn (length tab - left) tab) lss))) ->
  good Q (iter_instruments collect1 r (length tab) left now out) held acts W.
Proof.
  induction left as [|left IH]; intros out acts W F B IL EQ LE H; cbn [iter_instruments]; go W1 F1 E1;
    assert (EQ1 : tS (mm W1) r = tab) by (now rewrite (e_Sh _ _ _ E1 r IL)); rewrite EQ1, Nat.eqb_refl; cbn [negb].
  { go W2 F2 E2. rewrite Nat.sub_0_r, skipn_all in H. rewrite <- (app_nil_r acts), <- (app_nil_r out). apply (H W2 []); [exact F2|exact (ext_trans _ _ _ _ E1 E2)|constructor]. }
  destruct (nth_error tab (length tab - S left)) as [[i ms]|] eqn:NE; [|apply nth_error_None in NE; lia].
  pose proof (nth_error_In _ _ NE) as IN. rewrite <- EQ1 in IN.
  apply good_bind. apply (good_collect_matches _ now r i ms held ms [] [] acts W1 F1 B IN eq_refl). intros W2 ls F2 E2 FS. cbn [app].
  pose proof (ext_trans _ _ _ _ E1 E2) as X2.
  apply IH; [exact F2|exact B|exact IL|rewrite (e_Sh _ _ _ X2 r IL); exact EQ|lia|].
  intros W3 lss F3 E3 FT. specialize (H W3 (ls :: lss) F3 (ext_trans _ _ _ _ X2 E3)). rewrite <- !app_assoc. rewrite (skipn_nth _ _ _ NE) in H.
  replace (S (length tab - S left)) with (length tab - left)%nat in H by lia. apply H. constructor.
  - eapply seens_ext; [exact E1|exact E3|exact FS].
  - clear - FT X2. induction FT; constructor; [|assumption]. eapply seens_ext; [exact X2|apply (ext_refl held)|assumption].
Qed.
Lemma good_collect_storage (Q : _ -> _ -> _ -> _ -> Prop) now r held acts W : wf W -> below 1 held ->
  (forall W' tab lss, wf W' -> ext held W W' -> prefix (tS (mm W) r) tab -> prefix tab (tS (mm W') r) -> Forall2 (taken W W') tab lss ->
     Q held (acts ++ taken_acts now lss) W' (Some (taken_out tab lss))) ->
  good Q (collect_storage collect1 r now) held acts W.
Proof.
  intros F B H. unfold collect_storage. go W1 F1 E1. split; [exact B|]. go W2 F2 E2. pose proof (ext_tail _ _ _ _ E2) as E2t. pose proof (ext_trans _ _ _ _ E1 E2t) as X2.
  apply good_bind. apply (good_iter_instruments _ now r (tS (mm W2) r)); [exact F2|apply below_cons; [cbn; lia|]; eapply below_le; [|exact B]; lia|now left|reflexivity|lia|].
  intros W3 lss F3 E3 FT. rewrite Nat.sub_diag in FT |- *. cbn [skipn app] in FT |- *. go W4 F4 E4. exists held. split; [reflexivity|]. go W5 F5 E5. apply ext_tail in E3, E4.
  pose proof (ext_trans _ _ _ _ E3 (ext_trans _ _ _ _ E4 E5)) as X35. pose proof (ext_trans _ _ _ _ E4 E5) as X45.
  apply H; [exact F5|exact (ext_trans _ _ _ _ X2 X35)|apply (e_S _ _ _ X2)|apply (e_S _ _ _ X35)|].
  clear - FT X2 X45. induction FT; constructor; [|assumption]. eapply seens_ext; [exact X2|exact X45|assumption].
Qed.

(** ** What a call does *)
Definition targets (c : @call T) : list target :=
  match c with Measure i attrs v _ => measure_targets i attrs v | CreateObservable => [] | Collect r ds _ _ => flat_map (during_targets r) ds end.
(** [Wm]: when it has recorded what it has to *)
Definition done (c : @call T) (W0 : world) (acts : list (nat * action)) (W : world) (res : @result D) : Prop :=
  exists acts1 acts2 res1 Wm, acts = acts1 ++ acts2 /\ recorded Wm (targets c) acts1 res1 /\ wf Wm /\ ext [] W0 Wm /\ ext [] Wm W /\
  match c with
  | Collect r ds tmo now =>
      (res1 <> RDone /\ acts2 = [] /\ res = res1)
      \/ (res1 = RDone /\ tmo = true /\ acts2 = [] /\ res = RTimeout)
      \/ (res1 = RDone /\ tmo = false /\ exists tab lss, acts2 = taken_acts now lss /\ res = RMetrics (taken_out tab lss)
          /\ prefix (tS (mm Wm) r) tab /\ prefix tab (tS (mm W) r) /\ Forall2 (taken Wm W) tab lss)
  | _ => acts2 = [] /\ res = res1
  end.
End Code.
Lemma good_code c W : wf W -> may_call readers c ->
  good (uses c) (fun held acts W' res => held = [] /\ done c W acts W' res) (code keq key_of new_agg aggregate1 collect1 views_of readers c) [] [] W.
Proof.
  intros F OK. destruct c as [i attrs v now| |r ds tmo now]; cbn [code].
  - apply good_consume_in; [exact F|constructor|cbn; auto|]. intros W' acts res F' E' RC. split; [reflexivity|]. exists acts, [], res, W'.
    split; [now rewrite app_nil_r|]. split; [exact RC|]. split; [exact F'|]. split; [exact E'|]. split; [apply ext_refl|now split].
  - unfold register. go W1 F1 E1. split; [constructor|]. go W2 F2 E2. exists []. split; [reflexivity|]. go W3 F3 E3. split; [reflexivity|].
    exists [], [], RDone, W1. split; [reflexivity|]. split; [left; split; [reflexivity|constructor]|]. split; [exact F1|]. split; [exact E1|]. split; [exact (ext_trans _ _ _ _ (ext_tail _ _ _ _ E2) E3)|now split].
  - destruct OK as [RL NC]. unfold collect. go W1 F1 E1. split; [constructor|]. apply good_bind.
    apply good_observe_in; [exact F1|constructor; [cbn; lia|constructor]|exact NC|intros i attrs v I; cbn; eauto|intros i attrs v now' r' I; cbn; eauto|].
    intros W2 acts res F2 E2 RC. cbn [app]. apply ext_tail in E2. pose proof (ext_trans _ _ _ _ E1 E2) as X2.
    assert (FAIL : res <> RDone -> good (uses (Collect r ds tmo now)) (fun held acts W' res => held = [] /\ done (Collect r ds tmo now) W acts W' res) (Release LC (Ret res)) [LC] acts W2).
    { intro N. go W3 F3 E3. exists []. split; [reflexivity|]. go W4 F4 E4. split; [reflexivity|]. exists acts, [], res, W2. split; [now rewrite app_nil_r|].
      split; [exact RC|]. split; [exact F2|]. split; [exact X2|]. split; [exact (ext_trans _ _ _ _ (ext_tail _ _ _ _ E3) E4)|]. left. auto. }
    destruct res; try (apply FAIL; discriminate). clear FAIL. destruct tmo.
    + go W3 F3 E3. exists []. split; [reflexivity|]. go W4 F4 E4. split; [reflexivity|]. exists acts, [], RDone, W2. split; [now rewrite app_nil_r|].
      split; [exact RC|]. split; [exact F2|]. split; [exact X2|]. split; [exact (ext_trans _ _ _ _ (ext_tail _ _ _ _ E3) E4)|]. right. left. auto.
    + apply good_bind. apply good_collect_storage; [exact F2|constructor; [cbn; lia|constructor]|].
      intros W3 tab lss F3 E3 P1 P2 FT. go W4 F4 E4. exists []. split; [reflexivity|]. go W5 F5 E5. split; [reflexivity|].
      apply ext_tail in E3, E4. pose proof (ext_trans _ _ _ _ E4 E5) as X5.
      exists acts, (taken_acts now lss), RDone, W2. split; [reflexivity|]. split; [exact RC|]. split; [exact F2|]. split; [exact X2|]. split; [exact (ext_trans _ _ _ _ E3 X5)|].
      right. right. split; [reflexivity|]. split; [reflexivity|].
      exists tab, lss. split; [reflexivity|]. split; [reflexivity|]. split; [exact P1|]. split; [eapply prefix_trans; [exact P2|apply (e_S _ _ _ X5)]|].
      clear - FT X5. induction FT; constructor; [|assumption]. eapply seens_ext; [apply (ext_refl [])|exact X5|assumption].
Qed.

(** ** The worlds that the instructions lead to are well-formed *)
Lemma wf_setS W r i ms : wf W -> find_i i (tS (mm W) r) = None ->
  (length ms = length (views_of r i) /\ forall j m, nth_error ms j = Some m -> place W m = Some (r, i, j)) -> wf (w_setS W r i ms).
Proof.
  intros F N H. destruct F. constructor; cbn; auto.
  - intros r' i' ms'. unfold upd. destruct (Nat.eqb_spec r' r) as [->|]; [|apply f_S0]. intro I. apply in_app_or in I. destruct I as [I|[[= <- <-]|[]]]; [now apply f_S0|exact H].
  - intro r'. unfold upd. destruct (Nat.eqb_spec r' r) as [->|]; [|apply f_Sd0]. rewrite map_app. cbn. apply find_i_none in N. revert N. generalize (f_Sd0 r). generalize (map fst (tS (mm W) r)). clear.
    intro l. induction 1 as [|x l NI ND IH]; intro N; cbn; [constructor; [intros []|constructor]|]. constructor; [|apply IH; intro I; apply N; now right].
    intro I. apply in_app_or in I. destruct I as [I|[->|[]]]; [contradiction|]. apply N. now left.
Qed.
Lemma wf_newM W v r i j : wf W -> nth_error (views_of r i) j = Some v -> wf (w_newM W v (r, i, j)).
Proof.
  intros F NV. destruct (f_nM _ F (nM (mm W)) (le_n _)) as (N1 & N2 & N3). destruct F. constructor; cbn; auto.
  - intros r' i' ms I. destruct (f_S0 _ _ _ I) as [LN PP]. split; [exact LN|]. intros j' m' N. unfold upd. destruct (Nat.eqb_spec m' (nM (mm W))) as [->|]; [|now apply PP].
    specialize (PP _ _ N). congruence.
  - intros m' r' i' j'. unfold upd. destruct (Nat.eqb_spec m' (nM (mm W))) as [->|NE]; [|apply f_P0]. intros [= <- <- <-]. exists v. now split.
  - intros a m' k at' n' O. destruct (f_O0 _ _ _ _ _ O) as (w & V1 & KO). exists w. split; [|exact KO]. unfold upd. destruct (Nat.eqb_spec m' (nM (mm W))) as [->|]; [congruence|exact V1].
  - intros m' L. destruct (f_nM0 m' ltac:(lia)) as (A1 & A2 & A3). unfold upd. destruct (Nat.eqb_spec m' (nM (mm W))) as [->|]; [lia|auto].
Qed.
Lemma wf_setM W m k a : wf W -> find_k k (tM (mm W) m) = None -> (exists attrs now, own W a = Some (m, k, attrs, now)) -> wf (w_setM W m k a).
Proof.
  intros F N (at' & n' & O). destruct F. constructor; cbn; auto.
  - intro m'. unfold upd. destruct (Nat.eqb_spec m' m) as [->|]; [|apply f_Md0]. apply apart_snoc; [apply f_Md0|]. intros k' b I. eapply find_k_none; eassumption.
  - intros m' k' b. unfold upd. destruct (Nat.eqb_spec m' m) as [->|]; [|apply f_M0]. intro I. apply in_app_or in I. destruct I as [I|[[= <- <-]|[]]]; [now apply f_M0|eauto].
  - intros m' L. destruct (f_nM0 m' L) as (A1 & A2 & A3). split; [exact A1|]. split; [exact A2|]. unfold upd. destruct (Nat.eqb_spec m' m) as [->|]; [|exact A3].
    destruct (f_O0 _ _ _ _ _ O) as (w & V1 & _). congruence.
Qed.
Lemma wf_newA W x m k attrs now w : wf W -> vw (mm W) m = Some w -> key_of w attrs = Some k -> wf (w_newA W x (m, k, attrs, now)).
Proof.
  intros F VW KO. destruct (f_nA _ F (nA (mm W)) (le_n _)) as (N1 & N2). destruct F. constructor; cbn; auto.
  - intros m' k' b I. destruct (f_M0 _ _ _ I) as (at' & n' & O). exists at', n'. unfold upd. destruct (Nat.eqb_spec b (nA (mm W))) as [->|]; [congruence|exact O].
  - intros b m' k' at' n'. unfold upd. destruct (Nat.eqb_spec b (nA (mm W))) as [->|]; [|apply f_O0]. intros [= <- <- <- <-]. eauto.
  - intros b L. destruct (f_nA0 b ltac:(lia)) as (A1 & A2). unfold upd. destruct (Nat.eqb_spec b (nA (mm W))) as [->|]; [lia|auto].
  - intros b o. unfold upd. destruct (Nat.eqb_spec b (nA (mm W))) as [->|]; [discriminate|apply f_A0].
Qed.
Lemma wf_setA W a x : wf W -> st (mm W) a <> None -> wf (w_setA W a x).
Proof.
  intros F N. destruct F. constructor; cbn; auto.
  - intros b L. destruct (f_nA0 b L) as (A1 & A2). split; [|exact A2]. unfold upd. destruct (Nat.eqb_spec b a) as [->|]; [congruence|exact A1].
  - intros b o O. unfold upd. destruct (Nat.eqb_spec b a) as [->|]; [discriminate|eapply f_A0; exact O].
Qed.
End Logic.
