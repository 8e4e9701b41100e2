(** Proofs about installing the OpenCensus shim. *)
From Verif Require Export Spec_OcPatch.
From Coq Require Import Lia PeanoNat.

Lemma run_app l m w : patch_run w (l ++ m) = patch_run (patch_run w l) m.
Proof. revert w. induction l as [|o l IH]; intros w; [reflexivity|]. cbn [app patch_run]. apply IH. Qed.
Notation state l := (patch_run patch_start l).
Lemma state_snoc l o : state (l ++ [o]) = fst (patch_step (state l) o).
Proof. rewrite run_app. reflexivity. Qed.
Lemma snoc_inv {A} (l m : list A) a b : l ++ [a] = m ++ [b] -> l = m /\ a = b.
Proof. apply app_inj_tail. Qed.

(** ** The property *)
Definition otel_of (w : patch_world) : option nat := option_map sp_otel (pw_property w).
Lemma otel_step w o : otel_of (fst (patch_step w o)) = match o with OInstall t => Some t | OUninstall => None | _ => otel_of w end.
Proof.
  unfold otel_of. destruct o as [t| |i c v|i c|i v|i]; cbn; try reflexivity.
  - destruct (instance_of i (pw_instances w)); reflexivity.
  - destruct (instance_of i (pw_instances w)); reflexivity.
  - destruct (instance_of i (pw_instances w)); [|reflexivity]. destruct (pw_property w) as [p|] eqn:P; [|cbn; rewrite P; reflexivity].
    unfold fget_tracer. destruct (cache_find _ _); reflexivity.
Qed.
Lemma installed_iff l t : installed l t <-> otel_of (state l) = Some t.
Proof.
  split.
  - induction 1 as [l t|l o t N1 N2 H IH]; rewrite state_snoc, otel_step; [reflexivity|].
    destruct o; try exact IH; [exfalso; eapply N1; reflexivity|congruence].
  - induction l as [|o l IH] using rev_ind; [discriminate|]. rewrite state_snoc, otel_step. intros H.
    destruct o; try (apply in_before; [discriminate|discriminate|apply IH, H]).
    + injection H as ->. constructor.
    + discriminate.
Qed.
Lemma not_installed_iff l : not_installed l <-> pw_property (state l) = None.
Proof.
  unfold not_installed. split.
  - intros H. destruct (pw_property (state l)) as [p|] eqn:P; [|reflexivity]. exfalso. apply (H (sp_otel p)). apply installed_iff. unfold otel_of. rewrite P. reflexivity.
  - intros P t H. apply installed_iff in H. unfold otel_of in H. rewrite P in H. discriminate.
Qed.

(** ** The instances *)
Definition instance_after (w : patch_world) (i : nat) (o : patch_op) : option oc_instance :=
  match o with
  | ONew j c v => if Nat.eqb i j then Some (OcInstance c (assign_tracer w v None)) else instance_of i (pw_instances w)
  | OContext j c => if Nat.eqb i j then option_map (fun x => OcInstance c (oi_tracer x)) (instance_of i (pw_instances w)) else instance_of i (pw_instances w)
  | OAssign j v => if Nat.eqb i j then option_map (fun x => OcInstance (oi_context x) (assign_tracer w v (oi_tracer x))) (instance_of i (pw_instances w))
                   else instance_of i (pw_instances w)
  | _ => instance_of i (pw_instances w)
  end.
Lemma instance_step w o i : instance_of i (pw_instances (fst (patch_step w o))) = instance_after w i o.
Proof.
  destruct o as [t| |j c v|j c|j v|j]; cbn; try reflexivity.
  - destruct (Nat.eqb_spec i j) as [->|N].
    + destruct (instance_of j (pw_instances w)) eqn:E; cbn; [rewrite Nat.eqb_refl|rewrite E]; reflexivity.
    + destruct (instance_of j (pw_instances w)); cbn; [|reflexivity]. destruct (Nat.eqb_spec i j); [contradiction|reflexivity].
  - destruct (Nat.eqb_spec i j) as [->|N].
    + destruct (instance_of j (pw_instances w)) eqn:E; cbn; [rewrite Nat.eqb_refl|rewrite E]; reflexivity.
    + destruct (instance_of j (pw_instances w)); cbn; [|reflexivity]. destruct (Nat.eqb_spec i j); [contradiction|reflexivity].
  - destruct (instance_of j (pw_instances w)); [|reflexivity]. destruct (pw_property w); [|reflexivity]. destruct (fget_tracer _ _ _) as [[p n] r]. reflexivity.
Qed.
Definition inst (l : list patch_op) (i : nat) : option oc_instance := instance_of i (pw_instances (state l)).
Lemma inst_snoc l o i : inst (l ++ [o]) i = instance_after (state l) i o.
Proof. unfold inst. rewrite state_snoc. apply instance_step. Qed.
Lemma context_iff i l c : context_of i l c <-> exists x, inst l i = Some x /\ oi_context x = c.
Proof.
  split.
  - induction 1 as [l c v|l c c' H (x & E & _)|l o c N1 N2 H (x & E & C)]; rewrite inst_snoc; cbn [instance_after].
    + rewrite Nat.eqb_refl. eexists. split; reflexivity.
    + rewrite Nat.eqb_refl. unfold inst in E. rewrite E. eexists. split; reflexivity.
    + unfold inst in E. destruct o as [t| |j c' v|j c'|j v|j]; cbn [instance_after]; eauto.
      * destruct (Nat.eqb_spec i j) as [->|]; [exfalso; eapply N1; reflexivity|eauto].
      * destruct (Nat.eqb_spec i j) as [->|]; [exfalso; eapply N2; reflexivity|eauto].
      * destruct (Nat.eqb_spec i j) as [->|]; [|eauto]. rewrite E. eexists. split; [reflexivity|exact C].
  - revert c. induction l as [|o l IH] using rev_ind; intros c (x & E & C); [discriminate E|]. rewrite inst_snoc in E. fold (inst l) in IH.
    destruct o as [t| |j c' v|j c'|j v|j]; cbn [instance_after] in E; fold (inst l i) in E.
    + apply co_before; try discriminate. eauto.
    + apply co_before; try discriminate. eauto.
    + destruct (Nat.eqb_spec i j) as [->|N]; [injection E as <-; cbn in C; subst; constructor|]. apply co_before; [intros ? ? X; congruence|discriminate|eauto].
    + destruct (Nat.eqb_spec i j) as [->|N].
      * destruct (inst l j) as [y|] eqn:Y; [|discriminate]. injection E as <-. cbn in C. subst c'. apply (co_set _ _ _ (oi_context y)). eauto.
      * apply co_before; [discriminate|intros ? X; congruence|eauto].
    + destruct (Nat.eqb_spec i j) as [->|N].
      * destruct (inst l j) as [y|] eqn:Y; [|discriminate]. injection E as <-. apply co_before; try discriminate. eauto.
      * apply co_before; try discriminate. eauto.
    + apply co_before; try discriminate. eauto.
Qed.
Lemma assign_yes l v a : not_installed l -> assign_tracer (state l) v a = Some v.
Proof. intros N. apply not_installed_iff in N. unfold assign_tracer. rewrite N. reflexivity. Qed.
Lemma assign_no l v a t : installed l t -> assign_tracer (state l) v a = a.
Proof. intros H. apply installed_iff in H. unfold assign_tracer, otel_of in *. destruct (pw_property (state l)); [reflexivity|discriminate]. Qed.
Lemma assigned_iff i l a : assigned_to i l a <-> exists x, inst l i = Some x /\ oi_tracer x = a.
Proof.
  split.
  - induction 1 as [l c v N|l c v t N|l v a N H (x & E & A)|l v a t N H (x & E & A)|l o a N1 N2 H (x & E & A)]; rewrite inst_snoc; cbn [instance_after].
    + rewrite Nat.eqb_refl, (assign_yes _ _ _ N). eexists. split; reflexivity.
    + rewrite Nat.eqb_refl, (assign_no _ _ _ _ N). eexists. split; reflexivity.
    + rewrite Nat.eqb_refl. fold (inst l i). rewrite E. cbn. rewrite (assign_yes _ _ _ N). eexists. split; reflexivity.
    + rewrite Nat.eqb_refl. fold (inst l i). rewrite E. cbn. rewrite (assign_no _ _ _ _ N). eexists. split; [reflexivity|exact A].
    + unfold inst in E. destruct o as [t| |j c' v|j c'|j v|j]; cbn [instance_after]; eauto.
      * destruct (Nat.eqb_spec i j) as [->|]; [exfalso; eapply N1; reflexivity|eauto].
      * destruct (Nat.eqb_spec i j) as [->|]; [|eauto]. rewrite E. eexists. split; [reflexivity|exact A].
      * destruct (Nat.eqb_spec i j) as [->|]; [exfalso; eapply N2; reflexivity|eauto].
  - assert (D : forall l, not_installed l \/ exists t, installed l t).
    { intros k. destruct (pw_property (state k)) as [p|] eqn:P; [right; exists (sp_otel p); apply installed_iff; unfold otel_of; rewrite P; reflexivity|left; apply not_installed_iff, P]. }
    revert a. induction l as [|o l IH] using rev_ind; intros a (x & E & A); [discriminate E|]. rewrite inst_snoc in E.
    destruct o as [t| |j c' v|j c'|j v|j]; cbn [instance_after] in E; fold (inst l i) in E.
    + apply at_before; try discriminate. eauto.
    + apply at_before; try discriminate. eauto.
    + destruct (Nat.eqb_spec i j) as [->|N].
      * injection E as <-. cbn in A. destruct (D l) as [X|[t X]]; [rewrite (assign_yes _ _ _ X) in A; subst a; apply at_new, X|rewrite (assign_no _ _ _ _ X) in A; subst a; apply (at_lost _ _ _ _ t), X].
      * apply at_before; [intros ? ? X; congruence|discriminate|eauto].
    + destruct (Nat.eqb_spec i j) as [->|N].
      * destruct (inst l j) as [y|] eqn:Y; [|discriminate]. injection E as <-. apply at_before; try discriminate. eauto.
      * apply at_before; try discriminate. eauto.
    + destruct (Nat.eqb_spec i j) as [->|N].
      * destruct (inst l j) as [y|] eqn:Y; [|discriminate]. injection E as <-. cbn in A. destruct (D l) as [X|[t X]].
        -- rewrite (assign_yes _ _ _ X) in A. subst a. apply (at_set _ _ _ (oi_tracer y)); [exact X|eauto].
        -- rewrite (assign_no _ _ _ _ X) in A. subst a. apply (at_ignored _ _ _ _ t); [exact X|eauto].
      * apply at_before; [discriminate|intros ? X; congruence|eauto].
    + apply at_before; try discriminate. eauto.
Qed.

Theorem reads l i c : context_of i l c ->
  (forall t, installed l t -> exists id, patch_read l i = Some (ShimRead id c t))
  /\ (not_installed l -> exists a, assigned_to i l a /\ patch_read l i = Some (match a with Some v => Assigned v | None => NoAttribute end)).
Proof.
  intros C. apply context_iff in C as (x & E & C). unfold patch_read, inst in *. cbn [patch_step]. rewrite E. split.
  - intros t T. apply installed_iff in T. unfold otel_of in T. destruct (pw_property (state l)) as [p|]; [|discriminate]. injection T as <-.
    unfold fget_tracer. rewrite C. destruct (cache_find c (sp_cache p)); eexists; reflexivity.
  - intros N. apply not_installed_iff in N. rewrite N. exists (oi_tracer x). split; [apply assigned_iff; exists x; split; [exact E|reflexivity]|reflexivity].
Qed.
Lemma assigned_det i l a b : assigned_to i l a -> assigned_to i l b -> a = b.
Proof. intros A B. apply assigned_iff in A as (x & A & <-), B as (y & B & <-). congruence. Qed.

(** ** The cache *)
Lemma find_In c s l : NoDup (map fst l) -> cache_find c l = Some s <-> In (c, s) l.
Proof.
  induction l as [|[d u] l IH]; intros N; [split; [discriminate|intros []]|]. cbn in N. inversion N as [|? ? NI N']; subst. cbn [cache_find].
  destruct (Nat.eqb_spec c d) as [->|NE].
  - split; [intros H; injection H as ->; left; reflexivity|]. intros [H|H]; [injection H as ->; reflexivity|]. exfalso. apply NI. apply (in_map fst) in H. exact H.
  - rewrite (IH N'). split; [intros H; right; exact H|]. intros [H|H]; [congruence|exact H].
Qed.
Lemma find_none c l : cache_find c l = None <-> ~ In c (map fst l).
Proof.
  induction l as [|[d u] l IH]; [split; [intros _ []|reflexivity]|]. cbn. destruct (Nat.eqb_spec c d) as [->|NE].
  - split; [discriminate|intros H; exfalso; apply H; left; reflexivity].
  - rewrite IH. split; [intros H [X|X]; [congruence|contradiction]|tauto].
Qed.
Lemma remove_keys c l : NoDup (map fst l) -> NoDup (map fst (cache_remove c l)).
Proof.
  induction l as [|[d u] l IH]; intros N; [constructor|]. cbn in N. inversion N as [|? ? NI N']; subst. cbn.
  destruct (Nat.eqb c d); cbn; [apply IH, N'|]. constructor; [|apply IH, N']. intros X. apply NI. apply in_map_iff in X as (e & <- & X). apply filter_In in X as [X _]. apply in_map, X.
Qed.
Lemma remove_gone c l : ~ In c (map fst (cache_remove c l)).
Proof.
  intros X. apply in_map_iff in X as (e & E & X). apply filter_In in X as [_ X]. rewrite <- E, Nat.eqb_refl in X. discriminate.
Qed.
Lemma remove_app c l m : cache_remove c (l ++ m) = cache_remove c l ++ cache_remove c m.
Proof. apply filter_app. Qed.
Lemma remove_other c d s l : c <> d -> cache_remove c ((d, s) :: l) = (d, s) :: cache_remove c l.
Proof. intros N. cbn. destruct (Nat.eqb_spec c d); [contradiction|reflexivity]. Qed.
Lemma NoDup_snoc {A} (l : list A) a : NoDup l -> ~ In a l -> NoDup (l ++ [a]).
Proof. intros N I. apply NoDup_rev in N. rewrite <- (rev_involutive (l ++ [a])). apply NoDup_rev. rewrite rev_app_distr. cbn. constructor; [rewrite <- in_rev; exact I|exact N]. Qed.
Lemma fget_nodup p n c : NoDup (map fst (sp_cache p)) -> NoDup (map fst (sp_cache (fst (fst (fget_tracer p n c))))).
Proof.
  intros N. unfold fget_tracer. destruct (cache_find c (sp_cache p)) as [s|] eqn:E; cbn [fst sp_cache].
  - rewrite map_app. apply NoDup_snoc; [apply remove_keys, N|apply remove_gone].
  - apply find_none in E. unfold cache_add. rewrite map_app. destruct (N.leb _ _); apply NoDup_snoc; try assumption.
    + destruct (sp_cache p); [constructor|]. cbn in N. inversion N; assumption.
    + intros X. apply E. destruct (sp_cache p); [destruct X|right; exact X].
Qed.
Lemma state_nodup l p : pw_property (state l) = Some p -> NoDup (map fst (sp_cache p)).
Proof.
  revert p. induction l as [|o l IH] using rev_ind; intros p P; [discriminate P|]. rewrite state_snoc in P.
  destruct o as [t| |i c v|i c|i v|i]; cbn in P.
  - injection P as <-. constructor.
  - discriminate.
  - apply IH, P.
  - destruct (instance_of i _) in P; apply IH, P.
  - destruct (instance_of i _) in P; apply IH, P.
  - destruct (instance_of i _) as [x|]; [|apply IH, P]. destruct (pw_property (state l)) as [q|] eqn:Q; [|cbn in P; congruence].
    pose proof (fget_nodup q (pw_next (state l)) (oi_context x) (IH q eq_refl)) as F. destruct (fget_tracer _ _ _) as [[p' n'] r]. cbn in P, F. injection P as <-. exact F.
Qed.

(** Entry [(c, s)] is in the cache, and what is newer is among [cs]. *)
Definition recent (c s : nat) (cs : list nat) (l : shim_cache) : Prop :=
  exists pre post, l = pre ++ (c, s) :: post /\ NoDup (map fst l) /\ (forall d, In d (map fst post) -> In d cs).
Lemma recent_find c s cs l : recent c s cs l -> cache_find c l = Some s.
Proof. intros (pre & post & -> & N & _). apply find_In; [exact N|]. apply in_app_iff. right. left. reflexivity. Qed.
Lemma recent_fget c s cs p n d : (length cs <= 127) -> In d (c :: cs) -> recent c s cs (sp_cache p) -> recent c s cs (sp_cache (fst (fst (fget_tracer p n d)))).
Proof.
  intros B D R. pose proof (fget_nodup p n d) as FN. destruct R as (pre & post & E & N & S). specialize (FN N).
  unfold fget_tracer in *. destruct (Nat.eq_dec d c) as [->|NE].
  - rewrite (recent_find c s cs (sp_cache p)) in * by (exists pre, post; auto). cbn [fst sp_cache] in *. exists (cache_remove c (sp_cache p)), []. split; [reflexivity|]. split; [exact FN|intros x []].
  - assert (DC : In d cs) by (destruct D as [D|D]; [congruence|exact D]).
    destruct (cache_find d (sp_cache p)) as [u|] eqn:F; cbn [fst sp_cache] in *.
    + rewrite E, remove_app, remove_other, <- app_assoc in * by exact NE. cbn [app] in *. exists (cache_remove d pre), (cache_remove d post ++ [(d, u)]). split; [reflexivity|]. split; [exact FN|].
      intros x X. rewrite map_app in X. apply in_app_iff in X as [X|[<-|[]]]; [|exact DC]. apply S. apply in_map_iff in X as (e & <- & X). apply filter_In in X as [X _]. apply in_map, X.
    + apply find_none in F. unfold cache_add in *. destruct (N.leb_spec LRU_MAXSIZE (N.of_nat (length (sp_cache p)))) as [L|L].
      * destruct pre as [|e pre].
        { exfalso. rewrite E in L, F, N. cbn in L, F, N. assert (LP : length (d :: map fst post) <= length cs).
          { apply NoDup_incl_length; [|intros x [<-|X]; [exact DC|apply S, X]]. inversion N as [|? ? _ N']; subst. constructor; [|exact N'].
            intros X. apply F. right. exact X. }
          cbn in LP. rewrite map_length in LP. unfold LRU_MAXSIZE in L. lia. }
        rewrite E in *. cbn [tl app] in *. rewrite <- app_assoc in *. cbn [app] in *. exists pre, (post ++ [(d, n)]). split; [reflexivity|]. split; [exact FN|].
        intros x X. rewrite map_app in X. apply in_app_iff in X as [X|[<-|[]]]; [apply S, X|exact DC].
      * rewrite E, <- app_assoc in *. cbn [app] in *. exists pre, (post ++ [(d, n)]). split; [reflexivity|]. split; [exact FN|].
        intros x X. rewrite map_app in X. apply in_app_iff in X as [X|[<-|[]]]; [apply S, X|exact DC].
Qed.
Lemma fget_recent p n c s r : NoDup (map fst (sp_cache p)) -> snd (fget_tracer p n c) = r -> r = ShimRead s c (sp_otel p) ->
  recent c s [] (sp_cache (fst (fst (fget_tracer p n c)))).
Proof.
  intros N. pose proof (fget_nodup p n c N) as FN. unfold fget_tracer in *. destruct (cache_find c (sp_cache p)) as [u|]; cbn [fst snd sp_cache] in *; intros <- E; injection E as E; subst.
  - exists (cache_remove c (sp_cache p)), []. split; [reflexivity|]. split; [exact FN|intros x []].
  - unfold cache_add in *. eexists. exists []. split; [reflexivity|]. split; [exact FN|intros x []].
Qed.
Lemma recent_weaken c s cs cs' l : (forall d, In d cs -> In d cs') -> recent c s cs l -> recent c s cs' l.
Proof. intros H (pre & post & E & N & S). exists pre, post. split; [exact E|]. split; [exact N|]. intros d D. apply H, S, D. Qed.

Theorem same_object l t i c id m j cs : installed l t -> context_of i l c -> patch_read l i = Some (ShimRead id c t) ->
  Forall keeps m -> reads_among (l ++ [ORead i]) m (c :: cs) -> length cs <= 127 -> context_of j ((l ++ [ORead i]) ++ m) c ->
  patch_read ((l ++ [ORead i]) ++ m) j = Some (ShimRead id c t).
Proof.
  intros T C R K A B J.
  assert (I : exists p, pw_property (state ((l ++ [ORead i]) ++ m)) = Some p /\ sp_otel p = t /\ recent c id cs (sp_cache p)).
  { clear J j. induction m as [|o m IH] using rev_ind.
    - rewrite app_nil_r, state_snoc. apply context_iff in C as (x & E & C). unfold inst in E. unfold patch_read in R. cbn [patch_step] in *. rewrite E in *.
      apply installed_iff in T. unfold otel_of in T. destruct (pw_property (state l)) as [p|] eqn:P; [|discriminate]. injection T as T. rewrite C in *.
      pose proof (fget_recent p (pw_next (state l)) c id _ (state_nodup l p P) eq_refl) as F. destruct (fget_tracer p (pw_next (state l)) c) as [[p' n'] r] eqn:G.
      cbn in R, F. injection R as R. cbn [fst pw_property]. exists p'. split; [reflexivity|]. split.
      + unfold fget_tracer in G. destruct (cache_find c (sp_cache p)); injection G as <- <- <-; exact T.
      + apply (recent_weaken c id []); [intros d []|]. apply F. rewrite T. exact R.
    - apply Forall_app in K as [K Ko]. inversion Ko as [|? ? [K1 K2] _]; subst. destruct IH as (p & P & O & Rc); [exact K| |].
      { intros a k b d -> X. apply (A a k (b ++ [o]) d); [rewrite <- app_assoc; reflexivity|exact X]. }
      rewrite app_assoc, state_snoc. destruct o as [t'| |k d v|k d|k v|k]; cbn [patch_step fst]; try (exfalso; eapply K1; reflexivity); try (exfalso; apply K2; reflexivity).
      + exists p. split; [exact P|]. split; [exact O|exact Rc].
      + exists p. destruct (instance_of k _); (split; [exact P|]); (split; [exact O|exact Rc]).
      + exists p. destruct (instance_of k _); (split; [exact P|]); (split; [exact O|exact Rc]).
      + destruct (instance_of k (pw_instances (state ((l ++ [ORead i]) ++ m)))) as [x|] eqn:E; [|exists p; split; [exact P|]; split; [exact O|exact Rc]].
        rewrite P. assert (D : In (oi_context x) (c :: cs)).
        { apply (A m k [] (oi_context x)); [reflexivity|]. apply context_iff. exists x. split; [exact E|reflexivity]. }
        pose proof (recent_fget c id cs p (pw_next (state ((l ++ [ORead i]) ++ m))) (oi_context x) B D Rc) as F.
        destruct (fget_tracer p _ (oi_context x)) as [[p' n'] r] eqn:G. cbn [fst pw_property]. exists p'. split; [reflexivity|]. split; [|exact F].
        unfold fget_tracer in G. destruct (cache_find _ (sp_cache p)); injection G as <- <- <-; exact O. }
  destruct I as (p & P & O & Rc). apply context_iff in J as (x & E & X). unfold inst in E. unfold patch_read. cbn [patch_step]. rewrite E, P, X.
  unfold fget_tracer. rewrite (recent_find _ _ _ _ Rc), O. reflexivity.
Qed.

(** ** Identities *)
Lemma identity_step c t s w o : s < pw_next w ->
  (forall p, pw_property w = Some p -> forall d, In (d, s) (sp_cache p) -> d = c /\ sp_otel p = t) ->
  s < pw_next (fst (patch_step w o)) /\ (forall p, pw_property (fst (patch_step w o)) = Some p -> forall d, In (d, s) (sp_cache p) -> d = c /\ sp_otel p = t).
Proof.
  intros L H. destruct o as [t'| |i d v|i d|i v|i]; cbn.
  - split; [exact L|]. intros p P d. injection P as <-. intros [].
  - split; [exact L|discriminate].
  - split; assumption.
  - destruct (instance_of i _); split; assumption.
  - destruct (instance_of i _); split; assumption.
  - destruct (instance_of i _) as [x|]; [|split; assumption]. destruct (pw_property w) as [p|] eqn:P; [|cbn; rewrite P; split; [exact L|discriminate]].
    unfold fget_tracer. destruct (cache_find (oi_context x) (sp_cache p)) as [u|] eqn:F; cbn.
    + split; [exact L|]. intros q Q d. injection Q as <-. cbn. intros I. apply (H p eq_refl). apply in_app_iff in I as [I|[I|[]]]; [apply filter_In in I as [I _]; exact I|].
      injection I as <- <-. clear - F. induction (sp_cache p) as [|[a b] r IH]; [discriminate|]. cbn in F. destruct (Nat.eqb_spec (oi_context x) a) as [->|]; [injection F as ->; left; reflexivity|right; apply IH, F].
    + split; [lia|]. intros q Q d. injection Q as <-. cbn. unfold cache_add. intros I. apply (H p eq_refl). apply in_app_iff in I as [I|[I|[]]].
      * destruct (N.leb _ _); [destruct (sp_cache p); [destruct I|right; exact I]|exact I].
      * injection I as _ I. lia.
Qed.
Lemma cache_ids l p d s : pw_property (state l) = Some p -> In (d, s) (sp_cache p) -> s < pw_next (state l).
Proof.
  revert p. induction l as [|o l IH] using rev_ind; intros p P I; [discriminate P|]. rewrite state_snoc in *.
  destruct o as [t'| |i e v|i e|i v|i]; cbn in P |- *.
  - injection P as <-. destruct I.
  - discriminate.
  - apply (IH p); assumption.
  - destruct (instance_of i _) in *; apply (IH p); assumption.
  - destruct (instance_of i _) in *; apply (IH p); assumption.
  - destruct (instance_of i _) as [x|]; [|apply (IH p); assumption]. destruct (pw_property (state l)) as [q|] eqn:Q; [|cbn in P; congruence].
    unfold fget_tracer in *. destruct (cache_find (oi_context x) (sp_cache q)) as [u|] eqn:F; cbn in *; injection P as <-; cbn in I; apply in_app_iff in I as [I|[I|[]]].
    + apply filter_In in I as [I _]. apply (IH q eq_refl I).
    + injection I as <- <-. apply (IH q eq_refl). clear - F. induction (sp_cache q) as [|[a b] r IH]; [discriminate|]. cbn in F. destruct (Nat.eqb_spec (oi_context x) a) as [->|]; [injection F as ->; left; reflexivity|right; apply IH, F].
    + apply Nat.lt_lt_succ_r, (IH q eq_refl). destruct (N.leb _ _); [destruct (sp_cache q); [destruct I|right; exact I]|exact I].
    + injection I as <- <-. lia.
Qed.
Lemma find_in c s l : cache_find c l = Some s -> In (c, s) l.
Proof. induction l as [|[a b] r IH]; [discriminate|]. cbn. destruct (Nat.eqb_spec c a) as [->|]; [intros F; injection F as ->; left; reflexivity|intros F; right; apply IH, F]. Qed.
Lemma cache_inj l p d d' s : pw_property (state l) = Some p -> In (d, s) (sp_cache p) -> In (d', s) (sp_cache p) -> d = d'.
Proof.
  revert p. induction l as [|o l IH] using rev_ind; intros p P I I'; [discriminate P|]. rewrite state_snoc in *.
  destruct o as [t'| |i e v|i e|i v|i]; cbn in P.
  - injection P as <-. destruct I.
  - discriminate.
  - apply (IH p); assumption.
  - destruct (instance_of i _) in P; apply (IH p); assumption.
  - destruct (instance_of i _) in P; apply (IH p); assumption.
  - destruct (instance_of i _) as [x|]; [|apply (IH p); assumption]. destruct (pw_property (state l)) as [q|] eqn:Q; [|cbn in P; congruence].
    unfold fget_tracer in *. destruct (cache_find (oi_context x) (sp_cache q)) as [u|] eqn:F; cbn in P; injection P as <-; cbn in I, I'.
    + apply find_in in F.
      assert (Z : forall d, In (d, s) (cache_remove (oi_context x) (sp_cache q) ++ [(oi_context x, u)]) -> In (d, s) (sp_cache q)).
      { intros y Y. apply in_app_iff in Y as [Y|[Y|[]]]; [apply filter_In in Y as [Y _]; exact Y|]. injection Y as <- <-. exact F. }
      apply (IH q eq_refl); apply Z; assumption.
    + unfold cache_add in I, I'.
      assert (Z : forall d, In (d, s) ((if N.leb LRU_MAXSIZE (N.of_nat (length (sp_cache q))) then tl (sp_cache q) else sp_cache q) ++ [(oi_context x, pw_next (state l))]) ->
        In (d, s) (sp_cache q) /\ s < pw_next (state l) \/ d = oi_context x /\ s = pw_next (state l)).
      { intros y Y. apply in_app_iff in Y as [Y|[Y|[]]]; [left|right; injection Y as <- <-; split; reflexivity].
        assert (Y' : In (y, s) (sp_cache q)) by (destruct (N.leb _ _); [destruct (sp_cache q); [destruct Y|right; exact Y]|exact Y]).
        split; [exact Y'|apply (cache_ids l q _ _ Q Y')]. }
      destruct (Z d I) as [[A B]|[A B]], (Z d' I') as [[A' B']|[A' B']]; try lia; [apply (IH q eq_refl); assumption].
Qed.
Theorem one_identity l i m j s c t c' t' : patch_read l i = Some (ShimRead s c t) ->
  patch_read ((l ++ [ORead i]) ++ m) j = Some (ShimRead s c' t') -> c' = c /\ t' = t.
Proof.
  intros R R'.
  assert (I : s < pw_next (state (l ++ [ORead i])) /\ (forall p, pw_property (state (l ++ [ORead i])) = Some p -> forall d, In (d, s) (sp_cache p) -> d = c /\ sp_otel p = t)).
  { clear R' m. rewrite state_snoc. unfold patch_read in R. cbn [patch_step] in *. destruct (instance_of i _) as [x|]; [|discriminate].
    destruct (pw_property (state l)) as [p|] eqn:P; [|destruct (oi_tracer x); discriminate].
    unfold fget_tracer in *. destruct (cache_find (oi_context x) (sp_cache p)) as [u|] eqn:F; cbn in *; injection R as E1 E2 E3; subst c t.
    - subst u. apply find_in in F. split; [apply (cache_ids l p _ _ P F)|].
      intros q Q d. injection Q as <-. cbn. intros I. split; [|reflexivity]. apply in_app_iff in I as [I|[I|[]]]; [|congruence].
      apply filter_In in I as [I _]. apply (cache_inj l p _ _ s P I F).
    - split; [lia|]. intros q Q d. injection Q as <-. cbn. unfold cache_add. intros I. split; [|reflexivity]. apply in_app_iff in I as [I|[I|[]]]; [|congruence].
      exfalso. assert (Y : In (d, s) (sp_cache p)) by (destruct (N.leb _ _); [destruct (sp_cache p); [destruct I|right; exact I]|exact I]).
      pose proof (cache_ids l p _ _ P Y). lia. }
  assert (J : s < pw_next (state ((l ++ [ORead i]) ++ m)) /\ (forall p, pw_property (state ((l ++ [ORead i]) ++ m)) = Some p -> forall d, In (d, s) (sp_cache p) -> d = c /\ sp_otel p = t)).
  { clear R R'. induction m as [|o m IH] using rev_ind; [rewrite app_nil_r; exact I|]. rewrite app_assoc, state_snoc. destruct IH as [A B]. apply identity_step; assumption. }
  destruct J as [L H]. unfold patch_read in R'. cbn [patch_step] in R'. destruct (instance_of j _) as [x|]; [|discriminate].
  destruct (pw_property (state ((l ++ [ORead i]) ++ m))) as [p|] eqn:P; [|destruct (oi_tracer x); discriminate].
  unfold fget_tracer in R'. destruct (cache_find (oi_context x) (sp_cache p)) as [u|] eqn:F; cbn in R'; injection R' as X <- <-.
  - subst u. apply find_in in F. apply (H p eq_refl). exact F.
  - lia.
Qed.
