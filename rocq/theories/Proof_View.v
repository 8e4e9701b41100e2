(** Proofs about metric streams. *)
From Verif Require Export Spec_View Proof_Metrics Proof_Dict.
Require Import Lia Arith.
Local Open Scope Z_scope.

(** ** Equality of keys *)
Lemma ckey_ind2 (P : ckey -> Prop) :
  P CNone -> (forall z, P (CNum z)) -> (forall f, P (CFloat f)) -> (forall s, P (CStr s)) ->
  (forall b, P (CBytes b)) -> (forall l, Forall P l -> P (CTuple l)) -> (forall i, P (CObj i)) ->
  forall c, P c.
Proof.
  intros H1 H2 H3 H4 H5 H6 H7. fix F 1. intros [|z|f|s|b|l|i].
  - exact H1. - apply H2. - apply H3. - apply H4. - apply H5.
  - apply H6. induction l as [|x l IH]; constructor; [apply F|exact IH].
  - apply H7.
Qed.
Lemma ckey_eqb_spec : forall a b, ckey_eqb a b = true <-> a = b.
Proof.
  induction a as [|z|f|s|b|l IH|i] using ckey_ind2; intros c; destruct c as [|z'|f'|s'|b'|l'|i'];
    cbn [ckey_eqb]; try (split; [discriminate|intros H; discriminate H]); try tauto.
  - rewrite Z.eqb_eq. split; [intros ->|intros [= ->]]; reflexivity.
  - rewrite Z.eqb_eq. split; [intros ->|intros [= ->]]; reflexivity.
  - unfold str_eqb. destruct (str_eq_dec s s') as [->|N]; split; try tauto; try discriminate; intros [= E]; contradiction.
  - unfold str_eqb. destruct (str_eq_dec b b') as [->|N]; split; try tauto; try discriminate; intros [= E]; contradiction.
  - assert (G : forall l', (fix go (l m : list ckey) : bool :=
         match l, m with [], [] => true | x :: l', y :: m' => ckey_eqb x y && go l' m' | _, _ => false end) l l' = true
         <-> l = l').
    { clear l'. induction IH as [|x l Hx _ IHl]; intros [|y m]; try (split; [discriminate|intros H; discriminate H]); try tauto.
      rewrite andb_true_iff, Hx, IHl. split; [intros [-> ->]; reflexivity|intros [= -> ->]; split; reflexivity]. }
    rewrite G. split; [intros ->; reflexivity|intros [= ->]; reflexivity].
  - rewrite N.eqb_eq. split; [intros ->|intros [= ->]]; reflexivity.
Qed.
Lemma pair_eqb_spec a b : pair_eqb a b = true <-> a = b.
Proof.
  destruct a as [s c], b as [s' c']. unfold pair_eqb. cbn. rewrite andb_true_iff, ckey_eqb_spec.
  unfold str_eqb. destruct (str_eq_dec s s') as [->|N].
  - split; [intros [_ ->]; reflexivity|intros [= ->]; split; reflexivity].
  - split; [intros [H _]; discriminate|intros [= E _]; contradiction].
Qed.
Lemma subset_spec a b : subset a b = true <-> forall x, In x a -> In x b.
Proof.
  unfold subset. rewrite forallb_forall. split; intros H x Hx; specialize (H x Hx).
  - apply existsb_exists in H. destruct H as (y & Hy & E). apply pair_eqb_spec in E. now subst.
  - apply existsb_exists. exists x. split; [exact H|]. now apply pair_eqb_spec.
Qed.
Lemma fs_eqb_spec a b : fs_eqb a b = true <-> forall x, In x a <-> In x b.
Proof.
  unfold fs_eqb. rewrite andb_true_iff, !subset_spec. split.
  - intros [H1 H2] x. split; auto.
  - intros H. split; intros x; apply H.
Qed.
Lemma fs_eqb_refl a : fs_eqb a a = true.
Proof. apply fs_eqb_spec. tauto. Qed.
Lemma fs_eqb_sym a b : fs_eqb a b = fs_eqb b a.
Proof. unfold fs_eqb. apply andb_comm. Qed.
Lemma fs_eqb_trans a b c : fs_eqb a b = true -> fs_eqb b c = true -> fs_eqb a c = true.
Proof. rewrite !fs_eqb_spec. intros H1 H2 x. rewrite H1. apply H2. Qed.
Lemma fs_eqb_cong a b c : fs_eqb a b = true -> fs_eqb a c = fs_eqb b c.
Proof.
  intros H. destruct (fs_eqb a c) eqn:E, (fs_eqb b c) eqn:F; try reflexivity.
  - rewrite fs_eqb_sym in H. rewrite (fs_eqb_trans _ _ _ H E) in F. discriminate.
  - rewrite (fs_eqb_trans _ _ _ H F) in E. discriminate.
Qed.

Section View.
Variable float_int : Z -> option Z.
Variable obj_hash : N -> bool.
Variable view_keys : option (list str).
Notation canon := (canon float_int obj_hash).
Notation frozen := (frozen float_int obj_hash).
Notation same_stream := (same_stream float_int obj_hash view_keys).
Notation usable := (usable float_int obj_hash view_keys).
Notation decides := (decides float_int obj_hash view_keys).
Notation kept := (kept view_keys).

Lemma frozen_In a f : frozen a = Some f -> forall k c, In (k, c) f <-> exists v, In (k, v) a /\ canon v = Some c.
Proof.
  revert f. induction a as [|[k0 v0] a IH]; intros f H k c; cbn in H.
  - injection H as <-. split; [intros []|intros (v & [] & _)].
  - destruct (canon v0) as [c0|] eqn:Ec; [|discriminate]. destruct (frozen a) as [f0|]; [|discriminate].
    injection H as <-. cbn [In]. rewrite (IH f0 eq_refl). split.
    + intros [[= -> ->]|(v & Hv & E)]; [exists v0|exists v]; auto.
    + intros (v & [[= -> ->]|Hv] & E); [left|right; exists v]; auto. rewrite Ec in E. now injection E as ->.
Qed.
Lemma frozen_some a : frozen a <> None <-> forall k v, In (k, v) a -> canon v <> None.
Proof.
  induction a as [|[k0 v0] a IH]; cbn.
  - split; [intros _ k v []|discriminate].
  - destruct (canon v0) as [c0|] eqn:Ec.
    + destruct (frozen a) as [f0|].
      * split; [|discriminate]. intros _ k v [[= <- <-]|H]; [congruence|].
        apply (proj1 IH ltac:(discriminate) k v H).
      * split; [congruence|]. intros H. exfalso. apply (proj2 IH); auto. intros k v Hv. apply (H k v). auto.
    + split; [congruence|]. intros H. exfalso. apply (H k0 v0); auto.
Qed.

Lemma kept_spec a k v : In (k, v) (stream_attrs view_keys a) <-> kept k /\ In (k, v) (match a with Some x => x | None => [] end).
Proof.
  unfold stream_attrs, Spec_View.kept. destruct view_keys as [ks|]; [|tauto].
  rewrite filter_In. cbn. rewrite existsb_exists. split.
  - intros [H (x & Hx & E)]. split; [|exact H]. unfold str_eqb in E. destruct (str_eq_dec k x); [congruence|discriminate].
  - intros [Hk H]. split; [exact H|]. exists k. split; [exact Hk|]. unfold str_eqb. destruct (str_eq_dec k k); congruence.
Qed.
Lemma stream_NoDup a : (forall x, a = Some x -> NoDup (keys x)) -> NoDup (keys (stream_attrs view_keys a)).
Proof.
  intros H. assert (N : NoDup (keys (match a with Some x => x | None => [] end))).
  { destruct a as [x|]; [now apply H|constructor]. }
  unfold stream_attrs. destruct view_keys as [ks|]; [|exact N].
  assert (G : forall l : mattrs, NoDup (keys l) -> NoDup (keys (filter (fun kv => existsb (str_eqb (fst kv)) ks) l))).
  { clear. intros l N. unfold keys in *. induction l as [|[k v] l IH]; cbn in *; [constructor|].
    inversion N as [|? ? Hn Hd]; subst.
    destruct (existsb (str_eqb k) ks); [|now apply IH]. cbn. constructor; [|now apply IH].
    intros Hi. apply Hn. apply in_map_iff in Hi. destruct Hi as (x & E & Hx). apply filter_In in Hx.
    apply in_map_iff. exists x. tauto. }
  apply G. exact N.
Qed.
Lemma look_In a k v : (forall x, a = Some x -> NoDup (keys x)) ->
  look a k = Some v <-> In (k, v) (match a with Some x => x | None => [] end).
Proof.
  intros H. unfold look. destruct a as [x|]; [|split; [discriminate|intros []]].
  specialize (H x eq_refl). split; [apply dget_In|now apply In_dget].
Qed.
Lemma stream_look a k : kept k -> (forall x, a = Some x -> NoDup (keys x)) ->
  dget k (stream_attrs view_keys a) = look a k.
Proof.
  intros Hk H. pose proof (stream_NoDup a H) as N.
  destruct (dget k (stream_attrs view_keys a)) as [v|] eqn:E.
  - apply dget_In, kept_spec in E. symmetry. apply look_In; tauto.
  - destruct (look a k) as [v|] eqn:L; [|reflexivity]. apply look_In in L; [|exact H].
    rewrite (In_dget _ k v N) in E; [discriminate|]. apply kept_spec. tauto.
Qed.
Lemma stream_only a k : In k (keys (stream_attrs view_keys a)) -> kept k.
Proof.
  unfold keys. intros H. apply in_map_iff in H. destruct H as ([k' v] & <- & H). apply kept_spec in H. tauto.
Qed.
Lemma usable_frozen a : usable a -> exists f, frozen (stream_attrs view_keys a) = Some f.
Proof.
  intros [H1 H2]. destruct (frozen (stream_attrs view_keys a)) as [f|] eqn:E; [eauto|].
  exfalso. apply (proj2 (frozen_some (stream_attrs view_keys a))); [|exact E].
  intros k v Hin. apply kept_spec in Hin. destruct Hin as [Hk Hin]. apply (H2 k v Hk). now apply look_In.
Qed.
Lemma frozen_same a b f g : usable a -> usable b ->
  frozen (stream_attrs view_keys a) = Some f -> frozen (stream_attrs view_keys b) = Some g ->
  (fs_eqb f g = true <-> same_stream a b).
Proof.
  intros [Na Ha] [Nb Hb] Ef Eg. rewrite fs_eqb_spec. split.
  - intros H k Hk. unfold equal_values.
    assert (G : forall a b f g, (forall x, a = Some x -> NoDup (keys x)) -> (forall x, b = Some x -> NoDup (keys x)) ->
       frozen (stream_attrs view_keys a) = Some f -> frozen (stream_attrs view_keys b) = Some g ->
       (forall k v, kept k -> look a k = Some v -> canon v <> None) ->
       (forall x, In x f <-> In x g) -> forall v, look a k = Some v -> exists w, look b k = Some w /\ canon v = canon w).
    { clear -Hk. intros a b f g Na Nb Ef Eg Ha H v L. destruct (canon v) as [c|] eqn:C; [|now apply Ha in L].
      assert (In (k, c) f) as Hf.
      { apply (frozen_In _ _ Ef). exists v. split; [|exact C]. apply kept_spec. split; [exact Hk|]. now apply look_In. }
      apply H in Hf. apply (frozen_In _ _ Eg) in Hf. destruct Hf as (w & Hw & Cw). exists w.
      apply kept_spec in Hw. destruct Hw as [_ Hw]. split; [now apply look_In|congruence]. }
    destruct (look a k) as [v|] eqn:La.
    + destruct (G a b f g Na Nb Ef Eg Ha H v La) as (w & -> & E). exact E.
    + destruct (look b k) as [w|] eqn:Lb; [|exact I].
      destruct (G b a g f Nb Na Eg Ef Hb) with (v := w) as (v & E & _); [intros x; symmetry; apply H|exact Lb|congruence].
  - intros S [k c]. assert (G : forall a b f g, (forall x, a = Some x -> NoDup (keys x)) -> (forall x, b = Some x -> NoDup (keys x)) ->
       frozen (stream_attrs view_keys a) = Some f -> frozen (stream_attrs view_keys b) = Some g ->
       same_stream a b -> In (k, c) f -> In (k, c) g).
    { clear. intros a b f g Na Nb Ef Eg S Hf. apply (frozen_In _ _ Ef) in Hf. destruct Hf as (v & Hv & C).
      apply kept_spec in Hv. destruct Hv as [Hk Hv]. apply look_In in Hv; [|exact Na].
      specialize (S k Hk). rewrite Hv in S. destruct (look b k) as [w|] eqn:L; [|contradiction].
      cbn in S. apply (frozen_In _ _ Eg). exists w. split; [|congruence]. apply kept_spec. split; [exact Hk|]. now apply look_In. }
    split; [apply (G a b f g)|apply (G b a g f)]; auto.
    intros k' Hk'. specialize (S k' Hk'). unfold equal_values in *.
    destruct (look a k'), (look b k'); auto.
Qed.
Lemma same_refl a : same_stream a a.
Proof. intros k _. unfold equal_values. destruct (look a k); auto. Qed.
Lemma same_sym a b : same_stream a b -> same_stream b a.
Proof. intros S k Hk. specialize (S k Hk). unfold equal_values in *. destruct (look a k), (look b k); auto. Qed.
Lemma same_trans a b c : same_stream a b -> same_stream b c -> same_stream a c.
Proof.
  intros S T k Hk. specialize (S k Hk). specialize (T k Hk). unfold equal_values in *.
  destruct (look a k), (look b k), (look c k); try contradiction; auto. congruence.
Qed.

(** ** Sequential histories *)
Context {A D : Type} (create1 : mattrs -> Z -> A) (aggregate1 : A -> Z -> A) (collect1 : A -> Z -> A * option D).
Notation run1 := (run_alone aggregate1 collect1).
Notation vm_run := (vm_run float_int obj_hash create1 aggregate1 collect1 view_keys).
Notation vm_step := (vm_step float_int obj_hash create1 aggregate1 collect1 view_keys).
Notation vm_consume := (vm_consume float_int obj_hash create1 aggregate1 view_keys).

Notation op_usable := (op_usable float_int obj_hash view_keys).

Lemma run_alone_snoc a h o :
  run1 a (h ++ [o]) = match o with
                      | Measure v => (aggregate1 (fst (run1 a h)) v, snd (run1 a h))
                      | Collect now => (fst (collect1 (fst (run1 a h)) now),
                                        snd (run1 a h) ++ [snd (collect1 (fst (run1 a h)) now)])
                      end.
Proof.
  unfold run_alone. rewrite fold_left_app. cbn [fold_left]. destruct o as [v|now]; [reflexivity|].
  destruct (collect1 _ now). reflexivity.
Qed.
Lemma stream_ops_app P h1 h2 : forall b,
  stream_ops P b (h1 ++ h2)
  = stream_ops P b h1 ++ stream_ops P (b || existsb (fun o => match o with VMeasure a _ _ => P a | _ => false end) h1) h2.
Proof.
  induction h1 as [|[a v n|n] h1 IH]; intros b; cbn [app stream_ops existsb].
  - now rewrite orb_false_r.
  - rewrite IH. destruct (P a); cbn [orb app]; [rewrite orb_true_r|]; rewrite ?orb_true_l; try reflexivity.
    rewrite IH. reflexivity.
  - destruct b; cbn [orb app]; rewrite IH; reflexivity.
Qed.

(** The first measurement of its stream *)
Definition first_of (h : list vop) (rep : option mattrs * Z) : Prop :=
  exists v h1 h2, h = h1 ++ VMeasure (fst rep) v (snd rep) :: h2 /\ forall a w n, In (VMeasure a w n) h1 -> ~ same_stream (fst rep) a.
Lemma first_of_app h rep h' : first_of h rep -> first_of (h ++ h') rep.
Proof. intros (v & h1 & h2 & -> & N). exists v, h1, (h2 ++ h'). split; [now rewrite <- app_assoc|exact N]. Qed.
Lemma first_of_In h rep : first_of h rep -> exists v, In (VMeasure (fst rep) v (snd rep)) h.
Proof. intros (v & h1 & h2 & -> & N). exists v. apply in_or_app. right. now left. Qed.
(** The state of a series for a representative (attributes, creation time). *)
Definition is_series (h : list vop) (rep : option mattrs * Z) (ser : fset * A) : Prop :=
  frozen (stream_attrs view_keys (fst rep)) = Some (fst ser)
  /\ usable (fst rep) /\ first_of h rep
  /\ forall P, decides P (fst rep) ->
     snd ser = fst (run1 (create1 (stream_attrs view_keys (fst rep)) (snd rep)) (stream_ops P false h)).

Lemma find_series_some k (s : series) (a : A) : find_series k s = Some a -> exists k', In (k', a) s /\ fs_eqb k k' = true.
Proof.
  induction s as [|[k' a'] s IH]; cbn; [discriminate|]. destruct (fs_eqb k k') eqn:E.
  - intros [= ->]. exists k'. auto.
  - intros H. destruct (IH H) as (k2 & Hin & E2). exists k2. auto.
Qed.
Lemma find_series_none k (s : @series A) : find_series k s = None -> forall k' a, In (k', a) s -> fs_eqb k k' = false.
Proof.
  induction s as [|[k0 a0] s IH]; cbn; [intros _ k' a []|]. destruct (fs_eqb k k0) eqn:E; [discriminate|].
  intros H k' a [[= <- <-]|Hin]; eauto.
Qed.
Definition distinct (s : @series A) : Prop := ForallOrdPairs (fun x y => fs_eqb (fst x) (fst y) = false) s.

Lemma upd_series_nohit k f (s : @series A) : (forall k' a, In (k', a) s -> fs_eqb k k' = false) -> upd_series k f s = s.
Proof.
  induction s as [|[k0 a0] s IH]; intros H; cbn; [reflexivity|].
  rewrite (H k0 a0) by now left. rewrite IH; [reflexivity|]. intros k' a Hin. apply (H k' a). now right.
Qed.
Definition upd_all k f (s : @series A) : @series A :=
  map (fun x => if fs_eqb k (fst x) then (fst x, f (snd x)) else x) s.
Lemma upd_series_map k f (s : @series A) : distinct s -> upd_series k f s = upd_all k f s.
Proof.
  induction 1 as [|[k0 a0] s Hd _ IH]; cbn; [reflexivity|]. destruct (fs_eqb k k0) eqn:E.
  - f_equal. symmetry. transitivity (map (fun x : fset * A => x) s); [|apply map_id].
    apply map_ext_in. intros [k1 a1] Hin. rewrite Forall_forall in Hd. specialize (Hd _ Hin). cbn in *.
    rewrite (fs_eqb_cong _ _ _ E), Hd. reflexivity.
  - now rewrite IH.
Qed.
Lemma distinct_map (f : fset * A -> fset * A) (s : @series A) :
  (forall x, fst (f x) = fst x) -> distinct s -> distinct (map f s).
Proof.
  intros Hf. induction 1 as [|x s Hd _ IH]; cbn; constructor; [|exact IH].
  rewrite Forall_map. eapply Forall_impl; [|exact Hd]. intros y H. cbn in *. now rewrite !Hf.
Qed.
Lemma distinct_snoc (s : @series A) x : distinct s -> (forall k' a, In (k', a) s -> fs_eqb (fst x) k' = false) ->
  distinct (s ++ [x]).
Proof.
  induction 1 as [|y s Hd _ IH]; intros H; cbn.
  - constructor; [constructor|constructor].
  - constructor.
    + rewrite Forall_app. split; [exact Hd|]. constructor; [|constructor].
      rewrite fs_eqb_sym. destruct y as [ky ay]. apply (H ky ay). now left.
    + apply IH. intros k' a Hin. apply (H k' a). now right.
Qed.
Lemma vm_collect_eq now (s : @series A) :
  vm_collect collect1 s now
  = (map (fun x => (fst x, fst (collect1 (snd x) now))) s,
     flat_map (fun x => match snd (collect1 (snd x) now) with Some d => [d] | None => [] end) s).
Proof.
  induction s as [|[k a] s IH]; cbn; [reflexivity|]. rewrite IH.
  destruct (collect1 a now) as [a' [d|]]; reflexivity.
Qed.
Lemma Forall2_map_r {X Y Z'} (R : X -> Z' -> Prop) (f : Y -> Z') l m :
  Forall2 (fun x y => R x (f y)) l m -> Forall2 R l (map f m).
Proof. induction 1; cbn; constructor; auto. Qed.
Lemma Forall2_In_l {X Y} (R : X -> Y -> Prop) l m x : Forall2 R l m -> In x l -> exists y, In y m /\ R x y.
Proof. induction 1 as [|a b l m H _ IH]; [intros []|]. intros [->|Hin]; [exists b|destruct (IH Hin) as (y & ? & ?); exists y]; cbn; auto. Qed.
Lemma Forall2_In_r {X Y} (R : X -> Y -> Prop) l m y : Forall2 R l m -> In y m -> exists x, In x l /\ R x y.
Proof. induction 1 as [|a b l m H _ IH]; [intros []|]. intros [->|Hin]; [exists a|destruct (IH Hin) as (x & ? & ?); exists x]; cbn; auto. Qed.

Lemma decides_false P a b f g : decides P a -> usable a -> usable b ->
  frozen (stream_attrs view_keys a) = Some f -> frozen (stream_attrs view_keys b) = Some g ->
  P b = fs_eqb f g.
Proof.
  intros HP Ha Hb Ef Eg. pose proof (frozen_same a b f g Ha Hb Ef Eg) as S. specialize (HP b Hb).
  destruct (P b), (fs_eqb f g); try reflexivity; intuition discriminate.
Qed.

Lemma streams h : Forall op_usable h ->
  exists reps,
    Forall2 (is_series h) reps (vm_run h) /\ distinct (vm_run h)
    /\ (forall a v now, In (VMeasure a v now) h -> exists rep, In rep reps /\ same_stream (fst rep) a).
Proof.
  induction h as [|o h IH] using rev_ind; intros U.
  - exists []. split; [constructor|]. split; [constructor|]. intros a v now [].
  - apply Forall_app in U. destruct U as [U Uo]. inversion Uo as [|? ? Ho _]; subst. clear Uo.
    destruct (IH U) as (reps & Hs & Hd & Hc). clear IH.
    unfold Model_View.vm_run in *. rewrite fold_left_app. cbn [fold_left].
    set (s := fold_left vm_step h []) in *.
    destruct o as [a v now|now]; cbn [Model_View.vm_step].
    + cbn in Ho. destruct (usable_frozen a Ho) as [k Ek].
      unfold Model_View.vm_consume. rewrite Ek.
      assert (Hstep : forall f, Forall2 (fun rep ser => forall P, decides P (fst rep) ->
          snd (if fs_eqb k (fst ser) then (fst ser, f (snd ser)) else ser)
          = if P a then f (fst (run1 (create1 (stream_attrs view_keys (fst rep)) (snd rep)) (stream_ops P false h)))
            else fst (run1 (create1 (stream_attrs view_keys (fst rep)) (snd rep)) (stream_ops P false h))) reps s).
      { intros f. clear Hc Hd. induction Hs as [|rep ser reps s Hr _ IHs]; constructor; [|exact IHs].
        intros P HP. destruct Hr as (Er & Ur & _ & Hr).
        rewrite (decides_false P (fst rep) a (fst ser) k HP Ur Ho Er Ek), fs_eqb_sym, <- (Hr P HP).
        destruct (fs_eqb (fst ser) k); reflexivity. }
      assert (Hold : Forall2 (is_series (h ++ [VMeasure a v now])) reps (upd_all k (fun x => aggregate1 x v) s)).
      { unfold upd_all. apply Forall2_map_r. specialize (Hstep (fun x => aggregate1 x v)).
        clear Hc Hd. induction Hs as [|rep ser reps s Hr _ IHs]; constructor.
        - inversion Hstep as [|? ? ? ? H1 H2]; subst. destruct Hr as (Er & Ur & Hin & Hr).
          split; [destruct (fs_eqb k (fst ser)); exact Er|]. split; [exact Ur|].
          split; [now apply first_of_app|].
          intros P HP. rewrite (H1 P HP), stream_ops_app. cbn [stream_ops].
          destruct (P a).
          + rewrite run_alone_snoc. reflexivity.
          + now rewrite app_nil_r.
        - inversion Hstep; subst. now apply IHs. }
      destruct (find_series k s) as [x|] eqn:F.
      * exists reps. rewrite (upd_series_map _ _ _ Hd). split; [exact Hold|]. split.
        { apply distinct_map; [|exact Hd]. intros y. destruct (fs_eqb k (fst y)); reflexivity. }
        intros a' v' now' Hin. apply in_app_or in Hin. destruct Hin as [Hin|[E|[]]]; [eauto|].
        injection E as <- <- <-.
        destruct (find_series_some _ _ _ F) as (k' & Hk' & E').
        destruct (Forall2_In_r _ _ _ _ Hs Hk') as (rep & Hrep & (Er & Ur & _)).
        exists rep. split; [exact Hrep|]. apply (frozen_same _ _ _ _ Ur Ho Er Ek). now rewrite fs_eqb_sym.
      * pose proof (find_series_none _ _ F) as Hno.
        assert (Hd' : distinct (s ++ [(k, create1 (stream_attrs view_keys a) now)])) by (apply distinct_snoc; auto).
        exists (reps ++ [(a, now)]). rewrite (upd_series_map _ _ _ Hd').
        unfold upd_all. rewrite map_app. cbn [map fst snd]. rewrite fs_eqb_refl. split; [|split].
        -- apply Forall2_app; [exact Hold|]. constructor; [|constructor]. split; [exact Ek|]. split; [exact Ho|].
           split.
           { exists v, h, []. split; [reflexivity|]. cbn [fst]. intros a' w n Hin Hs'. destruct (Hc a' w n Hin) as (rep & Hrep & Hsame).
             destruct (Forall2_In_l _ _ _ _ Hs Hrep) as ([k' x'] & Hk' & (Er & Ur & _)). cbn in Er.
             specialize (Hno k' x' Hk'). assert (fs_eqb k k' = true); [|congruence].
             apply (frozen_same a (fst rep) k k' Ho Ur Ek Er). apply same_trans with a'; [exact Hs'|now apply same_sym]. }
           intros P HP. cbn [fst snd] in *.
           assert (E0 : existsb (fun o => match o with VMeasure a _ _ => P a | _ => false end) h = false
                        /\ stream_ops P false h = []).
           { assert (G : forall o, In o h -> match o with VMeasure a _ _ => P a | _ => false end = false).
             { intros [a' v' n'|n'] Hin; [|reflexivity]. destruct (P a') eqn:Ea; [|reflexivity]. exfalso.
               destruct (Hc a' v' n' Hin) as (rep & Hrep & Hsame).
               rewrite Forall_forall in U. pose proof (U _ Hin) as Ua'. cbn in Ua'.
               apply HP in Ea; [|exact Ua'].
               destruct (Forall2_In_l _ _ _ _ Hs Hrep) as ([k' x'] & Hk' & (Er & Ur & _)). cbn in Er.
               specialize (Hno k' x' Hk').
               assert (fs_eqb k k' = true); [|congruence].
               apply (frozen_same a (fst rep) k k' Ho Ur Ek Er).
               apply same_trans with a'; [exact Ea|now apply same_sym]. }
             clear -G. induction h as [|o h IH]; [split; reflexivity|].
             destruct IH as [I1 I2]; [intros o' Ho'; apply G; now right|].
             specialize (G o (or_introl eq_refl)). cbn [existsb stream_ops]. destruct o as [a' v' n'|n'].
             - rewrite G. split; [exact I1|exact I2].
             - split; [exact I1|exact I2]. }
           destruct E0 as [E1 E2]. rewrite stream_ops_app, E1, E2. cbn [orb app stream_ops].
           rewrite (proj2 (HP a Ho) (same_refl a)). reflexivity.
        -- assert (Hm : distinct (upd_all k (fun x => aggregate1 x v) (s ++ [(k, create1 (stream_attrs view_keys a) now)]))).
           { apply distinct_map; [|exact Hd']. intros y. destruct (fs_eqb k (fst y)); reflexivity. }
           unfold upd_all in Hm.
           rewrite map_app in Hm. cbn [map fst snd] in Hm. rewrite fs_eqb_refl in Hm. exact Hm.
        -- intros a' v' now' Hin. apply in_app_or in Hin. destruct Hin as [Hin|[E|[]]].
           ++ destruct (Hc a' v' now' Hin) as (rep & Hrep & Hsame). exists rep. split; [apply in_or_app; now left|exact Hsame].
           ++ injection E as <- <- <-. exists (a, now). split; [apply in_or_app; right; now left|apply same_refl].
    + rewrite vm_collect_eq. cbn [fst]. exists reps. split; [|split].
      * apply Forall2_map_r. clear Hc Hd. induction Hs as [|rep ser reps s Hr _ IHs]; constructor; [|exact IHs].
        destruct Hr as (Er & Ur & Hf & Hr). split; [exact Er|]. split; [exact Ur|].
        split; [now apply first_of_app|]. apply first_of_In in Hf as (v0 & Hin).
        intros P HP. cbn [snd]. rewrite stream_ops_app. cbn [stream_ops].
        replace (false || existsb _ h) with true.
        -- rewrite run_alone_snoc. cbn [fst]. now rewrite (Hr P HP).
        -- symmetry. cbn [orb]. apply existsb_exists. eexists. split; [exact Hin|]. cbn. apply HP; [exact Ur|apply same_refl].
      * apply distinct_map; [reflexivity|exact Hd].
      * intros a v n Hin. apply in_app_or in Hin. destruct Hin as [Hin|[E|[]]]; [eauto|discriminate].
Qed.

(** ** Threads *)
Notation vsys := (@vsys A D).
Notation vstep := (vstep float_int obj_hash create1 aggregate1 collect1 view_keys).
Notation vs_run := (vs_run float_int obj_hash create1 aggregate1 collect1 view_keys).

Definition has_series (k : fset) (s : @series A) : Prop := exists k' a, In (k', a) s /\ fs_eqb k k' = true.
Definition call_key (c : mcall) (k : fset) : Prop := frozen (stream_attrs view_keys (mc_attrs c)) = Some k.
Definition pc_ok (s : vsys) (t : nat) : Prop :=
  let mine := log_of t (vs_log s) in
  match vs_pc s t with
  | VNew | VCWant _ => mine = []
  | VTypeError c => mine = [] /\ frozen (stream_attrs view_keys (mc_attrs c)) = None
  | VTest c sa k | VWant c sa k => mine = [] /\ sa = stream_attrs view_keys (mc_attrs c) /\ call_key c k
  | VHold c sa k => mine = [] /\ sa = stream_attrs view_keys (mc_attrs c) /\ call_key c k /\ vs_lock s = Some t
  | VRelease c k => mine = [] /\ call_key c k /\ vs_lock s = Some t /\ has_series k (vs_series s)
  | VAggregate c k => mine = [] /\ call_key c k /\ has_series k (vs_series s)
  | VDone c k => mine = [LMeasure t k (mc_value c)] /\ call_key c k /\ has_series k (vs_series s)
  | VCHold now i ps =>
      vs_lock s = Some t /\ (i <= length (vs_series s))%nat
      /\ collected_keys mine = firstn i (map fst (vs_series s)) /\ collected_points mine = ps
      /\ Forall (fun e => exists k p, e = LCollect t k now p) mine
  | VCDone now ps =>
      (exists n, (n <= length (vs_series s))%nat /\ collected_keys mine = firstn n (map fst (vs_series s)))
      /\ collected_points mine = ps /\ Forall (fun e => exists k p, e = LCollect t k now p) mine
  end.
Definition log_key (e : @vlog D) : fset := match e with LMeasure _ k _ | LCollect _ k _ _ => k end.
Definition ser_ok (log : list (@vlog D)) (x : fset * A) : Prop :=
  exists c, call_key c (fst x)
    /\ run1 (create1 (stream_attrs view_keys (mc_attrs c)) (mc_now c)) (log_ops (fst x) log)
       = (snd x, log_points (fst x) log).
Record vinv (s : vsys) : Prop := {
  vi_distinct : distinct (vs_series s);
  vi_series : forall x, In x (vs_series s) -> ser_ok (vs_log s) x;
  vi_log : forall e, In e (vs_log s) -> has_series (log_key e) (vs_series s);
  vi_pc : forall t, pc_ok s t;
  vi_lock : forall t, vs_lock s = Some t ->
    match vs_pc s t with VHold _ _ _ | VRelease _ _ | VCHold _ _ _ => True | _ => False end
}.
Lemma set_pc_eq (f : nat -> @vpc D) t p : set_pc f t p t = p.
Proof. unfold set_pc. now rewrite Nat.eqb_refl. Qed.
Lemma set_pc_ne (f : nat -> @vpc D) t p t' : t' <> t -> set_pc f t p t' = f t'.
Proof. unfold set_pc. intros H. destruct (Nat.eqb_spec t t'); congruence. Qed.
Lemma log_of_app t (l m : list (@vlog D)) : log_of t (l ++ m) = log_of t l ++ log_of t m.
Proof. apply filter_app. Qed.
Lemma has_series_app k (s m : @series A) : has_series k s -> has_series k (s ++ m).
Proof. intros (k' & a & H & E). exists k', a. split; [apply in_or_app; now left|exact E]. Qed.
Lemma has_series_upd k k0 f (s : @series A) : distinct s -> has_series k s <-> has_series k (upd_series k0 f s).
Proof.
  intros Hd. rewrite (upd_series_map _ _ _ Hd). unfold upd_all. split; intros (k' & a & H & E).
  - exists k', (if fs_eqb k0 k' then f a else a). split; [|exact E]. apply in_map_iff. exists (k', a). cbn.
    split; [|exact H]. destruct (fs_eqb k0 k'); reflexivity.
  - apply in_map_iff in H. destruct H as ([k1 a1] & Hx & Hin). cbn in Hx.
    exists k1, a1. split; [exact Hin|]. destruct (fs_eqb k0 k1); injection Hx as <- _; exact E.
Qed.
Lemma keys_upd k0 f (s : @series A) : map fst (upd_series k0 f s) = map fst s.
Proof. induction s as [|[k a] s IH]; cbn; [reflexivity|]. destruct (fs_eqb k0 k); cbn; [reflexivity|now rewrite IH]. Qed.
Lemma length_upd k0 f (s : @series A) : length (upd_series k0 f s) = length s.
Proof. rewrite <- (map_length fst (upd_series k0 f s)), keys_upd. apply map_length. Qed.
Lemma distinct_upd k0 f (s : @series A) : distinct s -> distinct (upd_series k0 f s).
Proof.
  intros Hd. rewrite (upd_series_map _ _ _ Hd). apply distinct_map; [|exact Hd].
  intros y. destruct (fs_eqb k0 (fst y)); reflexivity.
Qed.
Lemma distinct_In (s : @series A) k a k' a' : distinct s -> In (k, a) s -> In (k', a') s -> fs_eqb k k' = true -> (k, a) = (k', a').
Proof.
  intros Hd. induction Hd as [|[k0 a0] s Hf _ IH]; [intros []|]. rewrite Forall_forall in Hf.
  intros [E|H] [E'|H'] F.
  - congruence.
  - injection E as -> ->. specialize (Hf _ H'). cbn in Hf. congruence.
  - injection E' as -> ->. specialize (Hf _ H). cbn in Hf. rewrite fs_eqb_sym in F. congruence.
  - auto.
Qed.
Lemma ser_ok_other log e x : fs_eqb (fst x) (log_key e) = false -> ser_ok log x -> ser_ok (log ++ [e]) x.
Proof.
  intros F (c & Hc & E). exists c. split; [exact Hc|]. unfold log_ops, log_points in *. rewrite !flat_map_app. cbn.
  destruct e as [t k v|t k now p]; cbn in *; rewrite ?F, !app_nil_r; exact E.
Qed.
Lemma ser_ok_measure log t k v k' a : fs_eqb k' k = true -> ser_ok log (k', a) ->
  ser_ok (log ++ [LMeasure t k v]) (k', aggregate1 a v).
Proof.
  intros F (c & Hc & E). exists c. split; [exact Hc|]. unfold log_ops, log_points in *. cbn [fst snd] in *.
  rewrite !flat_map_app. cbn. rewrite F. cbn [app]. rewrite !app_nil_r, run_alone_snoc, E. reflexivity.
Qed.
Lemma ser_ok_collect log t k now a : ser_ok log (k, a) ->
  ser_ok (log ++ [LCollect t k now (snd (collect1 a now))]) (k, fst (collect1 a now)).
Proof.
  intros (c & Hc & E). exists c. split; [exact Hc|]. unfold log_ops, log_points in *. cbn [fst snd] in *.
  rewrite !flat_map_app. cbn. rewrite fs_eqb_refl. cbn [app]. rewrite run_alone_snoc, E. reflexivity.
Qed.
Lemma In_upd k0 f (s : @series A) k a : distinct s -> In (k, a) (upd_series k0 f s) ->
  (fs_eqb k0 k = true /\ exists a0, In (k, a0) s /\ a = f a0) \/ (fs_eqb k0 k = false /\ In (k, a) s).
Proof.
  intros Hd. rewrite (upd_series_map _ _ _ Hd). unfold upd_all. intros H. apply in_map_iff in H.
  destruct H as ([k1 a1] & E & Hin). cbn in E. destruct (fs_eqb k0 k1) eqn:F; injection E as <- <-; [left|right]; eauto.
Qed.

(** A thread that does not step keeps its invariant. *)
Lemma pc_ok_frame (s s' : vsys) t :
  vs_pc s' t = vs_pc s t -> log_of t (vs_log s') = log_of t (vs_log s) ->
  (vs_lock s = Some t -> vs_lock s' = Some t) ->
  (exists more, map fst (vs_series s') = map fst (vs_series s) ++ more) ->
  (vs_lock s = Some t -> map fst (vs_series s') = map fst (vs_series s)) ->
  pc_ok s t -> pc_ok s' t.
Proof.
  intros Ep El Hl [more Hm] Hk. unfold pc_ok. rewrite Ep, El.
  assert (Hh : forall k, has_series k (vs_series s) -> has_series k (vs_series s')).
  { intros k (k' & a & Hin & E). assert (Hi : In k' (map fst (vs_series s'))).
    { rewrite Hm. apply in_or_app. left. change k' with (fst (k', a)). now apply in_map. }
    apply in_map_iff in Hi. destruct Hi as ([k2 a2] & <- & Hi). exists k2, a2. split; [exact Hi|exact E]. }
  assert (Hlen : (length (vs_series s) <= length (vs_series s'))%nat).
  { rewrite <- (map_length fst (vs_series s)), <- (map_length fst (vs_series s')), Hm, app_length. lia. }
  destruct (vs_pc s t) as [|c sa k|c sa k|c sa k|c k|c k|c k|c|now|now i ps|now ps]; try tauto.
  - intros (H1 & H2 & H3 & H4). auto.
  - intros (H1 & H2 & H3). auto.
  - intros (H1 & H2 & H3). auto.
  - intros (H1 & H2 & H3 & H4 & H5). split; [auto|]. split; [lia|]. split; [now rewrite Hk|]. auto.
  - intros ((n & Hn & H1) & H2). split; [|exact H2]. exists n. split; [lia|].
    rewrite H1, Hm, firstn_app. rewrite map_length. replace (n - length (vs_series s))%nat with 0%nat by lia.
    cbn. now rewrite app_nil_r.
Qed.
Lemma log_of_other t t' (e : @vlog D) l : t' <> t ->
  (match e with LMeasure u _ _ | LCollect u _ _ _ => u end) = t -> log_of t' (l ++ [e]) = log_of t' l.
Proof.
  intros H E. rewrite log_of_app. unfold log_of at 2. cbn. destruct e as [u k v|u k now p]; subst u;
    destruct (Nat.eqb_spec t' t); try congruence; cbn; now rewrite app_nil_r.
Qed.
Lemma log_of_mine t (e : @vlog D) l :
  (match e with LMeasure u _ _ | LCollect u _ _ _ => u end) = t -> log_of t (l ++ [e]) = log_of t l ++ [e].
Proof.
  intros E. rewrite log_of_app. unfold log_of at 2. cbn. destruct e as [u k v|u k now p]; subst u; now rewrite Nat.eqb_refl.
Qed.

Local Arguments log_of {_} : simpl never.
Lemma vinv_init : vinv vs_init.
Proof.
  constructor; cbn; try (intros; contradiction); try discriminate.
  - constructor.
  - intros t. reflexivity.
Qed.
Lemma find_some_has k (s : @series A) a : find_series k s = Some a -> has_series k s.
Proof. intros F. destruct (find_series_some _ _ _ F) as (k' & H & E). exists k', a. auto. Qed.

Lemma vinv_step s e : vinv s -> vinv (vstep s e).
Proof.
  intros I. pose proof I as [Id Is Il Ip Ik].
  assert (Hgo : forall t p,
     (forall s', vs_series s' = vs_series s -> vs_lock s' = vs_lock s -> vs_log s' = vs_log s -> vs_pc s' t = p -> pc_ok s' t) ->
     (vs_lock s <> Some t) ->
     vinv (VS (vs_series s) (vs_lock s) (set_pc (vs_pc s) t p) (vs_log s))).
  { intros t p Hp Hl. constructor; cbn; auto.
    - intros t'. destruct (Nat.eq_dec t' t) as [->|N].
      + apply Hp; cbn; auto. apply set_pc_eq.
      + apply (pc_ok_frame s); cbn; auto; [now apply set_pc_ne|]. exists []. now rewrite app_nil_r.
    - intros t' E. destruct (Nat.eq_dec t' t) as [->|N]; [contradiction|]. rewrite set_pc_ne by exact N. now apply Ik. }
  destruct e as [t c|t now|t]; cbn [Model_View.vstep].
  - destruct (vs_pc s t) eqn:E; try exact I. pose proof (Ip t) as P. unfold pc_ok in P. rewrite E in P.
    assert (vs_lock s <> Some t) by (intros L; apply Ik in L; rewrite E in L; exact L).
    destruct (frozen (stream_attrs view_keys (mc_attrs c))) as [k|] eqn:F.
    + apply Hgo; [|assumption]. intros s' _ _ El Ep. unfold pc_ok. rewrite Ep, El. auto.
    + apply Hgo; [|assumption]. intros s' _ _ El Ep. unfold pc_ok. rewrite Ep, El. auto.
  - destruct (vs_pc s t) eqn:E; try exact I. pose proof (Ip t) as P. unfold pc_ok in P. rewrite E in P.
    assert (vs_lock s <> Some t) by (intros L; apply Ik in L; rewrite E in L; exact L).
    apply Hgo; [|assumption]. intros s' _ _ El Ep. unfold pc_ok. rewrite Ep, El. auto.
  - pose proof (Ip t) as P. unfold pc_ok in P.
    destruct (vs_pc s t) as [|c sa k|c sa k|c sa k|c k|c k|c k|c|now|now i ps|now ps] eqn:E; try exact I.
    + (* test *)
      assert (vs_lock s <> Some t) by (intros L; apply Ik in L; rewrite E in L; exact L).
      destruct P as (P1 & P2 & P3).
      destruct (find_series k (vs_series s)) as [a|] eqn:F; (apply Hgo; [|assumption]);
        intros s' Es _ El Ep; unfold pc_ok; rewrite Ep, El; auto.
      rewrite Es. apply find_some_has in F. auto.
    + (* want *)
      destruct (vs_lock s) as [u|] eqn:L; [exact I|]. destruct P as (P1 & P2 & P3).
      constructor; cbn; auto.
      * intros t'. destruct (Nat.eq_dec t' t) as [->|N].
        -- unfold pc_ok. cbn. rewrite set_pc_eq. auto.
        -- apply (pc_ok_frame s); cbn; auto; [now apply set_pc_ne|congruence|]. exists []. now rewrite app_nil_r.
      * intros t' [= <-]. rewrite set_pc_eq. exact Logic.I.
    + (* hold *)
      destruct P as (P1 & P2 & P3 & P4).
      assert (Hins : forall ser', has_series k ser' -> distinct ser' ->
         (forall x, In x ser' -> ser_ok (vs_log s) x) -> (exists more, map fst ser' = map fst (vs_series s) ++ more) ->
         (forall e, In e (vs_log s) -> has_series (log_key e) ser') ->
         vinv (VS ser' (vs_lock s) (set_pc (vs_pc s) t (VRelease c k)) (vs_log s))).
      { intros ser' H1 H2 H3 H4 H5. constructor; cbn; auto.
        - intros t'. destruct (Nat.eq_dec t' t) as [->|N].
          + unfold pc_ok. cbn. rewrite set_pc_eq. auto.
          + apply (pc_ok_frame s); cbn; auto; [now apply set_pc_ne|]. congruence.
        - intros t' L. rewrite P4 in L. injection L as <-. rewrite set_pc_eq. exact Logic.I. }
      destruct (find_series k (vs_series s)) as [a|] eqn:F.
      * apply Hins; auto; [now apply find_some_has in F|]. exists []. now rewrite app_nil_r.
      * pose proof (find_series_none _ _ F) as Hno. apply Hins.
        -- exists k. eexists. split; [apply in_or_app; right; now left|apply fs_eqb_refl].
        -- apply distinct_snoc; auto.
        -- intros x Hx. apply in_app_or in Hx. destruct Hx as [Hx|[<-|[]]]; [auto|].
           exists c. cbn [fst snd]. split; [exact P3|]. rewrite P2.
           assert (G : forall e, In e (vs_log s) -> fs_eqb k (log_key e) = false).
           { intros e He. destruct (Il e He) as (k' & a & Hin & Ee). specialize (Hno k' a Hin).
             destruct (fs_eqb k (log_key e)) eqn:G; [|reflexivity]. rewrite (fs_eqb_trans _ _ _ G Ee) in Hno. discriminate. }
           assert (E0 : log_ops k (vs_log s) = [] /\ log_points k (vs_log s) = []).
           { clear -G. induction (vs_log s) as [|e l IH]; [split; reflexivity|].
             destruct IH as [I1 I2]; [intros e' He'; apply G; now right|].
             specialize (G e (or_introl eq_refl)). unfold log_ops, log_points in *. cbn [flat_map].
             destruct e as [u k' v|u k' n p]; cbn in G; rewrite ?G, ?I1, ?I2; split; reflexivity. }
           destruct E0 as [-> ->]. reflexivity.
        -- exists [k]. now rewrite map_app.
        -- intros e He. apply has_series_app. auto.
    + (* release *)
      destruct P as (P1 & P2 & P3 & P4). constructor; cbn; auto.
      * intros t'. destruct (Nat.eq_dec t' t) as [->|N].
        -- unfold pc_ok. cbn. rewrite set_pc_eq. auto.
        -- apply (pc_ok_frame s); cbn; auto; [now apply set_pc_ne|congruence|]. exists []. now rewrite app_nil_r.
      * discriminate.
    + (* aggregate *)
      destruct P as (P1 & P2 & P3).
      assert (NL : vs_lock s <> Some t) by (intros L; apply Ik in L; rewrite E in L; exact L).
      constructor; cbn.
      * now apply distinct_upd.
      * intros [k' a'] Hx. destruct (In_upd _ _ _ _ _ Id Hx) as [[F (a0 & Ha0 & ->)]|[F Hin]].
        -- apply ser_ok_measure; [now rewrite fs_eqb_sym|auto].
        -- apply ser_ok_other; [cbn; now rewrite fs_eqb_sym|auto].
      * intros e He. apply has_series_upd; [exact Id|]. apply in_app_or in He.
        destruct He as [He|[<-|[]]]; [auto|exact P3].
      * intros t'. destruct (Nat.eq_dec t' t) as [->|N].
        -- unfold pc_ok. cbn. rewrite set_pc_eq, log_of_mine by reflexivity. rewrite P1.
           split; [reflexivity|]. split; [exact P2|]. now apply has_series_upd.
        -- apply (pc_ok_frame s); cbn; auto; [now apply set_pc_ne|now apply log_of_other with t|exists []; now rewrite keys_upd, app_nil_r|].
           intros _. apply keys_upd.
      * intros t' L. destruct (Nat.eq_dec t' t) as [->|N]; [contradiction|]. rewrite set_pc_ne by exact N. now apply Ik.
    + (* collect: lock *)
      destruct (vs_lock s) as [u|] eqn:L; [exact I|]. constructor; cbn; auto.
      * intros t'. destruct (Nat.eq_dec t' t) as [->|N].
        -- unfold pc_ok. cbn. rewrite set_pc_eq, P. cbn. repeat split; auto; lia.
        -- apply (pc_ok_frame s); cbn; auto; [now apply set_pc_ne|congruence|]. exists []. now rewrite app_nil_r.
      * intros t' [= <-]. rewrite set_pc_eq. exact Logic.I.
    + (* collect one *)
      destruct P as (P1 & P2 & P3 & P4 & P5).
      destruct (nth_error (vs_series s) i) as [[k a]|] eqn:Ni.
      * pose proof (nth_error_In _ _ Ni) as Hin.
        destruct (collect1 a now) as [a' p] eqn:Ec.
        assert (Hlt : (i < length (vs_series s))%nat) by (apply nth_error_Some; congruence).
        constructor; cbn.
        -- now apply distinct_upd.
        -- intros [k' a1] Hx. destruct (In_upd _ _ _ _ _ Id Hx) as [[F (a0 & Ha0 & ->)]|[F Hin']].
           ++ pose proof (distinct_In _ _ _ _ _ Id Hin Ha0 F) as [= <- <-].
              pose proof (ser_ok_collect (vs_log s) t k now a (Is _ Hin)) as Hs. rewrite Ec in Hs. exact Hs.
           ++ apply ser_ok_other; [cbn; now rewrite fs_eqb_sym|auto].
        -- intros e He. apply has_series_upd; [exact Id|]. apply in_app_or in He.
           destruct He as [He|[<-|[]]]; [auto|]. cbn. exists k, a. split; [exact Hin|apply fs_eqb_refl].
        -- intros t'. destruct (Nat.eq_dec t' t) as [->|N].
           ++ unfold pc_ok. cbn. rewrite set_pc_eq, log_of_mine by reflexivity.
              split; [exact P1|]. split; [rewrite length_upd; lia|]. split; [|split].
              ** unfold collected_keys in *. rewrite flat_map_app, P3, keys_upd. cbn.
                 assert (Nk : nth_error (map fst (vs_series s)) i = Some k) by (rewrite nth_error_map, Ni; reflexivity).
                 clear -Nk. revert Nk. generalize (map fst (vs_series s)) as l. induction i as [|i IH]; intros [|x l] Nk; try discriminate.
                 --- injection Nk as ->. reflexivity.
                 --- cbn in *. f_equal. now apply IH.
              ** unfold collected_points in *. rewrite flat_map_app, P4. cbn. destruct p; [reflexivity|now rewrite app_nil_r].
              ** apply Forall_app. split; [exact P5|]. constructor; [|constructor]. eauto.
           ++ apply (pc_ok_frame s); cbn; auto; [now apply set_pc_ne|now apply log_of_other with t|exists []; now rewrite keys_upd, app_nil_r|].
              intros _. apply keys_upd.
        -- intros t' L. destruct (Nat.eq_dec t' t) as [->|N]; [rewrite set_pc_eq; exact Logic.I|].
           rewrite set_pc_ne by exact N. now apply Ik.
      * apply nth_error_None in Ni. constructor; cbn; auto.
        -- intros t'. destruct (Nat.eq_dec t' t) as [->|N].
           ++ unfold pc_ok. cbn. rewrite set_pc_eq. split; [exists i; auto|]. auto.
           ++ apply (pc_ok_frame s); cbn; auto; [now apply set_pc_ne|congruence|]. exists []. now rewrite app_nil_r.
        -- discriminate.
Qed.
Lemma vinv_run evs : vinv (vs_run evs).
Proof.
  unfold Model_View.vs_run. induction evs as [|e evs IH] using rev_ind; [apply vinv_init|].
  rewrite fold_left_app. cbn. now apply vinv_step.
Qed.
End View.

Lemma ForallOrdPairs_nth {X} (R : X -> X -> Prop) l i j x y :
  ForallOrdPairs R l -> (i < j)%nat -> nth_error l i = Some x -> nth_error l j = Some y -> R x y.
Proof.
  intros H. revert i j. induction H as [|a l Hf _ IH]; intros i j Hij Hi Hj; [destruct i; discriminate|].
  destruct j as [|j]; [lia|]. destruct i as [|i]; cbn in *.
  - injection Hi as ->. rewrite Forall_forall in Hf. apply Hf. eapply nth_error_In; eassumption.
  - eapply IH with (i := i) (j := j); auto. lia.
Qed.
Lemma Forall2_nth_l {X Y} (R : X -> Y -> Prop) l m i x :
  Forall2 R l m -> nth_error l i = Some x -> exists y, nth_error m i = Some y /\ R x y.
Proof.
  intros H. revert i. induction H as [|a b l m H _ IH]; intros i Hi; [destruct i; discriminate|].
  destruct i as [|i]; cbn in *; [injection Hi as ->; eauto|now apply IH].
Qed.

Lemma streams_public float_int obj_hash keys (A D : Type) (create1 : mattrs -> Z -> A) aggregate1
    (collect1 : A -> Z -> A * option D) h now :
  Forall (op_usable float_int obj_hash keys) h ->
  let same := same_stream float_int obj_hash keys in
  let s := vm_run float_int obj_hash create1 aggregate1 collect1 keys h in
  exists reps : list (option mattrs * Z),
    (forall i j ri rj, nth_error reps i = Some ri -> nth_error reps j = Some rj ->
       same (fst ri) (fst rj) -> i = j)
    /\ (forall rep, In rep reps -> exists v h1 h2, h = h1 ++ VMeasure (fst rep) v (snd rep) :: h2
          /\ forall a w n, In (VMeasure a w n) h1 -> ~ same (fst rep) a)
    /\ (forall a v n, In (VMeasure a v n) h -> exists rep, In rep reps /\ same (fst rep) a)
    /\ forall P : option mattrs -> option mattrs -> bool,
       (forall a, decides float_int obj_hash keys (P a) a) ->
       let dedicated := fun rep : option mattrs * Z =>
         run_alone aggregate1 collect1 (create1 (stream_attrs keys (fst rep)) (snd rep))
           (stream_ops (P (fst rep)) false h) in
       map snd s = map (fun rep => fst (dedicated rep)) reps
       /\ snd (vm_collect collect1 s now)
          = flat_map (fun rep => match snd (collect1 (fst (dedicated rep)) now) with Some d => [d] | None => [] end) reps.
Proof.
  intros U same s. destruct (streams float_int obj_hash keys create1 aggregate1 collect1 h U) as (reps & Hs & Hd & Hc).
  fold s in Hs, Hd. exists reps. split; [|split; [|split]].
  - intros i j ri rj Hi Hj S.
    destruct (Forall2_nth_l _ _ _ _ _ Hs Hi) as (xi & Hxi & Ei & Ui & _).
    destruct (Forall2_nth_l _ _ _ _ _ Hs Hj) as (xj & Hxj & Ej & Uj & _).
    apply (frozen_same _ _ _ _ _ _ _ Ui Uj Ei Ej) in S.
    destruct (Nat.lt_trichotomy i j) as [L|[E|L]]; [exfalso|exact E|exfalso].
    + pose proof (ForallOrdPairs_nth _ _ _ _ _ _ Hd L Hxi Hxj). congruence.
    + pose proof (ForallOrdPairs_nth _ _ _ _ _ _ Hd L Hxj Hxi) as F. cbn in F. rewrite fs_eqb_sym in F. congruence.
  - intros rep Hrep. destruct (Forall2_In_l _ _ _ _ Hs Hrep) as (x & _ & _ & _ & H & _). exact H.
  - exact Hc.
  - intros P HP dedicated.
    assert (E : Forall2 (fun rep ser => snd ser = fst (dedicated rep)) reps s).
    { clear Hd Hc. induction Hs as [|rep ser reps s' Hr _ IH]; constructor; [|exact IH].
      destruct Hr as (_ & _ & _ & Hr). apply Hr. apply HP. }
    split.
    + clear -E. induction E as [|rep ser reps s' H _ IH]; cbn; congruence.
    + rewrite vm_collect_eq. cbn [snd]. clear -E. induction E as [|rep ser reps s' H _ IH]; cbn [flat_map]; [reflexivity|].
      rewrite IH, H. reflexivity.
Qed.

Lemma threads_public float_int obj_hash keys (A D : Type) (create1 : mattrs -> Z -> A) aggregate1
    (collect1 : A -> Z -> A * option D) evs :
  let s := vs_run float_int obj_hash create1 aggregate1 collect1 keys evs in
  let key c := frozen float_int obj_hash (stream_attrs keys (mc_attrs c)) in
  (forall i j ki ai kj aj, nth_error (vs_series s) i = Some (ki, ai) -> nth_error (vs_series s) j = Some (kj, aj) ->
     fs_eqb ki kj = true -> i = j)
  /\ (forall k a, In (k, a) (vs_series s) ->
        exists c, key c = Some k
          /\ run_alone aggregate1 collect1 (create1 (stream_attrs keys (mc_attrs c)) (mc_now c)) (log_ops k (vs_log s))
             = (a, log_points k (vs_log s)))
  /\ (forall t, match vs_pc s t with
                | VDone c k => key c = Some k /\ log_of t (vs_log s) = [LMeasure t k (mc_value c)]
                    /\ exists k' a, In (k', a) (vs_series s) /\ fs_eqb k k' = true
                | VCHold _ _ ps | VCDone _ ps =>
                    collected_points (log_of t (vs_log s)) = ps
                    /\ exists n, collected_keys (log_of t (vs_log s)) = firstn n (map fst (vs_series s))
                | VTypeError c => key c = None /\ log_of t (vs_log s) = []
                | _ => log_of t (vs_log s) = []
                end).
Proof.
  intros s key. destruct (vinv_run float_int obj_hash keys create1 aggregate1 collect1 evs) as [Id Is Il Ip _].
  fold s in Id, Is, Il, Ip. split; [|split].
  - intros i j ki ai kj aj Hi Hj E.
    destruct (Nat.lt_trichotomy i j) as [L|[Eq|L]]; [exfalso|exact Eq|exfalso].
    + pose proof (ForallOrdPairs_nth _ _ _ _ _ _ Id L Hi Hj) as F. cbn in F. congruence.
    + pose proof (ForallOrdPairs_nth _ _ _ _ _ _ Id L Hj Hi) as F. cbn in F. rewrite fs_eqb_sym in F. congruence.
  - intros k a Hin. destruct (Is _ Hin) as (c & Hc & E). exists c. split; [exact Hc|exact E].
  - intros t. specialize (Ip t). unfold pc_ok in Ip. unfold key.
    destruct (vs_pc s t) as [|c sa k|c sa k|c sa k|c k|c k|c k|c|now|now i ps|now ps]; try tauto.
    + destruct Ip as (H1 & H2 & H3 & H4 & H5). eauto.
    + destruct Ip as ((n & Hn & H1) & H2 & H3). eauto.
Qed.
(** The lock is always released: whoever holds it can step on, and without a holder every call in progress can. *)
Lemma threads_progress float_int obj_hash keys (A D : Type) (create1 : mattrs -> Z -> A) aggregate1
    (collect1 : A -> Z -> A * option D) evs t :
  let step := vstep float_int obj_hash create1 aggregate1 collect1 keys in
  let s := vs_run float_int obj_hash create1 aggregate1 collect1 keys evs in
  match vs_pc s t with VNew | VDone _ _ | VTypeError _ | VCDone _ _ => False | _ => True end ->
  exists t', vs_pc (step s (VStep t')) t' <> vs_pc s t'.
Proof.
  intros step s Ht. destruct (vinv_run float_int obj_hash keys create1 aggregate1 collect1 evs) as [_ _ _ _ Ik].
  fold s in Ik.
  assert (Hholder : forall u, vs_lock s = Some u -> vs_pc (step s (VStep u)) u <> vs_pc s u).
  { intros u L. specialize (Ik u L). unfold step, vstep.
    destruct (vs_pc s u) as [|c sa k|c sa k|c sa k|c k|c k|c k|c|now|now i ps|now ps] eqn:E; try contradiction.
    - cbn. rewrite set_pc_eq. discriminate.
    - cbn. rewrite set_pc_eq. discriminate.
    - destruct (nth_error (vs_series s) i) as [[k a]|].
      + destruct (collect1 a now). cbn. rewrite set_pc_eq. intros [= H _]. lia.
      + cbn. rewrite set_pc_eq. discriminate. }
  destruct (vs_lock s) as [u|] eqn:L; [exists u; now apply Hholder|].
  exists t. unfold step, vstep. rewrite L.
  destruct (vs_pc s t) as [|c sa k|c sa k|c sa k|c k|c k|c k|c|now|now i ps|now ps] eqn:E; try contradiction.
  - destruct (find_series k (vs_series s)); cbn; rewrite set_pc_eq; discriminate.
  - cbn. rewrite set_pc_eq. discriminate.
  - cbn. rewrite set_pc_eq. discriminate.
  - cbn. rewrite set_pc_eq. discriminate.
  - cbn. rewrite set_pc_eq. discriminate.
  - cbn. rewrite set_pc_eq. discriminate.
  - destruct (nth_error (vs_series s) i) as [[k a]|].
    + destruct (collect1 a now). cbn. rewrite set_pc_eq. intros [= H _]. lia.
    + cbn. rewrite set_pc_eq. discriminate.
Qed.
