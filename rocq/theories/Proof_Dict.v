From Verif Require Export Model_Dict.

Section DictLemmas.
Context {K V : Type} `{EqDec K}.
Implicit Types (d e l : dict K V) (k : K) (v : V).

Lemma dget_nil k : dget k (nil : dict K V) = None.
Proof. reflexivity. Qed.

Lemma dget_In d k v : dget k d = Some v -> In (k, v) d.
Proof.
  induction d as [|[k' v'] d IH]; cbn; [discriminate|].
  destruct (eq_dec k k') as [->|Hn]; intros Hg.
  - injection Hg as ->. now left.
  - right. auto.
Qed.

Lemma dget_keys d k : dget k d = None <-> ~ In k (keys d).
Proof.
  induction d as [|[k' v'] d IH]; cbn; [tauto|].
  destruct (eq_dec k k') as [->|Hn].
  - split; [discriminate|tauto].
  - rewrite IH. intuition congruence.
Qed.

Lemma dget_Some_keys d k v : dget k d = Some v -> In k (keys d).
Proof. intros Hg. apply dget_In in Hg. now apply (in_map fst) in Hg. Qed.

Lemma keys_dget d k : In k (keys d) -> exists v, dget k d = Some v.
Proof.
  intros Hin. destruct (dget k d) eqn:E; [eauto|].
  apply dget_keys in E. tauto.
Qed.

Lemma In_dget d k v : NoDup (keys d) -> In (k, v) d -> dget k d = Some v.
Proof.
  induction d as [|[k' v'] d IH]; cbn; [tauto|].
  inversion 1 as [|? ? Hni Hnd]; subst. intros [Heq|Hin].
  - injection Heq as -> ->. destruct (eq_dec k k); congruence.
  - destruct (eq_dec k k') as [->|Hn]; [|auto].
    exfalso. apply Hni. apply (in_map fst) in Hin. exact Hin.
Qed.

Lemma dmem_true d k : dmem k d = true <-> In k (keys d).
Proof.
  unfold dmem. destruct (dget k d) eqn:E.
  - apply dget_Some_keys in E. tauto.
  - apply dget_keys in E. split; [discriminate|tauto].
Qed.

Lemma dmem_false d k : dmem k d = false <-> ~ In k (keys d).
Proof.
  rewrite <- dmem_true. destruct (dmem k d); intuition congruence.
Qed.

Lemma dget_dset_eq d k v : dget k (dset k v d) = Some v.
Proof.
  induction d as [|[k' v'] d IH]; cbn.
  - destruct (eq_dec k k); congruence.
  - destruct (eq_dec k k') as [->|Hn]; cbn.
    + destruct (eq_dec k' k'); congruence.
    + destruct (eq_dec k k'); congruence.
Qed.

Lemma dget_dset_ne d k k' v : k' <> k -> dget k' (dset k v d) = dget k' d.
Proof.
  intros Hne. induction d as [|[k0 v0] d IH]; cbn.
  - destruct (eq_dec k' k); congruence.
  - destruct (eq_dec k k0) as [->|Hn]; cbn.
    + destruct (eq_dec k' k0); congruence.
    + destruct (eq_dec k' k0); congruence.
Qed.

Lemma dget_dset d k k' v :
  dget k' (dset k v d) = if eq_dec k' k then Some v else dget k' d.
Proof.
  destruct (eq_dec k' k) as [->|Hn]; [apply dget_dset_eq|now apply dget_dset_ne].
Qed.

Lemma keys_dset_in d k v : In k (keys d) -> keys (dset k v d) = keys d.
Proof.
  induction d as [|[k' v'] d IH]; cbn; [tauto|].
  destruct (eq_dec k k') as [->|Hn]; cbn; [reflexivity|].
  intros [Heq|Hin]; [congruence|]. f_equal. now apply IH.
Qed.

Lemma keys_dset_new d k v : ~ In k (keys d) -> dset k v d = d ++ [(k, v)].
Proof.
  induction d as [|[k' v'] d IH]; cbn; [reflexivity|].
  intros Hni. destruct (eq_dec k k') as [->|Hn]; [tauto|].
  f_equal. apply IH. tauto.
Qed.

Lemma In_keys_dset d k k' v : In k' (keys (dset k v d)) <-> k' = k \/ In k' (keys d).
Proof.
  destruct (in_dec eq_dec k (keys d)) as [Hin|Hni].
  - rewrite keys_dset_in by assumption. intuition congruence.
  - rewrite keys_dset_new by assumption. unfold keys. rewrite map_app, in_app_iff. cbn.
    intuition congruence.
Qed.

Lemma NoDup_app_snoc {A} (l : list A) (x : A) : NoDup l -> ~ In x l -> NoDup (l ++ [x]).
Proof.
  induction l as [|a l IH]; cbn; intros Hnd Hni.
  - constructor; [tauto|constructor].
  - inversion Hnd as [|? ? Hna Hnd']; subst. constructor.
    + rewrite in_app_iff. cbn. intuition congruence.
    + apply IH; tauto.
Qed.

Lemma NoDup_dset d k v : NoDup (keys d) -> NoDup (keys (dset k v d)).
Proof.
  intros Hnd. destruct (in_dec eq_dec k (keys d)) as [Hin|Hni].
  - now rewrite keys_dset_in.
  - rewrite keys_dset_new by assumption. unfold keys. rewrite map_app. cbn.
    now apply NoDup_app_snoc.
Qed.

Lemma length_dset_in d k v : In k (keys d) -> length (dset k v d) = length d.
Proof.
  intros Hin. pose proof (keys_dset_in d k v Hin) as E.
  apply (f_equal (@length K)) in E. unfold keys in E. now rewrite !map_length in E.
Qed.

Lemma length_dset_new d k v : ~ In k (keys d) -> length (dset k v d) = S (length d).
Proof. intros Hni. rewrite keys_dset_new, app_length by assumption. cbn. lia. Qed.

Lemma ddel_notin d k : ~ In k (keys d) -> ddel k d = d.
Proof.
  induction d as [|[k' v'] d IH]; cbn; [reflexivity|].
  intros Hni. destruct (eq_dec k k') as [->|Hn]; [tauto|]. f_equal. apply IH. tauto.
Qed.

Lemma In_ddel d k kv : In kv (ddel k d) -> In kv d.
Proof.
  induction d as [|[k' v'] d IH]; cbn; [tauto|].
  destruct (eq_dec k k'); cbn; tauto.
Qed.

Lemma ddel_filter d k :
  NoDup (keys d) ->
  ddel k d = filter (fun kv => if eq_dec k (fst kv) then false else true) d.
Proof.
  induction d as [|[k' v'] d IH]; cbn; [reflexivity|].
  inversion 1 as [|? ? Hni Hnd]; subst.
  destruct (eq_dec k k') as [->|Hn].
  - rewrite <- IH by assumption. symmetry. now apply ddel_notin.
  - f_equal. auto.
Qed.

Lemma keys_ddel_incl d k k' : In k' (keys (ddel k d)) -> In k' (keys d).
Proof.
  unfold keys. rewrite !in_map_iff. intros [kv [E Hin]]. exists kv.
  split; [assumption|]. eapply In_ddel; eauto.
Qed.

Lemma NoDup_ddel d k : NoDup (keys d) -> NoDup (keys (ddel k d)).
Proof.
  induction d as [|[k' v'] d IH]; cbn; [tauto|].
  inversion 1 as [|? ? Hni Hnd]; subst.
  destruct (eq_dec k k') as [->|Hn]; [assumption|]. cbn. constructor; [|auto].
  intros Hin. apply Hni. eapply keys_ddel_incl; eauto.
Qed.

Lemma dget_ddel_eq d k : NoDup (keys d) -> dget k (ddel k d) = None.
Proof.
  induction d as [|[k' v'] d IH]; cbn; [tauto|].
  inversion 1 as [|? ? Hni Hnd]; subst.
  destruct (eq_dec k k') as [->|Hn].
  - now apply dget_keys.
  - cbn. destruct (eq_dec k k'); [congruence|auto].
Qed.

Lemma dget_ddel_ne d k k' : k' <> k -> dget k' (ddel k d) = dget k' d.
Proof.
  intros Hne. induction d as [|[k0 v0] d IH]; cbn; [reflexivity|].
  destruct (eq_dec k k0) as [->|Hn]; cbn.
  - destruct (eq_dec k' k0); congruence.
  - destruct (eq_dec k' k0); congruence.
Qed.

Lemma length_ddel d k : In k (keys d) -> S (length (ddel k d)) = length d.
Proof.
  induction d as [|[k' v'] d IH]; cbn; [tauto|].
  destruct (eq_dec k k') as [->|Hn]; cbn; [reflexivity|].
  intros [Heq|Hin]; [congruence|]. now rewrite IH.
Qed.

Lemma length_ddel_le d k : length (ddel k d) <= length d.
Proof.
  destruct (in_dec eq_dec k (keys d)) as [Hin|Hni].
  - apply length_ddel in Hin. lia.
  - rewrite ddel_notin; auto.
Qed.

Lemma dupdate_app d l1 l2 : dupdate d (l1 ++ l2) = dupdate (dupdate d l1) l2.
Proof. unfold dupdate. apply fold_left_app. Qed.

Lemma NoDup_dupdate l d : NoDup (keys d) -> NoDup (keys (dupdate d l)).
Proof.
  revert d. induction l as [|[k v] l IH]; intros d Hd; [exact Hd|].
  unfold dupdate. cbn. apply IH. now apply NoDup_dset.
Qed.

(** Adding pairs with fresh distinct keys appends them. *)
Lemma dupdate_fresh l d :
  NoDup (keys d ++ keys l) -> dupdate d l = d ++ l.
Proof.
  revert d. induction l as [|[k v] l IH]; intros d Hnd.
  - now rewrite app_nil_r.
  - unfold dupdate. cbn [fold_left fst snd].
    assert (Hni : ~ In k (keys d)).
    { cbn in Hnd. apply NoDup_remove_2 in Hnd. rewrite in_app_iff in Hnd. tauto. }
    rewrite keys_dset_new by assumption.
    change (dupdate (d ++ [(k, v)]) l = d ++ (k, v) :: l).
    rewrite IH.
    + now rewrite <- app_assoc.
    + unfold keys in *. rewrite map_app. cbn. rewrite <- app_assoc. exact Hnd.
Qed.

Lemma dict_of_NoDup (l : dict K V) : NoDup (keys l) -> dict_of l = l.
Proof. intros Hnd. unfold dict_of. now rewrite dupdate_fresh. Qed.

(** Lookup after [update]: the last binding in [l] wins, else the old one. *)
Lemma dget_dupdate l d k :
  NoDup (keys l) ->
  dget k (dupdate d l) = match dget k l with Some v => Some v | None => dget k d end.
Proof.
  revert d. induction l as [|[k' v'] l IH]; intros d Hnd; [reflexivity|].
  cbn in Hnd. inversion Hnd as [|? ? Hni Hnd']; subst.
  unfold dupdate. cbn [fold_left fst snd].
  change (dget k (dupdate (dset k' v' d) l) =
          match dget k ((k', v') :: l) with Some v => Some v | None => dget k d end).
  rewrite IH by assumption. cbn.
  destruct (eq_dec k k') as [->|Hn].
  - assert (E : dget k' l = None) by now apply dget_keys.
    rewrite E. apply dget_dset_eq.
  - destruct (dget k l); [reflexivity|]. now apply dget_dset_ne.
Qed.

Lemma keys_dupdate l d k : In k (keys (dupdate d l)) <-> In k (keys d) \/ In k (keys l).
Proof.
  revert d. induction l as [|[k' v'] l IH]; intros d; [cbn; tauto|].
  unfold dupdate. cbn [fold_left fst snd].
  change (In k (keys (dupdate (dset k' v' d) l)) <-> In k (keys d) \/ In k (keys ((k',v')::l))).
  rewrite IH, In_keys_dset. cbn. intuition congruence.
Qed.

End DictLemmas.
