From Verif Require Export Model_Regex.

Lemma lang_void s : ~ lang RVoid s.
Proof. inversion 1. Qed.

Lemma lang_eps s : lang REps s <-> s = [].
Proof. split; [now inversion 1 | intros ->; constructor]. Qed.

Lemma lang_cls p s : lang (RCls p) s <-> exists c, s = [c] /\ p c = true.
Proof. split; [inversion 1; eauto | intros (c & -> & Hc); now constructor]. Qed.

Lemma lang_cat a b s : lang (RCat a b) s <-> exists u v, s = u ++ v /\ lang a u /\ lang b v.
Proof. split; [inversion 1; eauto 6 | intros (u & v & -> & Hu & Hv); now constructor]. Qed.

Lemma lang_alt a b s : lang (RAlt a b) s <-> lang a s \/ lang b s.
Proof. split; [inversion 1; auto | intros [?|?]; [now apply L_altl | now apply L_altr]]. Qed.

Lemma nullable_lang r : nullable r = true <-> lang r [].
Proof.
  induction r as [| |p|a IHa b IHb|a IHa b IHb|a IHa]; cbn.
  - split; [discriminate | inversion 1].
  - split; [constructor | reflexivity].
  - split; [discriminate | inversion 1].
  - rewrite andb_true_iff, IHa, IHb, lang_cat. split.
    + intros [Ha Hb]. now exists [], [].
    + intros (u & v & E & Hu & Hv). symmetry in E. apply app_eq_nil in E as [-> ->]. auto.
  - rewrite orb_true_iff, IHa, IHb, lang_alt. tauto.
  - split; [constructor | reflexivity].
Qed.

Lemma lang_rcat a b s : lang (rcat a b) s <-> lang (RCat a b) s.
Proof.
  assert (Hv : forall a s, ~ lang (RCat a RVoid) s).
  { intros a' s' Hl. apply lang_cat in Hl as (u & v & _ & _ & Hv). now apply lang_void in Hv. }
  assert (Hv' : forall b s, ~ lang (RCat RVoid b) s).
  { intros a' s' Hl. apply lang_cat in Hl as (u & v & _ & Hu & _). now apply lang_void in Hu. }
  assert (He : forall b s, lang (RCat REps b) s <-> lang b s).
  { intros b' s'. rewrite lang_cat. split.
    - intros (u & v & -> & Hu & Hb). apply lang_eps in Hu as ->. exact Hb.
    - intros Hb. exists [], s'. repeat split; [constructor|exact Hb]. }
  destruct a; cbn; try (destruct b; cbn; try reflexivity);
    rewrite ?He; try reflexivity; split; intros Hl;
      first [now apply lang_void in Hl | now apply Hv in Hl | now apply Hv' in Hl | idtac].
Qed.

Lemma lang_ralt a b s : lang (ralt a b) s <-> lang (RAlt a b) s.
Proof.
  destruct a; cbn; try (destruct b; cbn; try reflexivity);
    rewrite ?lang_alt; pose proof (lang_void s); tauto.
Qed.

Lemma lang_star_cons a c s :
  lang (RStar a) (c :: s) <-> exists u v, s = u ++ v /\ lang a (c :: u) /\ lang (RStar a) v.
Proof.
  split.
  - intros Hl. remember (RStar a) as r eqn:Er. remember (c :: s) as t eqn:Et.
    revert Er s Et. induction Hl; intros Er s0 Et; try discriminate.
    injection Er as ->. destruct s as [|x s].
    + cbn in Et. apply IHHl2; auto.
    + cbn in Et. injection Et as -> <-. exists s, t. auto.
  - intros (u & v & -> & Hu & Hv). change (lang (RStar a) ((c :: u) ++ v)). now constructor.
Qed.

Lemma deriv_lang c r s : lang (deriv c r) s <-> lang r (c :: s).
Proof.
  revert s. induction r as [| |p|a IHa b IHb|a IHa b IHb|a IHa]; intros s; cbn [deriv].
  - split; inversion 1.
  - split; inversion 1.
  - rewrite lang_cls. destruct (p c) eqn:E.
    + rewrite lang_eps. split; [intros ->; eauto | intros (c' & Eq & _); congruence].
    + split; [inversion 1 | intros (c' & Eq & Hc); congruence].
  - assert (Hcat : lang (RCat a b) (c :: s) <->
              (nullable a = true /\ lang b (c :: s)) \/ lang (RCat (deriv c a) b) s).
    { rewrite !lang_cat. split.
      - intros (u & v & E & Hu & Hv). destruct u as [|x u].
        + left. split; [now apply nullable_lang | now rewrite E].
        + right. cbn in E. injection E as -> ->. exists u, v. now rewrite IHa.
      - intros [[Hn Hb]|(u & v & -> & Hu & Hv)].
        + exists [], (c :: s). rewrite nullable_lang in Hn. auto.
        + exists (c :: u), v. rewrite IHa in Hu. auto. }
    rewrite Hcat. destruct (nullable a).
    + rewrite lang_ralt, lang_alt, lang_rcat, IHb. intuition congruence.
    + rewrite lang_rcat. intuition congruence.
  - rewrite lang_ralt, !lang_alt, IHa, IHb. reflexivity.
  - rewrite lang_rcat, lang_cat, lang_star_cons. split.
    + intros (u & v & -> & Hu & Hv). exists u, v. now rewrite <- IHa.
    + intros (u & v & -> & Hu & Hv). exists u, v. now rewrite IHa.
Qed.

Lemma fullmatch_lang r s : fullmatch r s = true <-> lang r s.
Proof.
  revert r. induction s as [|c s IH]; intros r; cbn.
  - apply nullable_lang.
  - rewrite IH. apply deriv_lang.
Qed.

Lemma lang_opt a s : lang (ropt a) s <-> s = [] \/ lang a s.
Proof. unfold ropt. now rewrite lang_alt, lang_eps. Qed.

Lemma lang_rep_cls n p s :
  lang (rrep n (RCls p)) s <-> length s = n /\ forallb p s = true.
Proof.
  revert s. induction n as [|n IH]; intros s; cbn [rrep].
  - rewrite lang_eps. destruct s; cbn; intuition (congruence || lia).
  - rewrite lang_cat. split.
    + intros (u & v & -> & Hu & Hv). apply lang_cls in Hu as (c & -> & Hc).
      apply IH in Hv as [Hl Hf]. cbn. rewrite Hc, Hf. split; [lia|reflexivity].
    + intros [Hl Hf]. destruct s as [|c s]; [discriminate|]. cbn in Hf, Hl.
      apply andb_true_iff in Hf as [Hc Hf]. exists [c], s. repeat split.
      * now constructor.
      * apply IH. split; [lia|assumption].
Qed.

Lemma lang_upto_cls n p s :
  lang (rupto n (RCls p)) s <-> length s <= n /\ forallb p s = true.
Proof.
  revert s. induction n as [|n IH]; intros s; cbn [rupto].
  - rewrite lang_eps. destruct s; cbn; intuition (congruence || lia).
  - rewrite lang_alt, lang_eps, lang_cat. split.
    + intros [->|(u & v & -> & Hu & Hv)].
      * cbn. split; [lia|reflexivity].
      * apply lang_cls in Hu as (c & -> & Hc).
        apply IH in Hv as [Hl Hf]. cbn. rewrite Hc, Hf. split; [lia|reflexivity].
    + intros [Hl Hf]. destruct s as [|c s]; [now left|]. right. cbn in Hf, Hl.
      apply andb_true_iff in Hf as [Hc Hf]. exists [c], s. repeat split.
      * now constructor.
      * apply IH. split; [lia|assumption].
Qed.

Lemma lang_star_cls p s : lang (RStar (RCls p)) s <-> forallb p s = true.
Proof.
  induction s as [|c s IH].
  - split; [reflexivity | constructor].
  - rewrite lang_star_cons. cbn. rewrite andb_true_iff, <- IH. split.
    + intros (u & v & -> & Hu & Hv). apply lang_cls in Hu as (c' & E & Hc).
      injection E as -> ->. auto.
    + intros [Hc Hs]. exists [], s. repeat split; [now constructor | assumption].
Qed.

Lemma lang_chr c s : lang (rchr c) s <-> s = [c].
Proof.
  unfold rchr. rewrite lang_cls. split.
  - intros (c' & -> & E). apply N.eqb_eq in E. now subst.
  - intros ->. exists c. split; [reflexivity | apply N.eqb_refl].
Qed.

Lemma lang_lit l s : lang (rlit l) s <-> s = l.
Proof.
  revert s. induction l as [|c l IH]; intros s; cbn [rlit].
  - apply lang_eps.
  - rewrite lang_cat. split.
    + intros (u & v & -> & Hu & Hv). apply lang_chr in Hu as ->. apply IH in Hv as ->. reflexivity.
    + intros ->. exists [c], l. repeat split; [now apply lang_chr | now apply IH].
Qed.

Lemma lang_plus_cls p s : lang (rplus (RCls p)) s <-> s <> [] /\ forallb p s = true.
Proof.
  unfold rplus. rewrite lang_cat. split.
  - intros (u & v & -> & Hu & Hv). apply lang_cls in Hu as (c & -> & Hc).
    apply lang_star_cls in Hv. cbn. rewrite Hc, Hv. split; [discriminate|reflexivity].
  - intros [Hne Hf]. destruct s as [|c s]; [congruence|]. cbn in Hf.
    apply andb_true_iff in Hf as [Hc Hf]. exists [c], s. repeat split.
    + now constructor.
    + now apply lang_star_cls.
Qed.
