(** Proofs for C55, C56, C70 and C71. *)
From Verif Require Import Spec_Prometheus Proof_Str Proof_Dict.
From Coq Require Import Lia.
Local Open Scope Z_scope.

(** ** Characters *)
Ltac nbool := unfold in_range in *; rewrite ?orb_true_iff, ?orb_false_iff, ?andb_true_iff, ?andb_false_iff, ?N.leb_le, ?N.leb_gt, ?N.eqb_eq, ?N.eqb_neq in *.
Lemma key_char_ok c : key_char c = true <-> letter c \/ digit c.
Proof. unfold key_char, is_lower, is_upper, is_digit, letter, digit. nbool. tauto. Qed.
Lemma name_char_ok c : name_char c = true <-> letter c \/ digit c \/ colon c.
Proof. unfold name_char, is_lower, is_upper, is_digit, letter, digit, colon. change (chr ":") with 58%N. nbool. tauto. Qed.
Lemma underscore_not c : is_underscore c = true <-> underscore c.
Proof. unfold is_underscore, underscore. apply N.eqb_eq. Qed.
Lemma key_not_underscore : key_char (chr "_") = false.
Proof. reflexivity. Qed.
Lemma name_not_underscore : name_char (chr "_") = false.
Proof. reflexivity. Qed.

(** ** Replacing runs *)
Section Runs.
Variable allowed : N -> bool.
Lemma sub_runs_chars : forall s b, Forall (fun c => allowed c = true \/ underscore c) (sub_runs allowed b s).
Proof.
  induction s as [|c s IH]; intros b; cbn [sub_runs]; [constructor|]. destruct (allowed c) eqn:A; [constructor; auto|].
  destruct b; [apply IH|]. constructor; [right; reflexivity|apply IH].
Qed.
Lemma sub_runs_idem : allowed (chr "_") = false -> forall s b, (forall c, nth_error (sub_runs allowed b s) 0 = Some c -> b = true -> allowed c = true)
  /\ sub_runs allowed b (sub_runs allowed b s) = sub_runs allowed b s.
Proof.
  intros U. induction s as [|c s IH]; intros b; cbn [sub_runs]; [split; [discriminate|reflexivity]|]. destruct (allowed c) eqn:A.
  - split; [cbn; intros d Q; injection Q as <-; auto|]. cbn [sub_runs]. rewrite A. f_equal. apply IH.
  - destruct b; [apply IH|]. split; [discriminate|]. cbn [sub_runs]. rewrite U. f_equal. apply IH.
Qed.
Lemma sub_runs_double s : allowed (chr "_") = false -> forall b a t, sub_runs allowed b s <> a ++ lit "__" ++ t.
Proof.
  intros U. induction s as [|c s IH]; intros b a t; cbn [sub_runs]; [now destruct a|]. destruct (allowed c) eqn:A.
  - destruct a as [|x a]; cbn; intros E; injection E as E1 E2; [subst c; cbn in U; congruence|]. now apply (IH false a t).
  - destruct b; [apply IH|]. destruct a as [|x a]; cbn; intros E.
    + injection E as E. pose proof (proj1 (sub_runs_idem U s true)) as F. rewrite E in F. specialize (F _ eq_refl eq_refl). cbn in U. congruence.
    + injection E as _ E. now apply (IH true a t).
Qed.
Lemma sub_runs_fixed s : allowed (chr "_") = false -> Forall (fun c => allowed c = true \/ underscore c) s -> no_double_underscore s ->
  sub_runs allowed false s = s.
Proof.
  intros U H. induction H as [|c s Hc H IH]; intros D; cbn [sub_runs]; [reflexivity|].
  assert (D' : no_double_underscore s) by (intros a b E; apply (D (c :: a) b); cbn; now rewrite E).
  specialize (IH D'). destruct (allowed c) eqn:A; [now rewrite IH|]. destruct Hc as [Hc|Hc]; [congruence|]. unfold underscore in Hc. subst c. f_equal.
  destruct s as [|d s]; [reflexivity|]. cbn [sub_runs] in *. destruct (allowed d) eqn:B; [exact IH|]. exfalso.
  inversion H as [|? ? [Q|Q] _]; [congruence|]. unfold underscore in Q. subst d. apply (D [] s). reflexivity.
Qed.
Lemma sub_runs_nonempty c s : sub_runs allowed false (c :: s) <> [].
Proof. cbn [sub_runs]. destruct (allowed c); discriminate. Qed.
End Runs.

Section Names.
Variable other_digit : N -> bool.
Lemma fix_first_digit c s : fix_first other_digit (c :: s) = chr "_" :: s \/ (fix_first other_digit (c :: s) = c :: s /\ ~ digit c).
Proof.
  cbn. unfold isdigit. destruct (N.ltb c 128) eqn:L.
  - destruct (is_digit c) eqn:D; [auto|]. right. split; [reflexivity|]. unfold digit. intros Q. unfold is_digit in D. nbool. lia.
  - apply N.ltb_ge in L. destruct (other_digit c); [auto|]. right. split; [reflexivity|]. unfold digit. lia.
Qed.
(** The first character of a result *)
Lemma first_ok allowed c s : allowed (chr "_") = false -> exists d t, sub_runs allowed false (fix_first other_digit (c :: s)) = d :: t
   /\ ((allowed d = true /\ ~ digit d) \/ underscore d).
Proof.
  intros U. destruct (fix_first_digit c s) as [->|[-> N]]; cbn [sub_runs].
  - rewrite U. do 2 eexists. split; [reflexivity|]. right. reflexivity.
  - destruct (allowed c) eqn:A; do 2 eexists; (split; [reflexivity|]); [left; auto|right; reflexivity].
Qed.
Lemma legal_names s : s <> [] -> legal_name (sanitize_full_name other_digit s).
Proof.
  intros H. destruct s as [|c s]; [congruence|]. unfold sanitize_full_name, sanitize_name.
  destruct (first_ok name_char c s name_not_underscore) as (d & t & E & F). pose proof (sub_runs_chars name_char (fix_first other_digit (c :: s)) false) as A.
  rewrite E in *. exists d, t. split; [reflexivity|]. split.
  - destruct F as [[F N]|F]; [|auto]. apply name_char_ok in F. intuition.
  - inversion A as [|? ? _ A']; subst. unfold name_tail. eapply Forall_impl; [|exact A']. cbn. intros x [Q|Q]; [|auto]. apply name_char_ok in Q. tauto.
Qed.
Lemma legal_labels s : s <> [] -> legal_label (sanitize_attribute other_digit s).
Proof.
  intros H. destruct s as [|c s]; [congruence|]. unfold sanitize_attribute.
  destruct (first_ok key_char c s key_not_underscore) as (d & t & E & F). pose proof (sub_runs_chars key_char (fix_first other_digit (c :: s)) false) as A.
  rewrite E in *. exists d, t. split; [reflexivity|]. split.
  - destruct F as [[F N]|F]; [|auto]. apply key_char_ok in F. intuition.
  - inversion A as [|? ? _ A']; subst. unfold label_tail. eapply Forall_impl; [|exact A']. cbn. intros x [Q|Q]; [|auto]. apply key_char_ok in Q. tauto.
Qed.
Lemma fix_first_id c s : ~ digit c -> (c < 128)%N -> fix_first other_digit (c :: s) = c :: s.
Proof.
  intros N L. cbn. unfold isdigit. apply N.ltb_lt in L. rewrite L. destruct (is_digit c) eqn:D; [|reflexivity]. exfalso. apply N. unfold digit, is_digit in *. now nbool.
Qed.
Lemma fixed allowed c s : allowed (chr "_") = false -> ~ digit c -> (c < 128)%N -> Forall (fun c => allowed c = true \/ underscore c) (c :: s) -> no_double_underscore (c :: s) ->
  sub_runs allowed false (fix_first other_digit (c :: s)) = c :: s.
Proof. intros U N L A D. rewrite fix_first_id by assumption. now apply sub_runs_fixed. Qed.
Lemma name_fixed s : legal_name s -> no_double_underscore s -> sanitize_full_name other_digit s = s.
Proof.
  intros (c & t & -> & F & T) D. apply fixed; try assumption; try reflexivity.
  - unfold letter, digit, underscore, colon in *. change (chr "_") with 95%N in *. change (chr ":") with 58%N in *. lia.
  - unfold letter, digit, underscore, colon in *. change (chr "_") with 95%N in *. change (chr ":") with 58%N in *. lia.
  - constructor.
    + destruct F as [F|[F|F]]; [left; apply name_char_ok; auto|right; exact F|left; apply name_char_ok; auto].
    + eapply Forall_impl; [|exact T]. cbn. intros x Q. destruct Q as [Q|[Q|[Q|Q]]]; [left; apply name_char_ok; auto|left; apply name_char_ok; auto|right; exact Q|left; apply name_char_ok; auto].
Qed.
Lemma label_fixed s : legal_label s -> no_double_underscore s -> sanitize_attribute other_digit s = s.
Proof.
  intros (c & t & -> & F & T) D. apply fixed; try assumption; try reflexivity.
  - unfold letter, digit, underscore in *. change (chr "_") with 95%N in *. lia.
  - unfold letter, digit, underscore in *. change (chr "_") with 95%N in *. lia.
  - constructor.
    + destruct F as [F|F]; [left; apply key_char_ok; auto|right; exact F].
    + eapply Forall_impl; [|exact T]. cbn. intros x Q. destruct Q as [Q|[Q|Q]]; [left; apply key_char_ok; auto|left; apply key_char_ok; auto|right; exact Q].
Qed.
Lemma name_double s : no_double_underscore (sanitize_full_name other_digit s).
Proof. intros a b. now apply sub_runs_double. Qed.
Lemma label_double s : no_double_underscore (sanitize_attribute other_digit s).
Proof. intros a b. now apply sub_runs_double. Qed.
Lemma name_idem s : sanitize_full_name other_digit (sanitize_full_name other_digit s) = sanitize_full_name other_digit s.
Proof. destruct s as [|c s]; [reflexivity|]. apply name_fixed; [apply legal_names; discriminate|apply name_double]. Qed.
Lemma label_idem s : sanitize_attribute other_digit (sanitize_attribute other_digit s) = sanitize_attribute other_digit s.
Proof. destruct s as [|c s]; [reflexivity|]. apply label_fixed; [apply legal_labels; discriminate|apply label_double]. Qed.
End Names.

(** ** Units *)
Lemma sanitize_tail s : name_tail (sanitize_name s).
Proof.
  unfold name_tail, sanitize_name. eapply Forall_impl; [|apply sub_runs_chars]. cbn. intros c [Q|Q]; [|auto]. apply name_char_ok in Q. tauto.
Qed.
Definition tail_char (c : N) : bool := name_char c || is_underscore c.
Lemma tail_char_ok s : forallb tail_char s = true <-> name_tail s.
Proof.
  unfold name_tail. rewrite forallb_forall, Forall_forall. unfold tail_char. split; intros H c I; specialize (H c I); rewrite orb_true_iff, name_char_ok, underscore_not in *; tauto.
Qed.
Lemma mapping_tail (d : dict str str) (k v : str) : forallb (fun kv : str * str => forallb tail_char (snd kv)) d = true -> dget k d = Some v -> name_tail v.
Proof. intros H E. apply dget_In in E. rewrite forallb_forall in H. apply tail_char_ok. apply (H _ E). Qed.
Lemma dget_or_tail (d : dict str str) (k : str) : forallb (fun kv : str * str => forallb tail_char (snd kv)) d = true -> name_tail k -> name_tail (dget_or d k).
Proof. intros H K. unfold dget_or. destruct (dget k d) eqn:E; [eapply mapping_tail; eauto|exact K]. Qed.
Lemma lstrip_incl p s : incl (lstrip p s) s.
Proof. induction s as [|c s IH]; cbn; [apply incl_refl|]. destruct (p c); [apply incl_tl; exact IH|apply incl_refl]. Qed.
Lemma strip_incl p s : incl (strip p s) s.
Proof.
  intros x I. unfold strip, rstrip in I. apply in_rev, lstrip_incl, in_rev, lstrip_incl in I. exact I.
Qed.
Lemma name_tail_incl a b : incl a b -> name_tail b -> name_tail a.
Proof. unfold name_tail. rewrite !Forall_forall. auto. Qed.
Lemma name_tail_app a b : name_tail a -> name_tail b -> name_tail (a ++ b).
Proof. intros. apply Forall_app. auto. Qed.
Lemma map_unit_tail u : name_tail (map_unit u).
Proof.
  unfold map_unit. set (v := strip_annotations (length u) u). destruct (dget v UNIT_MAPPINGS) eqn:E; [eapply mapping_tail; [|exact E]; vm_compute; reflexivity|].
  assert (P : name_tail (strip is_underscore (sanitize_name v))) by (eapply name_tail_incl; [apply strip_incl|apply sanitize_tail]).
  destruct (split1 (chr "/") v) as [a [b|]]; [|exact P].
  pose proof (sanitize_tail b) as B. destruct (sanitize_name b) as [|b0 b1] eqn:Q; [exact P|]. rewrite <- Q in *. clear Q.
  assert (T : name_tail (dget_or UNIT_MAPPINGS (sanitize_name a))) by (apply dget_or_tail; [vm_compute; reflexivity|apply sanitize_tail]).
  assert (T2 : name_tail (dget_or PER_UNIT_MAPPINGS (sanitize_name b))) by (apply dget_or_tail; [vm_compute; reflexivity|exact B]).
  destruct (dget_or UNIT_MAPPINGS (sanitize_name a)) as [|t0 t1] eqn:Q2.
  - apply name_tail_app; [apply tail_char_ok; vm_compute; reflexivity|exact T2].
  - rewrite <- Q2 in *. apply name_tail_app; [exact T|]. apply name_tail_app; [apply tail_char_ok; vm_compute; reflexivity|exact T2].
Qed.
Lemma after_close_last x : ~ In 10%N x -> after_close (x ++ lit "}") = Some [].
Proof.
  induction x as [|c x IH]; intros N; [reflexivity|]. cbn [app after_close]. destruct (N.eqb_spec c 10) as [->|Q]; [exfalso; apply N; now left|].
  rewrite IH; [reflexivity|]. intros I. apply N. now right.
Qed.
Lemma strip_plain u : ~ In (chr "{") u -> forall f, (length u <= f)%nat -> strip_annotations f u = u.
Proof.
  induction u as [|c u IH]; intros N f L; destruct f as [|f]; cbn [strip_annotations]; try reflexivity; cbn in L; [lia|].
  destruct (N.eqb_spec c (chr "{")) as [->|Q]; [exfalso; apply N; now left|]. f_equal. apply IH; [intros I; apply N; now right|lia].
Qed.
Lemma strip_annotated u x : ~ In (chr "{") u -> ~ In 10%N x -> forall f, (length (u ++ lit "{" ++ x ++ lit "}") <= f)%nat ->
  strip_annotations f (u ++ lit "{" ++ x ++ lit "}") = u.
Proof.
  intros N M. induction u as [|c u IH]; intros f L; destruct f as [|f]; [reflexivity| |cbn in L; lia|].
  - change ([] ++ lit "{" ++ x ++ lit "}") with (chr "{" :: (x ++ lit "}")). cbn [strip_annotations].
    rewrite N.eqb_refl, after_close_last by exact M. now destruct f.
  - cbn [app strip_annotations]. destruct (N.eqb_spec c (chr "{")) as [->|Q]; [exfalso; apply N; now left|]. f_equal. apply IH; [intros I; apply N; now right|exact (le_S_n _ _ L)].
Qed.
Lemma map_unit_annotated u x : ~ In (chr "{") u -> ~ In 10%N x -> map_unit (u ++ lit "{" ++ x ++ lit "}") = map_unit u.
Proof. intros N M. unfold map_unit. rewrite strip_annotated by auto. rewrite (strip_plain u N _ (le_n _)). reflexivity. Qed.

(** ** Histograms *)
Fixpoint scan (t : Z) (l : list (option number * Z)) : list (option number * Z) :=
  match l with [] => [] | (b, c) :: l' => (b, t + c) :: scan (t + c) l' end.
Lemma fold_scan l : forall acc t, fst (fold_left (fun (acc : list (option number * Z) * Z) (bc : option number * Z) =>
   let total := snd acc + snd bc in ((fst bc, total) :: fst acc, total)) l (acc, t)) = rev (scan t l) ++ acc.
Proof.
  induction l as [|[b c] l IH]; intros acc t; cbn [fold_left scan rev app fst snd]; [reflexivity|]. cbn zeta. rewrite IH. now rewrite <- app_assoc.
Qed.
Lemma convert_scan counts bounds : convert_buckets counts bounds = scan 0 (combine (map Some bounds ++ [None]) counts).
Proof. unfold convert_buckets. rewrite fold_scan, app_nil_r, rev_involutive. reflexivity. Qed.
Lemma scan_fst l : forall t, map fst (scan t l) = map fst l.
Proof. induction l as [|[b c] l IH]; intros t; cbn; [reflexivity|now rewrite IH]. Qed.
Fixpoint sums (t : Z) (l : list Z) : list Z := match l with [] => [] | c :: l' => (t + c) :: sums (t + c) l' end.
Lemma scan_snd l : forall t, map snd (scan t l) = sums t (map snd l).
Proof. induction l as [|[b c] l IH]; intros t; cbn; [reflexivity|now rewrite IH]. Qed.
Lemma combine_fst {A B} (a : list A) : forall b : list B, length a = length b -> map fst (combine a b) = a.
Proof. induction a as [|x a IH]; intros [|y b] H; cbn in *; try reflexivity; try discriminate. f_equal. apply IH. lia. Qed.
Lemma combine_snd {A B} (a : list A) : forall b : list B, length a = length b -> map snd (combine a b) = b.
Proof. induction a as [|x a IH]; intros [|y b] H; cbn in *; try reflexivity; try discriminate. f_equal. apply IH. lia. Qed.
Lemma sums_diff l : forall t, differences t (sums t l) = l.
Proof. induction l as [|c l IH]; intros t; cbn; [reflexivity|]. rewrite IH. f_equal. lia. Qed.
Lemma sums_nth l : forall t i, nth_error (sums t l) i = if (i <? length l)%nat then Some (t + total (firstn (S i) l)) else None.
Proof.
  induction l as [|c l IH]; intros t i; [destruct i; reflexivity|]. destruct i as [|i].
  - cbn. f_equal. lia.
  - cbn [sums nth_error length]. rewrite IH. change (S i <? S (length l))%nat with (i <? length l)%nat. destruct (i <? length l)%nat; [|reflexivity].
    cbn [firstn total fold_right]. f_equal. change (fold_right Z.add 0) with total. cbn [total fold_right]. unfold total. cbn. lia.
Qed.
Lemma sums_sorted l : Forall (fun c => 0 <= c) l -> forall t, StronglySorted Z.le (t :: sums t l).
Proof.
  induction 1 as [|c l Hc H IH]; intros t; cbn [sums]; [constructor; constructor|]. specialize (IH (t + c)). constructor; [exact IH|].
  inversion IH as [|? ? S F]; subst. constructor; [lia|]. eapply Forall_impl; [|exact F]. cbn. lia.
Qed.

(** ** Family ids *)
Lemma split_left (c : N) a a' x x' : ~ In c a -> ~ In c a' -> a ++ c :: x = a' ++ c :: x' -> a = a' /\ x = x'.
Proof.
  revert a'. induction a as [|d a IH]; intros [|d' a'] N N' E; cbn in *; injection E; intros; subst.
  - auto.
  - exfalso. apply N'. now left.
  - exfalso. apply N. now left.
  - destruct (IH a') as [-> ->]; auto.
Qed.
Lemma split_right (c : N) x x' b b' : ~ In c b -> ~ In c b' -> x ++ c :: b = x' ++ c :: b' -> x = x' /\ b = b'.
Proof.
  intros N N' E. apply (f_equal (@rev BinNums.N)) in E. rewrite !rev_app_distr in E. cbn [rev] in E. rewrite <- !app_assoc in E. cbn [app] in E.
  apply split_left in E; [|now rewrite <- in_rev|now rewrite <- in_rev]. destruct E as [E1 E2].
  split; [rewrite <- (rev_involutive x), E2; apply rev_involutive|rewrite <- (rev_involutive b), E1; apply rev_involutive].
Qed.
Lemma name_tail_no c s : name_tail s -> (c < 48 \/ 58 < c < 65 \/ 90 < c < 95 \/ c = 96 \/ 122 < c)%N -> ~ In c s.
Proof.
  intros T C I. unfold name_tail in T. rewrite Forall_forall in T. specialize (T c I). unfold letter, digit, underscore, colon in T.
  change (chr "_") with 95%N in T. change (chr ":") with 58%N in T. lia.
Qed.
Lemma keys_join a b : Forall (fun k => k <> [] /\ name_tail k) a -> Forall (fun k => k <> [] /\ name_tail k) b -> join (lit "%") a = join (lit "%") b -> a = b.
Proof.
  intros A B E.
  assert (J : forall l, Forall (fun k => k <> [] /\ name_tail k) l -> l <> [] -> join (lit "%") l <> []).
  { intros [|x [|y l]] H N; [congruence| |].
    - cbn. inversion H as [|? ? Q _]; subst. apply Q.
    - inversion H as [|? ? Q _]; subst. destruct Q as [Q _]. destruct x; [congruence|discriminate]. }
  assert (S : forall l, Forall (fun k => k <> [] /\ name_tail k) l -> l <> [] -> split_on (chr "%") (join (lit "%") l) = l).
  { intros l H N. change (lit "%") with [chr "%"]. apply split_on_join; [exact N|]. eapply Forall_impl; [|exact H]. cbn. intros k [_ T]. apply name_tail_no; [exact T|]. cbn. lia. }
  destruct a as [|x a]; destruct b as [|y b]; [reflexivity| | |].
  - exfalso. apply (J (y :: b)); [exact B|discriminate|now rewrite <- E].
  - exfalso. apply (J (x :: a)); [exact A|discriminate|now rewrite E].
  - rewrite <- (S (x :: a)), <- (S (y :: b)), E; try assumption; try discriminate. rewrite (S (y :: b)); [reflexivity|exact B|discriminate].
Qed.
Lemma join_no (c : N) l : (c <> chr "%")%N -> Forall (fun k => ~ In c k) l -> ~ In c (join (lit "%") l).
Proof.
  intros N. induction l as [|x [|y l] IH]; intros H I; [destruct I| |].
  - inversion H; subst. auto.
  - change (join (lit "%") (x :: y :: l)) with (x ++ chr "%" :: join (lit "%") (y :: l)) in I. inversion H as [|? ? Hx Hl]; subst.
    apply in_app_or in I. destruct I as [I|[I|I]]; [auto|congruence|]. apply IH in I; auto.
Qed.
Definition ident_ok (i : pident) : Prop := name_tail (pi_name i) /\ name_tail (pi_unit i) /\ Forall (fun k => k <> [] /\ name_tail k) (pi_labels i).
Definition id_of (i : pident) : str := family_id (pi_name i) (pi_doc i) (pi_labels i) (pi_unit i) (pi_kind i).
Lemma id_form i : id_of i = pi_name i ++ chr "|" :: ((pi_doc i ++ chr "|" :: join (lit "%") (pi_labels i)) ++ chr "|" :: pi_unit i) ++ chr "|" :: kind_name (pi_kind i).
Proof. unfold id_of, family_id. cbn [join]. rewrite <- !app_assoc. reflexivity. Qed.
Lemma kind_no k : ~ In (chr "|") (kind_name k).
Proof. destruct k; vm_compute; intuition congruence. Qed.
Lemma id_inj i j : ident_ok i -> ident_ok j -> id_of i = id_of j -> i = j.
Proof.
  intros (N1 & U1 & K1) (N2 & U2 & K2) E. rewrite !id_form in E.
  assert (P : forall s, name_tail s -> ~ In (chr "|") s) by (intros s T; apply name_tail_no; [exact T|cbn; lia]).
  apply split_left in E; [|auto|auto]. destruct E as [En E].
  apply split_right in E; [|apply kind_no|apply kind_no]. destruct E as [E Ek].
  apply split_right in E; [|auto|auto]. destruct E as [E Eu].
  assert (Q : forall l, Forall (fun k => k <> [] /\ name_tail k) l -> ~ In (chr "|") (join (lit "%") l)).
  { intros l H. apply join_no; [discriminate|]. eapply Forall_impl; [|exact H]. cbn. intros k [_ T]. now apply P. }
  apply split_right in E; [|auto|auto]. destruct E as [Ed El]. apply keys_join in El; auto.
  destruct i as [k n d l u], j as [k' n' d' l' u']; cbn in *. subst. f_equal. destruct k, k'; try reflexivity; discriminate.
Qed.

(** ** Grouping *)
Definition put (fams : dict str pfamily) (p : pident * (list str * pvalue)) : dict str pfamily :=
  let i := fst p in add_sample (pi_name i) (pi_doc i) (pi_labels i) (pi_unit i) (pi_kind i) (snd p) fams.
Definition grouped (fams : dict str pfamily) (pts : list (pident * (list str * pvalue))) : Prop :=
  NoDup (keys fams)
  /\ (forall id f, In (id, f) fams -> id = id_of (ident_of f) /\ ident_ok (ident_of f) /\ pf_samples f = samples_at (ident_of f) pts)
  /\ (forall i, In i (map ident_of (values fams)) <-> In i (map fst pts)).
Lemma samples_at_app i a b : samples_at i (a ++ b) = samples_at i a ++ samples_at i b.
Proof. unfold samples_at. now rewrite filter_app, map_app. Qed.
Lemma put_grouped fams pts p : grouped fams pts -> ident_ok (fst p) -> grouped (put fams p) (pts ++ [p]).
Proof.
  intros (ND & F & I) OK. destruct p as [i s]. cbn [fst] in OK. unfold put, add_sample. cbn [fst snd]. fold (id_of i).
  set (f0 := match dget (id_of i) fams with Some f => f | None => PFam (pi_kind i) (pi_name i) (pi_doc i) (pi_labels i) (pi_unit i) [] end).
  assert (Hf0 : ident_of f0 = i /\ pf_samples f0 = samples_at i pts).
  { unfold f0. destruct (dget (id_of i) fams) as [f|] eqn:E.
    - apply dget_In in E. destruct (F _ _ E) as (Q & O & S). apply id_inj in Q; auto. subst i. auto.
    - split; [now destruct i|]. cbn. unfold samples_at. destruct (filter _ pts) as [|q l] eqn:Q; [reflexivity|]. exfalso.
      assert (In q (filter (fun p => if pident_eq_dec (fst p) i then true else false) pts)) as J by (rewrite Q; now left).
      apply filter_In in J. destruct J as [J D]. destruct (pident_eq_dec (fst q) i) as [<-|]; [|discriminate].
      assert (In (fst q) (map ident_of (values fams))) as J2 by (apply I; now apply in_map). apply in_map_iff in J2. destruct J2 as (f & E1 & E2).
      unfold values in E2. apply in_map_iff in E2. destruct E2 as ([id f'] & E3 & E4). cbn in E3. subst f'. destruct (F _ _ E4) as (-> & _ & _). rewrite E1 in E4.
      apply (In_dget _ _ _ ND) in E4. congruence. }
  destruct Hf0 as [Hi Hs].
  set (f1 := PFam (pf_kind f0) (pf_name f0) (pf_doc f0) (pf_labels f0) (pf_unit f0) (pf_samples f0 ++ [s])).
  assert (Hi1 : ident_of f1 = i) by exact Hi.
  assert (ND' : NoDup (keys (dset (id_of i) f1 fams))) by (apply NoDup_dset; exact ND).
  assert (G : forall id f, In (id, f) (dset (id_of i) f1 fams) <-> (id = id_of i /\ f = f1) \/ (id <> id_of i /\ In (id, f) fams)).
  { intros id f. split.
    - intros H. apply (In_dget _ _ _ ND') in H. destruct (str_eq_dec id (id_of i)) as [->|N].
      + rewrite dget_dset_eq in H. injection H as <-. auto.
      + rewrite dget_dset_ne in H by auto. right. split; [exact N|]. now apply dget_In.
    - intros [[-> ->]|[N H]]; apply dget_In; [apply dget_dset_eq|]. rewrite dget_dset_ne by auto. now apply In_dget. }
  split; [exact ND'|]. split.
  - intros id f H. apply G in H. destruct H as [[-> ->]|[N H]].
    + rewrite Hi1. split; [reflexivity|]. split; [exact OK|]. cbn. rewrite Hs, samples_at_app. unfold samples_at at 3. cbn. destruct (pident_eq_dec i i); [reflexivity|congruence].
    + destruct (F _ _ H) as (Q & O & S). split; [exact Q|]. split; [exact O|]. rewrite S, samples_at_app. unfold samples_at at 3. cbn.
      destruct (pident_eq_dec i (ident_of f)) as [E|E]; [|now rewrite app_nil_r]. exfalso. apply N. rewrite Q. now f_equal.
  - intros j. rewrite map_app, in_app_iff. cbn [map fst]. unfold values. rewrite <- I. split.
    + intros H. apply in_map_iff in H. destruct H as (f & E1 & E2). apply in_map_iff in E2. destruct E2 as ([id f'] & E3 & E4). cbn in E3. subst f'.
      apply G in E4. destruct E4 as [[-> ->]|[N E4]]; [right; left; congruence|]. left. rewrite <- E1. apply in_map. unfold values. apply in_map_iff. exists (id, f). auto.
    + intros H.
      assert (C : i = j \/ (i <> j /\ In j (map ident_of (values fams)))) by (destruct (pident_eq_dec i j); [auto|right; split; [assumption|destruct H as [H|[H|[]]]; [exact H|congruence]]]).
      destruct C as [<-|[N C]].
      * apply in_map_iff. exists f1. split; [exact Hi1|]. apply in_map_iff. exists (id_of i, f1). split; [reflexivity|]. apply G. auto.
      * apply in_map_iff in C. destruct C as (f & E1 & E2). unfold values in E2. apply in_map_iff in E2. destruct E2 as ([id f'] & E3 & E4). cbn in E3. subst f'.
        apply in_map_iff. exists f. split; [exact E1|]. apply in_map_iff. exists (id, f). split; [reflexivity|]. apply G. right. split; [|exact E4].
        intros ->. destruct (F _ _ E4) as (Q & O & _). apply id_inj in Q; auto. congruence.
Qed.
Lemma puts_grouped pts : forall fams done, grouped fams done -> Forall (fun p => ident_ok (fst p)) pts -> grouped (fold_left put pts fams) (done ++ pts).
Proof.
  induction pts as [|p pts IH]; intros fams done G H; cbn [fold_left]; [now rewrite app_nil_r|]. inversion H as [|? ? Hp Hl]; subst.
  replace (done ++ p :: pts) with ((done ++ [p]) ++ pts) by now rewrite <- app_assoc. apply IH; [|exact Hl]. now apply put_grouped.
Qed.

Section Translate.
Variable other_digit : N -> bool.
Variable dumps : pyval -> str.
Lemma fold_map {A B C} (g : A -> B -> A) (h : C -> B) l : forall a, fold_left g (map h l) a = fold_left (fun a c => g a (h c)) l a.
Proof. induction l as [|x l IH]; intros a; cbn; [reflexivity|apply IH]. Qed.
Lemma translate_metric_points fams m : translate_metric other_digit dumps fams m
  = match sm_unit m with None => None | Some _ => match sm_data m with MExponential (_ :: _) _ | MUnknown => None | _ => Some (fold_left put (points_of other_digit dumps m) fams) end end.
Proof.
  unfold translate_metric, points_of. destruct (sm_unit m) as [u|]; [|reflexivity].
  destruct (sm_data m) as [l|l t mono|l t|[|x l] t|]; try reflexivity; f_equal; unfold number_points, histogram_points; rewrite !fold_map; try reflexivity.
  destruct mono; [reflexivity|]. cbn [negb andb]. reflexivity.
Qed.
Lemma translate_points ms : forall fams, Forall showable ms -> translate other_digit dumps ms fams = Some (fold_left put (flat_map (points_of other_digit dumps) ms) fams).
Proof.
  induction ms as [|m ms IH]; intros fams H; cbn [translate flat_map fold_left]; [reflexivity|]. inversion H as [|? ? Hm Hl]; subst.
  rewrite translate_metric_points, fold_left_app. destruct Hm as [U D]. destruct (sm_unit m); [|congruence].
  destruct (sm_data m) as [l|l t mono|l t|[|x l] t|]; try contradiction; cbn [bind]; now apply IH.
Qed.
Lemma translate_fails ms : forall fams, ~ Forall showable ms -> translate other_digit dumps ms fams = None.
Proof.
  induction ms as [|m ms IH]; intros fams H; [exfalso; apply H; constructor|]. cbn [translate]. rewrite translate_metric_points.
  destruct (sm_unit m) eqn:U; [|reflexivity].
  destruct (sm_data m) as [l|l t mono|l t|[|x l] t|] eqn:D; try reflexivity; cbn [bind]; apply IH; intros F; apply H; constructor; auto; split; rewrite ?D; auto; congruence.
Qed.
End Translate.
Lemma insert_perm x l : Permutation (insert_item x l) (x :: l).
Proof. induction l as [|y l IH]; cbn; [reflexivity|]. destruct (str_ltb (fst x) (fst y)); [reflexivity|]. rewrite IH. constructor. Qed.
Lemma sort_perm l : Permutation (sort_items l) l.
Proof. induction l as [|x l IH]; cbn; [constructor|]. rewrite insert_perm. now constructor. Qed.
Lemma str_ltb_irrefl a : str_ltb a a = false.
Proof. induction a as [|x a IH]; cbn; [reflexivity|]. now rewrite N.ltb_irrefl, N.eqb_refl, IH. Qed.
Lemma str_ltb_trans a : forall b c, str_ltb a b = true -> str_ltb b c = true -> str_ltb a c = true.
Proof.
  induction a as [|x a IH]; intros [|y b] [|z c] H1 H2; cbn in *; try discriminate; auto.
  rewrite orb_true_iff, andb_true_iff, N.ltb_lt, N.eqb_eq in *. destruct H1 as [H1|[-> H1]], H2 as [H2|[-> H2]]; try (left; lia). right. split; [reflexivity|]. eapply IH; eauto.
Qed.
Lemma str_ltb_total a : forall b, str_ltb a b = false -> str_ltb b a = false -> a = b.
Proof.
  induction a as [|x a IH]; intros [|y b] H1 H2; cbn in *; try discriminate; auto.
  rewrite orb_false_iff, andb_false_iff, N.ltb_ge, N.eqb_neq in *. destruct H1 as [L1 H1], H2 as [L2 H2]. assert (x = y) by lia. subst y. f_equal. apply IH; [destruct H1; [congruence|auto]|destruct H2; [congruence|auto]].
Qed.
(** [str_ltb b a = false] is a preorder. *)
Lemma str_le_trans a b c : str_ltb b a = false -> str_ltb c b = false -> str_ltb c a = false.
Proof.
  intros H1 H2. destruct (str_ltb c a) eqn:E; [|reflexivity]. destruct (str_ltb a b) eqn:F.
  - rewrite (str_ltb_trans _ _ _ E F) in H2. discriminate.
  - assert (a = b) by (apply str_ltb_total; assumption). subst b. congruence.
Qed.
Lemma insert_sorted x l : in_key_order l -> in_key_order (insert_item x l).
Proof.
  unfold in_key_order. induction 1 as [|y l S IH F]; cbn; [repeat constructor|]. destruct (str_ltb (fst x) (fst y)) eqn:E.
  - assert (Y : str_ltb (fst y) (fst x) = false).
    { destruct (str_ltb (fst y) (fst x)) eqn:Q; [|reflexivity]. pose proof (str_ltb_trans _ _ _ E Q) as R. now rewrite str_ltb_irrefl in R. }
    constructor; [constructor; assumption|]. constructor; [exact Y|]. eapply Forall_impl; [|exact F]. cbn. intros z Hz. eapply str_le_trans; eauto.
  - constructor; [exact IH|]. rewrite Forall_forall in *. intros z Hz. apply (Permutation_in _ (insert_perm x l)) in Hz. destruct Hz as [<-|Hz]; auto.
Qed.
Lemma sort_sorted l : in_key_order (sort_items l).
Proof. induction l as [|x l IH]; cbn; [constructor|]. now apply insert_sorted. Qed.
Section Labels.
Variable other_digit : N -> bool.
Variable dumps : pyval -> str.
Lemma label_keys_ok attrs : ~ In [] (keys attrs) -> Forall (fun k => k <> [] /\ name_tail k) (label_keys other_digit attrs).
Proof.
  intros N. unfold label_keys. rewrite Forall_map, Forall_forall. intros [k v] I. apply (Permutation_in _ (sort_perm attrs)) in I. cbn [fst].
  assert (K : k <> []) by (intros ->; apply N; unfold keys; apply in_map_iff; exists ([], v); auto).
  destruct (legal_labels other_digit k K) as (c & t & -> & F & T). split; [discriminate|]. constructor; [tauto|]. unfold name_tail, label_tail in *. eapply Forall_impl; [|exact T]. cbn. tauto.
Qed.
Lemma name_tail_full s : name_tail (sanitize_full_name other_digit s).
Proof. apply sanitize_tail. Qed.
Lemma every_all d : every_metric d = all_metrics d.
Proof.
  unfold every_metric, all_metrics. induction d as [|[rs l] d IH]; [reflexivity|]. cbn [map concat flat_map snd]. rewrite map_app, concat_app, IH. f_equal. symmetry. apply flat_map_concat_map.
Qed.
Lemma points_ok m : keys_given m -> Forall (fun p => ident_ok (fst p)) (points_of other_digit dumps m).
Proof.
  intros K. unfold points_of. destruct (sm_unit m) as [u|]; [|constructor]. unfold keys_given, attrs_of in K.
  assert (P : forall k a v, ~ In [] (keys a) -> ident_ok (fst (point other_digit dumps m u k a v))).
  { intros k a v N. split; [apply name_tail_full|]. split; [apply map_unit_tail|]. now apply label_keys_ok. }
  destruct (sm_data m) as [l|l t mono|l t|[|x l] t|]; try constructor; rewrite Forall_map in *; (eapply Forall_impl; [|exact K]); cbn beta; intros p; apply P.
Qed.
End Labels.
