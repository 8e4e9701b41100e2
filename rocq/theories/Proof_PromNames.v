(** Proofs about names, units and the target in Prometheus. *)
From Verif Require Import Spec_PromNames Proof_Prometheus Proof_Str Proof_Dict.
From Coq Require Import Lia.
Local Open Scope Z_scope.

Section Replace.
Variable ok : N -> bool.
Variable allowed : N -> Prop.
Hypothesis same : forall c, ok c = true <-> allowed c.
Lemma not_ok c : ok c = false <-> ~ allowed c.
Proof. rewrite <- same. now rewrite not_true_iff_false. Qed.
Lemma sub_runs_replaced : forall s, replaced allowed s (sub_runs ok false s)
  /\ exists r s', s = r ++ s' /\ Forall (fun c => ~ allowed c) r /\ (forall c t, s' = c :: t -> allowed c) /\ replaced allowed s' (sub_runs ok true s).
Proof.
  induction s as [|c s [I (r & s' & E & R & F & I')]]; cbn [sub_runs].
  - split; [constructor|]. exists [], []. repeat split; try constructor. discriminate.
  - destruct (ok c) eqn:A.
    + apply same in A. split; [now constructor|]. exists [], (c :: s). split; [reflexivity|]. split; [constructor|]. split; [intros x t Q; now injection Q as <- _|now constructor].
    + apply not_ok in A. split.
      * rewrite E. change (c :: r ++ s') with ((c :: r) ++ s'). rewrite <- E. constructor; [discriminate|now constructor|exact F|exact I'].
      * exists (c :: r), s'. split; [now rewrite E|]. split; [now constructor|]. split; [exact F|exact I'].
Qed.
End Replace.
Lemma name_replaced s : replaced in_names s (sanitize_name s).
Proof. apply (sub_runs_replaced name_char in_names name_char_ok s). Qed.
Lemma label_replaced s : replaced in_labels s (sub_runs key_char false s).
Proof. apply (sub_runs_replaced key_char in_labels key_char_ok s). Qed.

(** Replacing is a function *)
Lemma replaced_run_end (allowed : N -> Prop) (r s t : str) : r <> [] -> Forall (fun c => ~ allowed c) r -> (forall c s', s = c :: s' -> allowed c) ->
  forall r' s', Forall (fun c => ~ allowed c) r' -> (forall c s'', s' = c :: s'' -> allowed c) -> r ++ s = r' ++ s' -> t = t -> r = r' /\ s = s'.
Proof.
  intros _ R S r' s' R' S' E _. revert r' R' E. induction R as [|c r Hc R IH]; intros r' R' E.
  - destruct R' as [|c' r' Hc' R']; [split; [reflexivity|exact E]|]. cbn in E. exfalso. apply Hc'. now apply (S c' (r' ++ s')).
  - destruct R' as [|c' r' Hc' R']; cbn in E; [exfalso; apply Hc; now apply (S' c (r ++ s))|]. injection E as -> E. destruct (IH r' R' E) as [-> ->]. auto.
Qed.
Lemma replaced_fun (allowed : N -> Prop) (s t : str) : replaced allowed s t -> forall t', replaced allowed s t' -> t' = t.
Proof.
  induction 1 as [|c s t A H IH|r s t NE R F H IH]; intros t' H'.
  - inversion H' as [| |r s x NE R F Q E]; [reflexivity|]. destruct r; [congruence|discriminate].
  - inversion H' as [|c' s' x A' Q|r' s' x NE R F Q E]; subst; [f_equal; now apply IH|]. destruct r'; [congruence|]. cbn in E. injection E as -> _. inversion R; contradiction.
  - remember (r ++ s) as u. destruct H' as [|c' s' x A' Q|r' s' x NE' R' F' Q].
    + destruct r; [congruence|discriminate].
    + destruct r as [|y r]; [congruence|]. cbn in Hequ. injection Hequ as -> _. inversion R; contradiction.
    + symmetry in Hequ. destruct (replaced_run_end allowed r s t NE R F r' s' R' F' Hequ eq_refl) as [-> ->]. f_equal. now apply IH.
Qed.
Lemma digit_replaced_name c s t : ~ in_names c -> replaced in_names (c :: s) t -> replaced in_names (chr "_" :: s) t.
Proof.
  intros N H. inversion H as [|c' s' x A Q|r s' x NE R F Q E]; [contradiction|]. destruct r as [|y r]; [congruence|]. cbn in E. injection E as -> <-.
  change (chr "_" :: r ++ s') with ((chr "_" :: r) ++ s'). constructor; [discriminate| |exact F|exact Q]. inversion R as [|? ? R1 R2]; subst. constructor; [|exact R2].
  intros A. now apply name_char_ok in A.
Qed.

Section Led.
Variable other_digit : N -> bool.
Lemma led_sub (ok : N -> bool) (allowed : N -> Prop) s s' : (forall c, ok c = true <-> allowed c) -> ok (chr "_") = false -> (forall c, ok c = true -> (c < 128)%N) -> led s s' ->
  sub_runs ok false (fix_first other_digit s) = sub_runs ok false s'.
Proof.
  intros same U L [[-> N]|(c & t & -> & D & ->)].
  - destruct s as [|c s]; [reflexivity|]. specialize (N c s eq_refl). cbn [fix_first]. unfold isdigit. destruct (N.ltb c 128) eqn:B.
    + destruct (is_digit c) eqn:Q; [|reflexivity]. exfalso. apply N. unfold digit, is_digit in *. now nbool.
    + destruct (other_digit c); [|reflexivity]. cbn [sub_runs]. rewrite U. destruct (ok c) eqn:A; [|reflexivity]. apply L in A. apply N.ltb_ge in B. lia.
  - cbn [fix_first]. unfold isdigit. assert (B : N.ltb c 128 = true) by (apply N.ltb_lt; unfold digit in D; lia). rewrite B.
    assert (Q : is_digit c = true) by (unfold digit, is_digit in *; now nbool). now rewrite Q.
Qed.
Lemma name_ascii c : name_char c = true -> (c < 128)%N.
Proof. intros H. apply name_char_ok in H. unfold letter, digit, colon in H. change (chr ":") with 58%N in H. lia. Qed.
Lemma key_ascii c : key_char c = true -> (c < 128)%N.
Proof. intros H. apply key_char_ok in H. unfold letter, digit in H. lia. Qed.
Lemma name_exact s s' : led s s' -> replaced in_names s' (sanitize_full_name other_digit s).
Proof. intros L. unfold sanitize_full_name, sanitize_name. rewrite (led_sub name_char in_names s s' name_char_ok eq_refl name_ascii L). apply name_replaced. Qed.
Lemma label_exact s s' : led s s' -> replaced in_labels s' (sanitize_attribute other_digit s).
Proof. intros L. unfold sanitize_attribute. rewrite (led_sub key_char in_labels s s' key_char_ok eq_refl key_ascii L). apply label_replaced. Qed.
End Led.
Lemma led_total s : exists s', led s s'.
Proof.
  destruct s as [|c s]; [exists []; left; split; [reflexivity|discriminate]|]. destruct (is_digit c) eqn:Q.
  - exists (chr "_" :: s). right. exists c, s. split; [reflexivity|]. split; [|reflexivity]. unfold digit, is_digit in *. now nbool.
  - exists (c :: s). left. split; [reflexivity|]. intros d t E. injection E as <- _. unfold digit. intros D. unfold is_digit in Q. nbool. lia.
Qed.

(** ** Units *)
Lemma after_close_ok s : match after_close s with
  | Some r => exists note, s = note ++ lit "}" ++ r /\ ~ In 10%N note /\ forall x y, r = x ++ lit "}" ++ y -> In 10%N x
  | None => forall note b, s = note ++ lit "}" ++ b -> In 10%N note
  end.
Proof.
  induction s as [|c s IH]; cbn [after_close]; [intros [|] b; discriminate|]. destruct (N.eqb_spec c 10) as [->|C].
  - intros [|x note] b E; cbn in E; [discriminate|]. injection E as <- _. now left.
  - destruct (after_close s) as [r|].
    + destruct IH as (note & -> & NN & L). exists (c :: note). split; [reflexivity|]. split; [|exact L]. cbn. intros [Q|Q]; [congruence|contradiction].
    + destruct (N.eqb_spec c (chr "}")) as [->|D].
      * exists []. split; [reflexivity|]. split; [intros []|]. intros x y ->. now apply (IH x y).
      * intros [|x note] b E; cbn in E; [injection E as -> _; now cbn in D|]. injection E as -> E. right. now apply (IH note b).
Qed.
Lemma strip_unannotated : forall f s, (length s <= f)%nat -> unannotated s (strip_annotations f s).
Proof.
  induction f as [|f IH]; intros s L; [destruct s; [constructor|cbn in L; lia]|]. destruct s as [|c s]; [constructor|]. cbn in L. cbn [strip_annotations].
  destruct (N.eqb_spec c (chr "{")) as [->|C].
  - pose proof (after_close_ok s) as A. destruct (after_close s) as [r|].
    + destruct A as (note & -> & N & A). change (chr "{" :: note ++ lit "}" ++ r) with (lit "{" ++ note ++ lit "}" ++ r). constructor; [exact N|exact A|]. apply IH. rewrite !app_length in L. lia.
    + constructor; [intros _; exact A|]. apply IH. lia.
  - constructor; [intros E; contradiction|]. apply IH. lia.
Qed.
(** There is one way to leave annotations out. *)
Lemma unannotated_inv c s t : unannotated (c :: s) t ->
  (exists t', t = c :: t' /\ unannotated s t' /\ (c = chr "{" -> forall note b, s = note ++ lit "}" ++ b -> In 10%N note))
  \/ exists note r, c = chr "{" /\ s = note ++ lit "}" ++ r /\ ~ In 10%N note /\ (forall x y, r = x ++ lit "}" ++ y -> In 10%N x) /\ unannotated r t.
Proof.
  intros H. inversion H as [|c' s' t' A B E1 E2|note r t' A B C E1 E2]; subst.
  - left. eauto.
  - right. exists note, r. auto.
Qed.
Lemma last_close (note note' r r' : str) : note ++ lit "}" ++ r = note' ++ lit "}" ++ r' -> ~ In 10%N note -> ~ In 10%N note' ->
  (forall x y, r = x ++ lit "}" ++ y -> In 10%N x) -> (forall x y, r' = x ++ lit "}" ++ y -> In 10%N x) -> note = note' /\ r = r'.
Proof.
  revert note'. induction note as [|c note IH]; intros note' E N N' A A'.
  - destruct note' as [|c' note']; cbn in E; [now injection E as ->|]. injection E as <- ->. exfalso. specialize (A note' r' eq_refl). apply N'. now right.
  - destruct note' as [|c' note']; cbn in E.
    + injection E as -> <-. exfalso. specialize (A' note r eq_refl). apply N. now right.
    + injection E as <- E. destruct (IH note' E) as [-> ->]; auto; intros Q; [apply N|apply N']; now right.
Qed.
Lemma unannotated_fun : forall n s, (length s <= n)%nat -> forall t t', unannotated s t -> unannotated s t' -> t = t'.
Proof.
  induction n as [|n IH]; intros s L t t' H H'.
  - destruct s; [|cbn in L; lia]. inversion H; inversion H'; congruence.
  - destruct s as [|c s]; [inversion H; inversion H'; congruence|]. cbn in L. apply unannotated_inv in H. apply unannotated_inv in H'.
    destruct H as [(u & -> & Hu & A)|(note & r & -> & -> & N & A & H)]; destruct H' as [(u' & -> & Hu' & A')|(note' & r' & E1 & E2 & N' & A' & H')].
    + f_equal. apply (IH s); [lia|exact Hu|exact Hu'].
    + exfalso. apply N'. now apply (A E1 note' r').
    + exfalso. apply N. now apply (A' eq_refl note r).
    + destruct (last_close _ _ _ _ E2 N N' A A') as [<- <-]. apply (IH r); [|exact H|exact H']. rewrite !app_length in L. lia.
Qed.

Lemma dget_In (d : dict str str) k v : dget k d = Some v -> In (k, v) d.
Proof. induction d as [|[k' v'] d IH]; cbn; [discriminate|]. destruct (eq_dec k k') as [->|]; [intros E; injection E as ->; now left|]. intros E. right. now apply IH. Qed.
Ltac incl_table := repeat match goal with |- In ?x (?y :: ?l) => first [left; reflexivity|right] end.
Lemma units_named k v : dget k UNIT_MAPPINGS = Some v -> named k v.
Proof.
  intros H. apply dget_In in H. unfold named. unfold UNIT_MAPPINGS in H. cbn [map fst snd In] in *.
  repeat (destruct H as [H|H]; [rewrite <- H; repeat ((left; reflexivity) || right)|]); contradiction.
Qed.
Lemma named_units k v : named k v -> dget k UNIT_MAPPINGS = Some v.
Proof.
  unfold named. cbn [map fst snd In]. intros H.
  repeat (destruct H as [H|H]; [injection H as <- <-; reflexivity|]); contradiction.
Qed.
Lemma per_named k v : dget k PER_UNIT_MAPPINGS = Some v -> named_per k v.
Proof.
  intros H. apply dget_In in H. unfold named_per. unfold PER_UNIT_MAPPINGS in H. cbn [map fst snd In] in *.
  repeat (destruct H as [H|H]; [rewrite <- H; repeat ((left; reflexivity) || right)|]); contradiction.
Qed.
Lemma named_per_units k v : named_per k v -> dget k PER_UNIT_MAPPINGS = Some v.
Proof.
  unfold named_per. cbn [map fst snd In]. intros H.
  repeat (destruct H as [H|H]; [injection H as <- <-; reflexivity|]); contradiction.
Qed.
Lemma by_name_units k : by_name named k (dget_or UNIT_MAPPINGS k).
Proof.
  unfold dget_or. destruct (dget k UNIT_MAPPINGS) as [v|] eqn:E; [left; now apply units_named|]. right. split; [|reflexivity]. intros n H. apply named_units in H. congruence.
Qed.
Lemma by_name_per k : by_name named_per k (dget_or PER_UNIT_MAPPINGS k).
Proof.
  unfold dget_or. destruct (dget k PER_UNIT_MAPPINGS) as [v|] eqn:E; [left; now apply per_named|]. right. split; [|reflexivity]. intros n H. apply named_per_units in H. congruence.
Qed.
Lemma lstrip_parts p s : exists a, s = a ++ lstrip p s /\ Forall (fun c => p c = true) a /\ forall c t, lstrip p s = c :: t -> p c = false.
Proof.
  induction s as [|c s (a & E & F & G)]; cbn [lstrip]; [exists []; repeat split; [constructor|discriminate]|]. destruct (p c) eqn:P.
  - exists (c :: a). split; [cbn; now f_equal|]. split; [now constructor|exact G].
  - exists []. split; [reflexivity|]. split; [constructor|]. intros d t Q. now injection Q as <- _.
Qed.
Lemma strip_trimmed s : trimmed s (strip is_underscore s).
Proof.
  unfold strip, rstrip. destruct (lstrip_parts is_underscore s) as (a & E & F & G). destruct (lstrip_parts is_underscore (rev (lstrip is_underscore s))) as (b & E' & F' & G').
  set (u := lstrip is_underscore s) in *. set (w := lstrip is_underscore (rev u)) in *. apply (f_equal (@rev N)) in E'. rewrite rev_involutive, rev_app_distr in E'.
  exists a, (rev b). split; [now rewrite <- E'|]. split; [eapply Forall_impl; [|exact F]; intros c; apply underscore_not|].
  split; [apply Forall_rev; eapply Forall_impl; [|exact F']; intros c; apply underscore_not|]. split.
  - intros c t Q U. apply underscore_not in U. rewrite E', Q in G. now rewrite (G c (t ++ rev b) eq_refl) in U.
  - intros c t Q U. apply underscore_not in U. apply (f_equal (@rev N)) in Q. rewrite rev_involutive, rev_app_distr in Q. cbn in Q. now rewrite (G' c _ Q) in U.
Qed.
Lemma sanitize_nil s : sanitize_name s = [] -> s = [].
Proof. destruct s as [|c s]; [reflexivity|]. intros E. now apply sub_runs_nonempty in E. Qed.
Lemma map_unit_shown u : exists b, unannotated u b /\ shown_unit b (map_unit u).
Proof.
  exists (strip_annotations (length u) u). split; [now apply strip_unannotated|]. unfold map_unit. set (b := strip_annotations (length u) u). clearbody b. clear u.
  destruct (dget b UNIT_MAPPINGS) as [n|] eqn:D; [constructor; now apply units_named|]. assert (K : forall n, ~ named b n) by (intros n H; apply named_units in H; congruence).
  assert (O : (forall x y, b = x ++ lit "/" ++ y -> y = []) -> shown_unit b (strip is_underscore (sanitize_name b))).
  { intros Q. eapply SOther; [exact K|exact Q|apply name_replaced|apply strip_trimmed]. }
  pose proof (split1_spec (chr "/") b) as S. destruct (split1 (chr "/") b) as [x [y|]].
  - destruct S as [-> NI]. destruct (sanitize_name y) as [|c z] eqn:E.
    + apply sanitize_nil in E. subst y. apply O. intros x' y' Q. change (lit "/" ++ y') with (chr "/" :: y') in Q. apply (f_equal (split1 (chr "/"))) in Q. rewrite split1_app in Q by exact NI.
      destruct (in_dec N.eq_dec (chr "/") x') as [I|I].
      * apply in_split in I. destruct I as (x1 & x2 & ->). rewrite <- app_assoc in Q. cbn [app] in Q. exfalso.
        pose proof (split1_spec (chr "/") (x1 ++ chr "/" :: x2 ++ chr "/" :: y')) as S. rewrite <- Q in S. destruct S as [S _].
        assert (L : length (filter (N.eqb (chr "/")) (x ++ [chr "/"])) = 1%nat).
        { rewrite filter_app, app_length. cbn. replace (filter (N.eqb 47) x) with (@nil N); [reflexivity|]. symmetry. clear - NI. induction x as [|w x IH]; cbn [filter]; [reflexivity|].
          destruct (N.eqb_spec 47 w) as [<-|]; [exfalso; apply NI; left; reflexivity|]. apply IH. intros I. apply NI. now right. }
        rewrite <- S in L. rewrite filter_app, app_length in L. cbn in L. rewrite filter_app, app_length in L. cbn in L. lia.
      * rewrite split1_app in Q by exact I. now injection Q as _ <-.
    + rewrite <- E. assert (NE : y <> []) by (intros ->; discriminate). change (x ++ chr "/" :: y) with (x ++ lit "/" ++ y) in *. eapply SRatio.
      * exact K.
      * exact NI.
      * exact NE.
      * apply name_replaced.
      * apply name_replaced.
      * apply by_name_units.
      * apply by_name_per.
  - destruct S as [-> NI]. apply O. intros x' y' Q. exfalso. apply NI. rewrite Q. apply in_or_app. right. now left.
Qed.

(** ** The target *)
Definition attrs_merged (d : metrics_data) (a : dict str pyval) : dict str pyval :=
  fold_left (fun (a : dict str pyval) (r : resource * list (scope * list sdk_metric)) => dupdate a (r_attrs (fst r))) d a.
Definition given (d : metrics_data) : Prop := Forall (fun r => NoDup (keys (r_attrs (fst r)))) d.
Lemma merged_NoDup d : forall a, NoDup (keys a) -> NoDup (keys (attrs_merged d a)).
Proof. induction d as [|r d IH]; intros a H; [exact H|]. cbn. apply IH. now apply NoDup_dupdate. Qed.
Lemma dget_In_iff {V} (d : dict str V) k v : NoDup (keys d) -> dget k d = Some v <-> In (k, v) d.
Proof.
  intros N. induction d as [|[k' v'] d IH]; cbn; [split; [discriminate|tauto]|]. cbn in N. inversion N as [|? ? NI N']; subst. destruct (eq_dec k k') as [->|NE].
  - split; [intros E; injection E as ->; now left|]. intros [E|I]; [now injection E as ->|]. exfalso. apply NI. unfold keys. apply in_map_iff. now exists (k', v).
  - rewrite (IH N'). split; [now right|]. intros [E|I]; [injection E as -> ->; congruence|exact I].
Qed.
Lemma merged_said d : given d -> forall a k v, dget k (attrs_merged d a) = Some v <->
  said d k v \/ (dget k a = Some v /\ Forall (fun r => ~ In k (keys (r_attrs (fst r)))) d).
Proof.
  induction 1 as [|r d Hr G IH]; intros a k v; cbn [attrs_merged fold_left].
  - split; [intros E; right; split; [exact E|constructor]|]. intros [(x & y & z & E & _)|[E _]]; [destruct x; discriminate|exact E].
  - change (dget k (attrs_merged d (dupdate a (r_attrs (fst r)))) = Some v <-> said (r :: d) k v \/ (dget k a = Some v /\ Forall (fun r => ~ In k (keys (r_attrs (fst r)))) (r :: d))).
    rewrite IH, dget_dupdate by exact Hr. split.
    + intros [(x & y & z & -> & I & F)|[E F]]; [left; exists (r :: x), y, z; auto|]. destruct (dget k (r_attrs (fst r))) as [w|] eqn:Q.
      * left. injection E as ->. exists [], r, d. split; [reflexivity|]. split; [now apply dget_In_iff|exact F].
      * right. split; [exact E|]. constructor; [now apply dget_keys|exact F].
    + intros [(x & y & z & E & I & F)|[E F]].
      * destruct x as [|r' x]; cbn in E; injection E as <- ->.
        -- right. apply (dget_In_iff _ _ _ Hr) in I. rewrite I. auto.
        -- left. exists x, y, z. auto.
      * right. inversion F as [|? ? F1 F2]; subst. assert (Q : dget k (r_attrs (fst r)) = None) by now apply dget_keys. rewrite Q. auto.
Qed.
Lemma dget_dict_of_some {V} (l : list (str * V)) : forall a k v, dget k (dupdate a l) = Some v -> In (k, v) l \/ dget k a = Some v.
Proof.
  induction l as [|[k' v'] l IH]; intros a k v; [auto|]. unfold dupdate. cbn [fold_left fst snd]. change (dget k (dupdate (dset k' v' a) l) = Some v -> In (k, v) ((k', v') :: l) \/ dget k a = Some v).
  intros H. apply IH in H. destruct H as [H|H]; [left; now right|]. rewrite dget_dset in H. destruct (eq_dec k k') as [->|]; [injection H as ->; left; now left|now right].
Qed.
Lemma dget_dict_of_only {V} (l : list (str * V)) : forall a k v, In (k, v) l -> (forall v', In (k, v') l -> v' = v) -> dget k (dupdate a l) = Some v.
Proof.
  induction l as [|[k' v'] l IH]; intros a k v I O; [destruct I|]. unfold dupdate. cbn [fold_left fst snd]. change (dget k (dupdate (dset k' v' a) l) = Some v).
  destruct (in_dec eq_dec k (keys l)) as [J|J].
  - unfold keys in J. apply in_map_iff in J. destruct J as ([q w] & E & J). cbn in E. subst q. rewrite (O w (or_intror J)) in J. apply IH; [exact J|]. intros u Q. apply O. now right.
  - destruct I as [E|I]; [|exfalso; apply J; unfold keys; apply in_map_iff; now exists (k, v)]. injection E as -> ->.
    assert (Q : dget k (dupdate (dset k v a) l) = dget k (dset k v a)).
    { clear - J. revert J. generalize (dset k v a). induction l as [|[k1 v1] l IH]; intros b J; [reflexivity|]. unfold dupdate. cbn [fold_left fst snd]. change (dget k (dupdate (dset k1 v1 b) l) = dget k b).
      cbn in J. rewrite IH by tauto. apply dget_dset_ne. intuition congruence. }
    rewrite Q. apply dget_dset_eq.
Qed.
Lemma check_text dumps v t : check_value dumps v = t <-> text_of dumps v t.
Proof. destruct v; cbn; split; congruence. Qed.
