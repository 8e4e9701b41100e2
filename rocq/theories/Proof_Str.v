From Verif Require Export Model_Str.
From Coq Require Export ZifyBool ZifyNat ZifyN.

Lemma str_eqb_eq a b : str_eqb a b = true <-> a = b.
Proof. unfold str_eqb. destruct (str_eq_dec a b); intuition congruence. Qed.

Lemma str_eqb_refl a : str_eqb a a = true.
Proof. now apply str_eqb_eq. Qed.

Lemma str_eqb_neq a b : str_eqb a b = false <-> a <> b.
Proof. unfold str_eqb. destruct (str_eq_dec a b); intuition congruence. Qed.

Lemma in_range_iff lo hi c : in_range lo hi c = true <-> (lo <= c <= hi)%N.
Proof. unfold in_range. lia. Qed.

(** ** forallb *)
Lemma forallb_app' {A} (p : A -> bool) l1 l2 :
  forallb p (l1 ++ l2) = true <-> forallb p l1 = true /\ forallb p l2 = true.
Proof. rewrite forallb_app, andb_true_iff. tauto. Qed.

Lemma forallb_rev {A} (p : A -> bool) l : forallb p (rev l) = forallb p l.
Proof.
  induction l as [|x l IH]; cbn; [reflexivity|].
  rewrite forallb_app, IH. cbn. rewrite andb_true_r. apply andb_comm.
Qed.

Lemma forallb_impl {A} (p q : A -> bool) l :
  (forall x, p x = true -> q x = true) -> forallb p l = true -> forallb q l = true.
Proof. intros Hpq. rewrite !forallb_forall. auto. Qed.

Lemma forallb_notin (p : N -> bool) l c : forallb p l = true -> p c = false -> ~ In c l.
Proof. rewrite forallb_forall. intros Hf Hc Hin. apply Hf in Hin. congruence. Qed.

(** ** strip *)
Lemma lstrip_decomp p s : exists w, s = w ++ lstrip p s /\ forallb p w = true.
Proof.
  induction s as [|c s IH]; cbn.
  - exists []. auto.
  - destruct (p c) eqn:E.
    + destruct IH as (w & E1 & E2). exists (c :: w). cbn. rewrite E, E2. split; [f_equal; exact E1 | reflexivity].
    + exists []. auto.
Qed.

Lemma lstrip_all p s : forallb p s = true -> lstrip p s = [].
Proof.
  induction s as [|c s IH]; cbn; [reflexivity|].
  rewrite andb_true_iff. intros [-> Hs]. auto.
Qed.

Lemma lstrip_hd p c s : p c = false -> lstrip p (c :: s) = c :: s.
Proof. cbn. now intros ->. Qed.

Lemma lstrip_app p w s : forallb p w = true -> lstrip p (w ++ s) = lstrip p s.
Proof.
  induction w as [|c w IH]; cbn; [reflexivity|].
  rewrite andb_true_iff. intros [-> Hs]. auto.
Qed.

Lemma lstrip_idem p s : lstrip p (lstrip p s) = lstrip p s.
Proof.
  induction s as [|c s IH]; cbn; [reflexivity|].
  destruct (p c) eqn:E; [exact IH|]. cbn. now rewrite E.
Qed.

Lemma lstrip_result p s : lstrip p s = [] \/ exists c t, lstrip p s = c :: t /\ p c = false.
Proof.
  induction s as [|c s IH]; cbn; [now left|].
  destruct (p c) eqn:E; [exact IH|]. right. eauto.
Qed.

Lemma lstrip_id p s : (forall c t, s = c :: t -> p c = false) -> lstrip p s = s.
Proof. destruct s as [|c s]; cbn; [reflexivity|]. intros Hs. now rewrite (Hs c s). Qed.

Lemma rstrip_decomp p s : exists w, s = rstrip p s ++ w /\ forallb p w = true.
Proof.
  destruct (lstrip_decomp p (rev s)) as (w & E & Hw). exists (rev w). unfold rstrip. split.
  - rewrite <- rev_app_distr, <- E. now rewrite rev_involutive.
  - now rewrite forallb_rev.
Qed.

Lemma rstrip_app p w s : forallb p w = true -> rstrip p (s ++ w) = rstrip p s.
Proof.
  intros Hw. unfold rstrip. rewrite rev_app_distr, lstrip_app; [reflexivity|].
  now rewrite forallb_rev.
Qed.

Lemma rstrip_snoc p s c : p c = false -> rstrip p (s ++ [c]) = s ++ [c].
Proof.
  intros Hc. unfold rstrip. rewrite rev_app_distr. cbn. rewrite Hc. cbn.
  now rewrite rev_involutive.
Qed.

Lemma rstrip_none p s : forallb (fun c => negb (p c)) s = true -> rstrip p s = s.
Proof.
  intros Hs. destruct s as [|c s _] using rev_ind; [reflexivity|].
  apply forallb_app' in Hs as [_ Hc]. cbn in Hc. apply rstrip_snoc.
  destruct (p c); [discriminate|reflexivity].
Qed.

Lemma lstrip_none p s : forallb (fun c => negb (p c)) s = true -> lstrip p s = s.
Proof.
  intros Hs. apply lstrip_id. intros c t ->. cbn in Hs. destruct (p c); [discriminate|reflexivity].
Qed.

Lemma strip_none p s : forallb (fun c => negb (p c)) s = true -> strip p s = s.
Proof. intros Hs. unfold strip. now rewrite lstrip_none, rstrip_none. Qed.

(** ** split / join *)
Lemma split_on_nonempty c s : split_on c s <> [].
Proof.
  induction s as [|x s IH]; cbn; [discriminate|].
  destruct (N.eqb x c); [discriminate|]. destruct (split_on c s); [congruence|discriminate].
Qed.

Lemma split_on_notin c s : ~ In c s -> split_on c s = [s].
Proof.
  induction s as [|x s IH]; cbn; [reflexivity|]. intros Hni.
  destruct (N.eqb_spec x c) as [->|Hx]; [tauto|]. rewrite IH by tauto. reflexivity.
Qed.

Lemma split_on_app c s t : ~ In c s -> split_on c (s ++ c :: t) = s :: split_on c t.
Proof.
  induction s as [|x s IH]; cbn; intros Hni.
  - now rewrite N.eqb_refl.
  - destruct (N.eqb_spec x c) as [->|Hx]; [tauto|]. rewrite IH by tauto. reflexivity.
Qed.

Lemma split_on_join c l :
  l <> [] -> Forall (fun s => ~ In c s) l -> split_on c (join [c] l) = l.
Proof.
  induction l as [|x l IH]; [congruence|]. intros _ Hf.
  inversion Hf as [|? ? Hx Hl]; subst. destruct l as [|y l].
  - cbn. now apply split_on_notin.
  - change (join [c] (x :: y :: l)) with (x ++ c :: join [c] (y :: l)).
    rewrite split_on_app by assumption. rewrite IH; [reflexivity|discriminate|assumption].
Qed.

Lemma join_split_on c s : join [c] (split_on c s) = s.
Proof.
  induction s as [|x s IH]; cbn; [reflexivity|].
  pose proof (split_on_nonempty c s) as Hne.
  destruct (N.eqb_spec x c) as [->|Hx].
  - destruct (split_on c s) as [|p ps]; [congruence|]. cbn [join]. cbn. f_equal. exact IH.
  - destruct (split_on c s) as [|p ps]; [congruence|].
    destruct ps as [|q ps]; cbn in IH |- *; now rewrite <- IH.
Qed.

Lemma split_on_notin_all c s : Forall (fun p => ~ In c p) (split_on c s).
Proof.
  induction s as [|x s IH]; cbn; [repeat constructor; tauto|].
  destruct (N.eqb_spec x c) as [->|Hx]; [constructor; [tauto|assumption]|].
  destruct (split_on c s) as [|p ps]; [repeat constructor; cbn; intuition congruence|].
  inversion IH as [|? ? Hp Hps]; subst. constructor; [|assumption].
  cbn. intuition congruence.
Qed.

Lemma split1_spec c s :
  match split1 c s with
  | (a, None) => s = a /\ ~ In c a
  | (a, Some b) => s = a ++ c :: b /\ ~ In c a
  end.
Proof.
  induction s as [|x s IH]; cbn; [tauto|].
  destruct (N.eqb_spec x c) as [->|Hx]; [cbn; tauto|].
  destruct (split1 c s) as [a [b|]]; destruct IH as [-> Hni]; cbn; intuition congruence.
Qed.

Lemma split1_app c a b : ~ In c a -> split1 c (a ++ c :: b) = (a, Some b).
Proof.
  induction a as [|x a IH]; cbn; intros Hni.
  - now rewrite N.eqb_refl.
  - destruct (N.eqb_spec x c) as [->|Hx]; [tauto|]. rewrite IH by tauto. reflexivity.
Qed.

Lemma split1_none c a : ~ In c a -> split1 c a = (a, None).
Proof.
  induction a as [|x a IH]; cbn; intros Hni; [reflexivity|].
  destruct (N.eqb_spec x c) as [->|Hx]; [tauto|]. rewrite IH by tauto. reflexivity.
Qed.

Lemma app_sep_inj (c : N) (a a' b b' : str) :
  ~ In c a -> ~ In c a' -> a ++ c :: b = a' ++ c :: b' -> a = a' /\ b = b'.
Proof.
  intros Ha Ha' E. pose proof (split1_app c a b Ha) as E1.
  rewrite E, split1_app in E1 by assumption. injection E1 as -> ->. auto.
Qed.

(** ** Hexadecimal *)

Definition hex_small (d : N) : Prop := (d < 16)%N.

Lemma sweep16 (P : N -> bool) :
  forallb P [0;1;2;3;4;5;6;7;8;9;10;11;12;13;14;15]%N = true ->
  forall d, (d < 16)%N -> P d = true.
Proof.
  intros Hf d Hd. rewrite forallb_forall in Hf. apply Hf.
  cbn [In]. lia.
Qed.

Lemma hex_val_char d : (d < 16)%N -> hex_val (hex_char d) = d.
Proof.
  intros Hd. apply N.eqb_eq. revert d Hd.
  apply (sweep16 (fun d => N.eqb (hex_val (hex_char d)) d)). reflexivity.
Qed.

Lemma hex_char_lhex d : (d < 16)%N -> is_lhex (hex_char d) = true.
Proof. revert d. apply (sweep16 (fun d => is_lhex (hex_char d))). reflexivity. Qed.

Lemma hex_val_lt c : is_hex c = true -> (hex_val c < 16)%N.
Proof.
  unfold is_hex, is_lhex, is_digit, hex_val, is_digit, in_range. intros Hc.
  repeat match goal with |- context [if ?b then _ else _] => destruct b eqn:? end; lia.
Qed.

Lemma is_lhex_is_hex c : is_lhex c = true -> is_hex c = true.
Proof. unfold is_hex. now intros ->. Qed.

Lemma hex_char_val c : is_lhex c = true -> hex_char (hex_val c) = c.
Proof.
  unfold is_lhex, hex_char, hex_val, is_digit, in_range. intros Hc.
  repeat match goal with |- context [if ?b then _ else _] => destruct b eqn:? end; lia.
Qed.

Definition hexv (a : N) (s : str) : N := fold_left (fun a c => (16 * a + hex_val c)%N) s a.

Lemma hexv_app a s t : hexv a (s ++ t) = hexv (hexv a s) t.
Proof. apply fold_left_app. Qed.

Lemma hexv_acc a s : hexv a s = (a * 16 ^ N.of_nat (length s) + hexv 0 s)%N.
Proof.
  revert a. induction s as [|c s IH]; intros a.
  - cbn [hexv fold_left length]. change (N.of_nat 0) with 0%N. rewrite N.pow_0_r. lia.
  - change (hexv a (c :: s)) with (hexv (16 * a + hex_val c) s).
    change (hexv 0 (c :: s)) with (hexv (16 * 0 + hex_val c) s).
    rewrite (IH (16 * a + hex_val c)%N), (IH (16 * 0 + hex_val c)%N).
    cbn [length]. rewrite Nat2N.inj_succ, N.pow_succ_r'.
    generalize (16 ^ N.of_nat (length s))%N (hexv 0 s). intros. nia.
Qed.

Lemma hex_digits_app f n acc : hex_digits f n acc = hex_digits f n [] ++ acc.
Proof.
  revert n acc. induction f as [|f IH]; intros n acc; cbn [hex_digits]; [reflexivity|].
  destruct (N.eqb (n / 16) 0); [reflexivity|].
  rewrite IH, (IH _ [_]). now rewrite <- app_assoc.
Qed.

Lemma hex_digits_value f n :
  (n < 16 ^ N.of_nat f)%N -> hexv 0 (hex_digits f n []) = n.
Proof.
  revert n. induction f as [|f IH]; intros n Hn.
  - change (N.of_nat 0) with 0%N in Hn. rewrite N.pow_0_r in Hn. cbn. lia.
  - cbn [hex_digits]. rewrite Nat2N.inj_succ, N.pow_succ_r' in Hn.
    pose proof (N.div_mod n 16 ltac:(lia)) as Hdm.
    pose proof (N.mod_lt n 16 ltac:(lia)) as Hm.
    destruct (N.eqb_spec (n / 16) 0) as [E|E].
    + unfold hexv. cbn [fold_left]. rewrite hex_val_char by assumption. lia.
    + rewrite hex_digits_app, hexv_app, IH.
      * unfold hexv. cbn [fold_left]. rewrite hex_val_char by assumption. lia.
      * apply N.div_lt_upper_bound; lia.
Qed.

Lemma hex_digits_lhex f n acc :
  forallb is_lhex acc = true -> forallb is_lhex (hex_digits f n acc) = true.
Proof.
  revert n acc. induction f as [|f IH]; intros n acc Ha; cbn [hex_digits]; [assumption|].
  assert (Hc : forallb is_lhex (hex_char (n mod 16) :: acc) = true).
  { cbn [forallb]. rewrite hex_char_lhex, Ha; [reflexivity|]. apply N.mod_lt. lia. }
  destruct (N.eqb (n / 16) 0); auto.
Qed.

Lemma hex_digits_length f n k :
  (0 < k)%nat -> (n < 16 ^ N.of_nat k)%N -> (length (hex_digits f n []) <= k)%nat.
Proof.
  revert n k. induction f as [|f IH]; intros n k Hk Hn; cbn [hex_digits]; [cbn; lia|].
  destruct (N.eqb_spec (n / 16) 0) as [E|E]; [cbn; lia|].
  rewrite hex_digits_app, app_length. cbn [length].
  destruct k as [|k]; [lia|]. rewrite Nat2N.inj_succ, N.pow_succ_r' in Hn.
  assert (Hd : (n / 16 < 16 ^ N.of_nat k)%N) by (apply N.div_lt_upper_bound; lia).
  destruct k as [|k].
  - change (N.of_nat 0) with 0%N in Hd. rewrite N.pow_0_r in Hd. lia.
  - specialize (IH (n / 16)%N (S k) ltac:(lia) Hd). lia.
Qed.

Lemma hex_digits_nonempty f n acc : hex_digits (S f) n acc <> [].
Proof.
  cbn [hex_digits]. destruct (N.eqb (n / 16) 0); [discriminate|].
  rewrite hex_digits_app. intros E. apply app_eq_nil in E as [_ E]. discriminate.
Qed.

Lemma hex_fuel n : (n < 16 ^ N.of_nat (S (N.to_nat (N.log2 n))))%N.
Proof.
  destruct (N.eq_dec n 0) as [->|Hn]; [cbn; lia|].
  pose proof (N.log2_spec n ltac:(lia)) as [_ Hlt].
  rewrite Nat2N.inj_succ, N2Nat.id.
  apply (N.lt_le_trans _ _ _ Hlt). apply N.pow_le_mono_l. lia.
Qed.

Lemma hex_value_hex n : hex_value (hex n) = n.
Proof. unfold hex_value, hex. apply hex_digits_value, hex_fuel. Qed.

Lemma hex_lhex n : forallb is_lhex (hex n) = true.
Proof. now apply hex_digits_lhex. Qed.

Lemma hexv_zeros k s : hexv 0 (repeat 48%N k ++ s) = hexv 0 s.
Proof. induction k as [|k IH]; [reflexivity|]. exact IH. Qed.

Lemma hex_value_hex_pad w n : hex_value (hex_pad w n) = n.
Proof.
  unfold hex_pad. change hex_value with (hexv 0). rewrite hexv_zeros. apply hex_value_hex.
Qed.

Lemma hex_pad_lhex w n : forallb is_lhex (hex_pad w n) = true.
Proof.
  unfold hex_pad. apply forallb_app'. split; [|apply hex_lhex].
  rewrite forallb_forall. intros c Hc. apply repeat_spec in Hc. now subst.
Qed.

Lemma hex_pad_length w n :
  (0 < w)%nat -> (n < 16 ^ N.of_nat w)%N -> length (hex_pad w n) = w.
Proof.
  intros Hw Hn. unfold hex_pad. rewrite app_length, repeat_length.
  pose proof (hex_digits_length (S (N.to_nat (N.log2 n))) n w Hw Hn). unfold hex. lia.
Qed.

Lemma hexv_lt s : forallb is_hex s = true -> (hexv 0 s < 16 ^ N.of_nat (length s))%N.
Proof.
  induction s as [|c s IH]; intros Hs.
  - cbn. lia.
  - cbn [forallb] in Hs. apply andb_true_iff in Hs as [Hc Hs]. apply IH in Hs.
    apply hex_val_lt in Hc.
    change (hexv 0 (c :: s)) with (hexv (16 * 0 + hex_val c) s). rewrite hexv_acc.
    cbn [length]. rewrite Nat2N.inj_succ, N.pow_succ_r'.
    revert Hs. generalize (16 ^ N.of_nat (length s))%N (hexv 0 s). intros. nia.
Qed.

Lemma hex_value_lt s : forallb is_hex s = true -> (hex_value s < 16 ^ N.of_nat (length s))%N.
Proof. apply hexv_lt. Qed.

(** Two strings of lower-case digits of one length with one value are equal. *)
Lemma hexv_inj s t :
  length s = length t -> forallb is_lhex s = true -> forallb is_lhex t = true ->
  hexv 0 s = hexv 0 t -> s = t.
Proof.
  revert t. induction s as [|c s IH]; intros [|d t] Hl Hs Ht E; try discriminate; [reflexivity|].
  cbn [forallb] in Hs, Ht. apply andb_true_iff in Hs as [Hc Hs], Ht as [Hd Ht].
  cbn [length] in Hl. injection Hl as Hl.
  change (hexv 0 (c :: s)) with (hexv (16 * 0 + hex_val c) s) in E.
  change (hexv 0 (d :: t)) with (hexv (16 * 0 + hex_val d) t) in E.
  rewrite hexv_acc, (hexv_acc _ t), <- Hl in E.
  assert (Hb : (hexv 0 s < 16 ^ N.of_nat (length s))%N).
  { apply hexv_lt. eapply forallb_impl; [|exact Hs]. apply is_lhex_is_hex. }
  assert (Hb' : (hexv 0 t < 16 ^ N.of_nat (length s))%N).
  { rewrite Hl. apply hexv_lt. eapply forallb_impl; [|exact Ht]. apply is_lhex_is_hex. }
  assert (Hv : hex_val c = hex_val d /\ hexv 0 s = hexv 0 t).
  { revert E Hb Hb'. generalize (16 ^ N.of_nat (length s))%N (hexv 0 s) (hexv 0 t).
    intros m x y E Hx Hy. assert (hex_val c = hex_val d) by nia. split; nia. }
  destruct Hv as [Hv Hst]. f_equal.
  - rewrite <- (hex_char_val c), <- (hex_char_val d) by assumption. now rewrite Hv.
  - now apply IH.
Qed.

Lemma hex_pad_value w s :
  (0 < w)%nat -> length s = w -> forallb is_lhex s = true -> hex_pad w (hex_value s) = s.
Proof.
  intros Hw Hl Hs.
  assert (Hlt : (hex_value s < 16 ^ N.of_nat w)%N).
  { rewrite <- Hl. apply hexv_lt. eapply forallb_impl; [|exact Hs]. apply is_lhex_is_hex. }
  apply hexv_inj.
  - rewrite hex_pad_length; auto.
  - apply hex_pad_lhex.
  - assumption.
  - exact (hex_value_hex_pad w (hex_value s)).
Qed.

Lemma hex_value_zero s :
  forallb is_lhex s = true -> (hex_value s = 0%N <-> s = repeat 48%N (length s)).
Proof.
  intros Hs. split; intros E.
  - apply hexv_inj; auto.
    + now rewrite repeat_length.
    + rewrite forallb_forall. intros c Hc. apply repeat_spec in Hc. now subst.
    + change (hexv 0 s = 0%N) in E. rewrite E.
      rewrite <- (app_nil_r (repeat _ _)), hexv_zeros. reflexivity.
  - rewrite E. change (hexv 0 (repeat 48%N (length s)) = 0%N).
    rewrite <- (app_nil_r (repeat _ _)), hexv_zeros. reflexivity.
Qed.
