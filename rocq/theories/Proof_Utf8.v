(** Proofs about reading percent-encoded texts. *)
From Verif Require Export Spec_Utf8 Proof_Url.
Local Open Scope N_scope.
Ltac Zify.zify_post_hook ::= Z.div_mod_to_equations.

Lemma form2 b1 b2 c : 194 <= b1 <= 223 -> continuation b2 -> c = 64 * (b1 - 192) + (b2 - 128) -> utf8_form [b1; b2] c.
Proof. intros ? ? ->. constructor; assumption. Qed.
Lemma form3 b1 b2 b3 c : 224 <= b1 <= 239 -> continuation b2 -> continuation b3 -> (b1 = 224 -> 160 <= b2) -> (b1 = 237 -> b2 <= 159) ->
  c = 64 * 64 * (b1 - 224) + 64 * (b2 - 128) + (b3 - 128) -> utf8_form [b1; b2; b3] c.
Proof. intros ? ? ? ? ? ->. constructor; assumption. Qed.
Lemma form4 b1 b2 b3 b4 c : 240 <= b1 <= 244 -> continuation b2 -> continuation b3 -> continuation b4 -> (b1 = 240 -> 144 <= b2) -> (b1 = 244 -> b2 <= 143) ->
  c = 64 * 64 * 64 * (b1 - 240) + 64 * 64 * (b2 - 128) + 64 * (b3 - 128) + (b4 - 128) -> utf8_form [b1; b2; b3; b4] c.
Proof. intros ? ? ? ? ? ? ->. constructor; assumption. Qed.
Lemma some_eq {A} (a b : A) : Some a = Some b -> a = b. Proof. congruence. Qed.
Lemma utf8_char_form c bs : utf8_char c = Some bs <-> utf8_form bs c.
Proof.
  split.
  - unfold utf8_char. destruct (N.ltb_spec c 128); [intros E; apply some_eq in E; subst bs; constructor; assumption|].
    destruct (N.ltb_spec c 2048); [intros E; apply some_eq in E; subst bs; apply form2; unfold continuation; lia|].
    destruct (is_surrogate c) eqn:S; [discriminate|]. unfold is_surrogate, in_range in S.
    destruct (N.ltb_spec c 65536); [intros E; apply some_eq in E; subst bs; apply form3; unfold continuation; lia|].
    destruct (N.leb_spec c 1114111); [|discriminate]. intros E; apply some_eq in E; subst bs. apply form4; unfold continuation; lia.
  - intros H. unfold utf8_char, is_surrogate, in_range. destruct H as [b H|b1 b2 H C2|b1 b2 b3 H C2 C3 X Y|b1 b2 b3 b4 H C2 C3 C4 X Y]; unfold continuation in *.
    + destruct (N.ltb_spec b 128); [reflexivity|lia].
    + set (c := 64 * (b1 - 192) + (b2 - 128)). assert (128 <= c < 2048) by (unfold c; lia).
      replace (c <? 128) with false by lia. replace (c <? 2048) with true by lia.
      repeat f_equal; unfold c; lia.
    + set (c := 64 * 64 * (b1 - 224) + 64 * (b2 - 128) + (b3 - 128)).
      assert (2048 <= c < 65536 /\ ~ (55296 <= c <= 57343)) by (unfold c; lia).
      replace (c <? 128) with false by lia. replace (c <? 2048) with false by lia. replace ((55296 <=? c) && (c <=? 57343))%bool with false by lia.
      replace (c <? 65536) with true by lia. f_equal. repeat f_equal; unfold c; lia.
    + set (c := 64 * 64 * 64 * (b1 - 240) + 64 * 64 * (b2 - 128) + 64 * (b3 - 128) + (b4 - 128)).
      assert (65536 <= c <= 1114111) by (unfold c; lia).
      replace (c <? 128) with false by lia. replace (c <? 2048) with false by lia. replace ((55296 <=? c) && (c <=? 57343))%bool with false by lia.
      replace (c <? 65536) with false by lia. replace (c <=? 1114111) with true by lia. repeat f_equal; unfold c; lia.
Qed.

(** ** Beginnings of characters *)
Definition second (b1 b2 : N) : Prop := continuation b2 /\ (b1 = 224 -> 160 <= b2) /\ (b1 = 237 -> b2 <= 159) /\ (b1 = 240 -> 144 <= b2) /\ (b1 = 244 -> b2 <= 143).
Definition shape (p : list N) : Prop :=
  match p with
  | [b1] => 194 <= b1 <= 244
  | [b1; b2] => 224 <= b1 <= 244 /\ second b1 b2
  | [b1; b2; b3] => 240 <= b1 <= 244 /\ second b1 b2 /\ continuation b3
  | _ => False
  end.
Definition whole (p : list N) : Prop :=
  match p with
  | [b] => b < 128
  | [b1; b2] => 194 <= b1 <= 223 /\ second b1 b2
  | [b1; b2; b3] => 224 <= b1 <= 239 /\ second b1 b2 /\ continuation b3
  | [b1; b2; b3; b4] => 240 <= b1 <= 244 /\ second b1 b2 /\ continuation b3 /\ continuation b4
  | _ => False
  end.
Lemma whole_char p : is_char p <-> whole p.
Proof.
  split.
  - intros [c H]. destruct H; unfold whole, second, continuation in *; repeat split; lia.
  - destruct p as [|b1 [|b2 [|b3 [|b4 [|b5 p]]]]]; cbn [whole]; unfold second; try contradiction.
    + intros H. exists b1. constructor. exact H.
    + intros [H S]. eexists. apply uf2; [exact H|apply S].
    + intros (H & (S1 & S2 & S3 & _ & _) & S4). eexists. apply uf3; assumption.
    + intros (H & (S1 & _ & _ & S2 & S3) & S4 & S5). eexists. apply uf4; assumption.
Qed.
Lemma shape_begins p : begins p <-> shape p.
Proof.
  split.
  - intros (N0 & q & Nq & H). apply whole_char in H.
    destruct p as [|b1 [|b2 [|b3 [|b4 p]]]]; [congruence| | | |]; destruct q as [|c1 [|c2 [|c3 [|c4 q]]]]; try congruence; cbn in H; try contradiction;
      cbn [shape]; unfold second, continuation in *; repeat split; try lia; destruct p; try contradiction.
  - destruct p as [|b1 [|b2 [|b3 [|b4 p]]]]; cbn [shape]; try contradiction; intros H; (split; [discriminate|]).
    + destruct (N.le_gt_cases b1 223) as [L|L]; [|destruct (N.le_gt_cases b1 239)].
      * exists [128]. split; [discriminate|]. apply whole_char. cbn. unfold second, continuation. lia.
      * exists [if N.eqb b1 224 then 160 else 128; 128]. split; [discriminate|]. apply whole_char. cbn. unfold second, continuation. destruct (N.eqb_spec b1 224); lia.
      * exists [if N.eqb b1 240 then 144 else 128; 128; 128]. split; [discriminate|]. apply whole_char. cbn. unfold second, continuation. destruct (N.eqb_spec b1 240); lia.
    + destruct H as [H S]. destruct (N.le_gt_cases b1 239).
      * exists [128]. split; [discriminate|]. apply whole_char. cbn. unfold continuation. repeat split; try apply S; lia.
      * exists [128; 128]. split; [discriminate|]. apply whole_char. cbn. unfold continuation. repeat split; try apply S; lia.
    + destruct H as (H & S & C). exists [128]. split; [discriminate|]. apply whole_char. cbn. unfold continuation in *. repeat split; try apply S; try lia.
Qed.
Lemma dec_second b1 b2 : {second b1 b2} + {~ second b1 b2}.
Proof.
  destruct ((128 <=? b2) && (b2 <=? 191) && (negb (b1 =? 224) || (160 <=? b2)) && (negb (b1 =? 237) || (b2 <=? 159)) && (negb (b1 =? 240) || (144 <=? b2)) && (negb (b1 =? 244) || (b2 <=? 143)))%bool eqn:E;
    [left|right]; unfold second, continuation; lia.
Qed.
Lemma dec_range a b x : {a <= x <= b} + {~ (a <= x <= b)}.
Proof. destruct ((a <=? x) && (x <=? b))%bool eqn:E; [left|right]; lia. Qed.
Lemma dec_shape p : {shape p} + {~ shape p}.
Proof.
  destruct p as [|b1 [|b2 [|b3 [|b4 p]]]]; cbn [shape]; try (right; tauto); [apply dec_range| |].
  - destruct (dec_range 224 244 b1), (dec_second b1 b2); [left|right|right|right]; tauto.
  - destruct (dec_range 240 244 b1), (dec_second b1 b2), (dec_range 128 191 b3); unfold continuation; (left; tauto) || (right; tauto).
Qed.
Lemma dec_whole p : {whole p} + {~ whole p}.
Proof.
  destruct p as [|b1 [|b2 [|b3 [|b4 [|b5 p]]]]]; cbn [whole]; try (right; tauto).
  - destruct (N.ltb b1 128) eqn:E; [left|right]; lia.
  - destruct (dec_range 194 223 b1), (dec_second b1 b2); (left; tauto) || (right; tauto).
  - destruct (dec_range 224 239 b1), (dec_second b1 b2), (dec_range 128 191 b3); unfold continuation; (left; tauto) || (right; tauto).
  - destruct (dec_range 240 244 b1), (dec_second b1 b2), (dec_range 128 191 b3), (dec_range 128 191 b4); unfold continuation; (left; tauto) || (right; tauto).
Qed.

(** ** The decoder *)
Lemma form_decode bs c rest : utf8_form bs c -> utf8_decode DStart (bs ++ rest) = c :: utf8_decode DStart rest.
Proof.
  intros H. apply utf8_char_form in H. destruct (utf8_char_ok c (utf8_char_some _ _ H)) as (bs' & E & _ & D). assert (bs = bs') by congruence. subst. apply D.
Qed.
Definition lead_state (b1 : N) : dstate :=
  if b1 <=? 223 then DCont 1 128 191 (b1 - 192) else if b1 =? 224 then DCont 2 160 191 0 else if b1 =? 237 then DCont 2 128 159 13
  else if b1 <=? 239 then DCont 2 128 191 (b1 - 224) else if b1 =? 240 then DCont 3 144 191 0 else if b1 =? 244 then DCont 3 128 143 4 else DCont 3 128 191 (b1 - 240).
Lemma lead_begins b1 : 194 <= b1 <= 244 -> utf8_lead b1 = inr (lead_state b1).
Proof.
  intros H. unfold utf8_lead, lead_state, in_range.
  replace (b1 <? 128) with false by lia.
  destruct (N.leb_spec b1 223).
  { replace ((194 <=? b1) && true)%bool with true by lia. reflexivity. }
  replace ((194 <=? b1) && false)%bool with false by lia.
  destruct (N.eqb_spec b1 224); [reflexivity|]. destruct (N.eqb_spec b1 237); [reflexivity|].
  destruct (N.leb_spec b1 239); [replace ((225 <=? b1) && true)%bool with true by lia; reflexivity|].
  replace ((225 <=? b1) && false)%bool with false by lia. destruct (N.eqb_spec b1 240); [reflexivity|].
  destruct (N.eqb_spec b1 244); [replace ((241 <=? b1) && (b1 <=? 243))%bool with false by lia; reflexivity|].
  replace ((241 <=? b1) && (b1 <=? 243))%bool with true by lia. reflexivity.
Qed.
Lemma decode_lead b1 rest : 194 <= b1 <= 244 -> utf8_decode DStart (b1 :: rest) = utf8_decode (lead_state b1) rest.
Proof. intros H. cbn [utf8_decode]. rewrite lead_begins by exact H. reflexivity. Qed.
Lemma decode_cont need lo hi acc b rest : in_range lo hi b = true ->
  utf8_decode (DCont (S (S need)) lo hi acc) (b :: rest) = utf8_decode (DCont (S need) 128 191 (acc * 64 + (b - 128))) rest.
Proof. intros H. cbn [utf8_decode]. rewrite H. reflexivity. Qed.
Lemma shape_state p : shape p -> exists need lo hi acc, (forall rest, utf8_decode DStart (p ++ rest) = utf8_decode (DCont need lo hi acc) rest) /\
  forall b, in_range lo hi b = true -> shape (p ++ [b]) \/ whole (p ++ [b]).
Proof.
  destruct p as [|b1 [|b2 [|b3 [|b4 p]]]]; cbn [shape]; try contradiction; intros H.
  - assert (E : forall rest, utf8_decode DStart ([b1] ++ rest) = utf8_decode (lead_state b1) rest) by (intros; apply decode_lead, H).
    revert E. unfold lead_state.
    destruct (N.leb_spec b1 223); [|destruct (N.eqb_spec b1 224); [|destruct (N.eqb_spec b1 237); [|destruct (N.leb_spec b1 239); [|destruct (N.eqb_spec b1 240); [|destruct (N.eqb_spec b1 244)]]]]];
      intros E; do 4 eexists; (split; [exact E|]); intros b R; unfold in_range in R; cbn [app shape whole]; unfold second, continuation; lia.
  - destruct H as [H S].
    assert (E : exists lo hi need acc, lead_state b1 = DCont (Datatypes.S (Datatypes.S need)) lo hi acc /\ in_range lo hi b2 = true /\ ((need = 0%nat /\ b1 <= 239) \/ (need = 1%nat /\ 240 <= b1))).
    { unfold lead_state. unfold second, continuation in S.
      destruct (N.leb_spec b1 223); [lia|]. destruct (N.eqb_spec b1 224); [|destruct (N.eqb_spec b1 237); [|destruct (N.leb_spec b1 239); [|destruct (N.eqb_spec b1 240); [|destruct (N.eqb_spec b1 244)]]]];
      do 4 eexists; (split; [reflexivity|]); unfold in_range; (split; [lia|]); ((left; split; [reflexivity|lia]) || (right; split; [reflexivity|lia])). }
    destruct E as (lo & hi & need & acc & E & R & X). do 4 eexists. split.
    + intros rest. cbn [app]. rewrite decode_lead by lia. rewrite E. apply decode_cont, R.
    + intros b Rb. cbn [app shape whole]. unfold in_range in Rb. unfold continuation. destruct X as [[_ X]|[_ X]]; [right|left]; (split; [lia|]); (split; [exact S|lia]).
  - destruct H as (H & S & C).
    assert (E : exists lo hi acc, lead_state b1 = DCont 3 lo hi acc /\ in_range lo hi b2 = true).
    { unfold lead_state. unfold second, continuation in S.
      destruct (N.leb_spec b1 223); [lia|]. destruct (N.eqb_spec b1 224); [lia|]. destruct (N.eqb_spec b1 237); [lia|]. destruct (N.leb_spec b1 239); [lia|].
      destruct (N.eqb_spec b1 240); [|destruct (N.eqb_spec b1 244)]; do 3 eexists; (split; [reflexivity|]); unfold in_range; lia. }
    destruct E as (lo & hi & acc & E & R). do 4 eexists. split.
    + intros rest. cbn [app]. rewrite decode_lead by lia. rewrite E. rewrite decode_cont by exact R. apply decode_cont. unfold in_range. unfold continuation in C. lia.
    + intros b Rb. right. cbn [app whole]. unfold in_range in Rb. unfold continuation in *. split; [exact H|]. split; [exact S|]. split; lia.
Qed.
Lemma decoded_is bs t : decoded bs t -> decode_replace bs = t.
Proof.
  unfold decode_replace. induction 1 as [|bs c rest t F D IH|p rest t B Hr D IH|b rest t B W D IH].
  - reflexivity.
  - rewrite (form_decode _ _ _ F), IH. reflexivity.
  - apply shape_begins in B. destruct (shape_state p B) as (need & lo & hi & acc & E & G). rewrite E.
    destruct rest as [|b rest]; [cbn [utf8_decode]; rewrite <- IH; reflexivity|]. destruct Hr as [H1 H2].
    assert (R : in_range lo hi b = false).
    { destruct (in_range lo hi b) eqn:R; [|reflexivity]. destruct (G b R) as [X|X]; [destruct H1; apply shape_begins, X|destruct H2; apply whole_char, X]. }
    rewrite <- IH. cbn [utf8_decode]. rewrite R. destruct (utf8_lead b); reflexivity.
  - cbn [utf8_decode]. assert (L : utf8_lead b = inl 65533).
    { rewrite shape_begins in B. rewrite whole_char in W. cbn in B, W. unfold utf8_lead, in_range. replace (b <? 128) with false by lia.
      replace ((194 <=? b) && (b <=? 223))%bool with false by lia. replace (b =? 224) with false by lia. replace (b =? 237) with false by lia.
      replace ((225 <=? b) && (b <=? 239))%bool with false by lia. replace (b =? 240) with false by lia. replace ((241 <=? b) && (b <=? 243))%bool with false by lia.
      replace (b =? 244) with false by lia. reflexivity. }
    rewrite L, IH. reflexivity.
Qed.
Lemma greedy rest : forall p, shape p -> exists p' rest', p ++ rest = p' ++ rest' /\ p' <> [] /\ (length rest' <= length rest)%nat /\
  ((shape p' /\ match rest' with [] => True | b :: _ => ~ shape (p' ++ [b]) /\ ~ whole (p' ++ [b]) end) \/ whole p').
Proof.
  induction rest as [|b rest IH]; intros p S.
  - exists p, []. split; [reflexivity|]. split; [destruct p; [destruct S|discriminate]|]. split; [lia|]. left. auto.
  - destruct (dec_shape (p ++ [b])) as [Y|Y].
    + destruct (IH (p ++ [b]) Y) as (p' & rest' & E & Np & L & Z). exists p', rest'. rewrite <- app_assoc in E. split; [exact E|]. split; [exact Np|]. split; [cbn; lia|exact Z].
    + destruct (dec_whole (p ++ [b])) as [W|W].
      * exists (p ++ [b]), rest. rewrite <- app_assoc. split; [reflexivity|]. split; [destruct p; discriminate|]. split; [cbn; lia|]. right. exact W.
      * exists p, (b :: rest). split; [reflexivity|]. split; [destruct p; [destruct S|discriminate]|]. split; [lia|]. left. auto.
Qed.
Lemma decoded_total bs : exists t, decoded bs t.
Proof.
  remember (length bs) as n eqn:En. assert (L : (length bs <= n)%nat) by lia. clear En. revert bs L.
  induction n as [|n IH]; intros bs L; [destruct bs; [exists []; constructor|cbn in L; lia]|].
  destruct bs as [|b rest]; [exists []; constructor|]. cbn in L.
  destruct (dec_whole [b]) as [W|W].
  { apply whole_char in W. destruct W as [c W]. destruct (IH rest) as [t T]; [lia|]. exists (c :: t). apply (dc_char [b]); assumption. }
  destruct (dec_shape [b]) as [Sh|Sh].
  - destruct (greedy rest [b] Sh) as (p' & rest' & E & Np & Le & Z). cbn [app] in E. rewrite E. destruct (IH rest') as [t T]; [lia|].
    destruct Z as [[Z1 Z2]|Z].
    + exists (65533 :: t). apply dc_cut; [apply shape_begins, Z1| |exact T]. destruct rest'; [exact I|]. rewrite shape_begins, whole_char. exact Z2.
    + apply whole_char in Z. destruct Z as [c Z]. exists (c :: t). apply dc_char; assumption.
  - destruct (IH rest) as [t T]; [lia|]. exists (65533 :: t). apply dc_bad; [rewrite shape_begins; exact Sh|rewrite whole_char; exact W|exact T].
Qed.
Theorem decoded_iff bs t : decoded bs t <-> decode_replace bs = t.
Proof. split; [apply decoded_is|]. intros <-. destruct (decoded_total bs) as [t T]. rewrite (decoded_is _ _ T). exact T. Qed.

(** ** Escapes *)
Lemma hex_numeral_iff c : (exists v, hex_numeral_value c v) <-> is_hex c = true.
Proof.
  unfold hex_numeral_value, is_hex, is_lhex, is_digit, in_range. split.
  - intros [v [[H _]|[[H _]|[H _]]]]; lia.
  - intros H. destruct (N.le_gt_cases c 57); [exists (c - 48)|destruct (N.le_gt_cases c 70); [exists (c - 55)|exists (c - 87)]]; lia.
Qed.
Lemma hex_numeral_val c v : hex_numeral_value c v -> hex_val c = v.
Proof. unfold hex_numeral_value, hex_val. intros [[H ->]|[[H ->]|[H ->]]]; unfold is_digit, is_lower, in_range in *; repeat match goal with |- context [if ?b then _ else _] => destruct b eqn:? end; lia. Qed.
Lemma unescaped_is s bs : unescaped s bs -> unquote_bytes s = bs.
Proof.
  induction 1 as [|a b va vb s bs Ha Hb U IH|c s bs Hc U IH].
  - reflexivity.
  - cbn [unquote_bytes]. change (chr "%" =? 37) with true. cbn iota. assert (is_hex a = true) as -> by (apply hex_numeral_iff; eauto).
    assert (is_hex b = true) as -> by (apply hex_numeral_iff; eauto). cbn [andb]. rewrite (hex_numeral_val _ _ Ha), (hex_numeral_val _ _ Hb), IH. reflexivity.
  - cbn [unquote_bytes]. destruct (N.eqb_spec c 37) as [->|]; [|rewrite IH; reflexivity]. destruct s as [|a [|b s]]; [rewrite IH; reflexivity|rewrite IH; reflexivity|].
    destruct (is_hex a) eqn:Ea, (is_hex b) eqn:Eb; cbn [andb]; try (rewrite IH; reflexivity).
    apply hex_numeral_iff in Ea, Eb. destruct Ea as [va Va], Eb as [vb Vb]. destruct (Hc eq_refl a b s va vb eq_refl). auto.
Qed.
Lemma unescaped_total s : exists bs, unescaped s bs.
Proof.
  remember (length s) as n eqn:En. assert (L : (length s <= n)%nat) by lia. clear En. revert s L.
  induction n as [|n IH]; intros s L; [destruct s; [exists []; constructor|cbn in L; lia]|].
  destruct s as [|c s]; [exists []; constructor|]. cbn in L. destruct (IH s) as [bs U]; [lia|].
  destruct (N.eq_dec c 37) as [->|Nc]; [|exists (c :: bs); apply ue_other; [intros E; destruct (Nc E)|exact U]].
  destruct s as [|a [|b s]]; try (exists (37 :: bs); apply ue_other; [intros _ ? ? ? ? ? H; discriminate H|exact U]).
  destruct (is_hex a && is_hex b)%bool eqn:E.
  - apply andb_prop in E. destruct E as [Ea Eb]. apply hex_numeral_iff in Ea, Eb. destruct Ea as [va Va], Eb as [vb Vb].
    destruct (IH s) as [bs' U']; [cbn in L; lia|]. eexists. apply (ue_percent a b va vb s bs'); assumption.
  - exists (37 :: bs). apply ue_other; [|exact U]. intros _ a' b' s' va vb [= <- <- <-] [H1 H2].
    assert (is_hex a = true) by (apply hex_numeral_iff; eauto). assert (is_hex b = true) by (apply hex_numeral_iff; eauto). rewrite H, H0 in E. discriminate.
Qed.
Lemma unquote_runs_app r : forall run s, Forall (fun c => c < 128) r -> unquote_runs run (r ++ s) = unquote_runs (rev r ++ run) s.
Proof.
  induction r as [|c r IH]; intros run s H; [reflexivity|]. inversion H; subst. cbn [app unquote_runs]. replace (c <? 128) with true by lia.
  rewrite IH by assumption. cbn [rev]. rewrite <- app_assoc. reflexivity.
Qed.
Lemma text_read_is s t : text_read s t -> unquote s = t.
Proof.
  unfold unquote. induction 1 as [|c s t Hc T IH|r s bs t u Nr Hr Hs U D T IH].
  - reflexivity.
  - cbn [unquote_runs]. replace (c <? 128) with false by lia. cbn. rewrite IH. reflexivity.
  - rewrite unquote_runs_app by exact Hr. rewrite app_nil_r. apply unescaped_is in U. apply decoded_is in D. destruct s as [|c s].
    + cbn [unquote_runs]. rewrite rev_involutive, U, D. inversion T; subst; [rewrite app_nil_r; reflexivity|]. destruct r0; [congruence|discriminate].
    + cbn [unquote_runs]. cbn [unquote_runs] in IH. replace (c <? 128) with false in * by lia. cbn in IH. rewrite rev_involutive, U, D, IH. reflexivity.
Qed.
Lemma take_run s : exists r s', s = r ++ s' /\ Forall (fun c => c < 128) r /\ match s' with [] => True | c :: _ => 128 <= c end.
Proof.
  induction s as [|c s (r & s' & -> & F & H)]; [exists [], []; auto|]. destruct (N.le_gt_cases 128 c) as [L|L].
  - exists [], (c :: r ++ s'). auto.
  - exists (c :: r), s'. split; [reflexivity|]. split; [constructor; assumption|exact H].
Qed.
Lemma text_read_total s : exists t, text_read s t.
Proof.
  remember (length s) as n eqn:En. assert (L : (length s <= n)%nat) by lia. clear En. revert s L.
  induction n as [|n IH]; intros s L; [destruct s; [exists []; constructor|cbn in L; lia]|].
  destruct (take_run s) as (r & s' & -> & F & H). destruct r as [|c r].
  - destruct s' as [|c s']; [exists []; constructor|]. destruct (IH s') as [t T]; [cbn in L; lia|]. exists (c :: t). apply tr_wide; assumption.
  - destruct (unescaped_total (c :: r)) as [bs U]. destruct (decoded_total bs) as [t D]. destruct (IH s') as [u T]; [cbn in L; rewrite app_length in L; lia|].
    exists (t ++ u). apply (tr_run (c :: r) s' bs); try assumption. discriminate.
Qed.
Theorem text_read_iff s t : text_read s t <-> unquote s = t.
Proof. split; [apply text_read_is|]. intros <-. destruct (text_read_total s) as [t T]. rewrite (text_read_is _ _ T). exact T. Qed.
Theorem text_read_plus s t : text_read (plus_is_blank s) t <-> unquote_plus s = t.
Proof.
  rewrite text_read_iff. unfold unquote_plus, plus_is_blank. replace (map _ s) with (map (fun c => if N.eqb c 43 then 32 else c) s); [reflexivity|].
  apply map_ext. intros c. change (chr "+") with 43. change (chr " ") with 32. destruct (N.eqb_spec c 43), (N.eq_dec c 43); congruence.
Qed.

Lemma utf8_text_iff s : forall b, utf8_text s b <-> utf8_encode s = Some b.
Proof.
  unfold utf8_text. induction s as [|c s IH]; intros b; cbn [utf8_encode]; split.
  - intros (ps & F & ->). inversion F; subst. reflexivity.
  - intros E. apply some_eq in E. subst b. exists []. split; [constructor|reflexivity].
  - intros (ps & F & ->). inversion F as [|? p ? qs Hc Hs]; subst. apply utf8_char_form in Hc. rewrite Hc.
    assert (E : utf8_encode s = Some (concat qs)) by (apply IH; eauto). rewrite E. reflexivity.
  - destruct (utf8_char c) as [p|] eqn:Ec; [|discriminate]. destruct (utf8_encode s) as [r|] eqn:Es; [|discriminate].
    intros E. apply some_eq in E. subst b. destruct (proj2 (IH r) eq_refl) as (ps & F & ->). exists (p :: ps).
    split; [constructor; [apply utf8_char_form, Ec|exact F]|reflexivity].
Qed.
