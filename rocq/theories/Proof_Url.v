From Verif Require Export Model_Url Spec_Context Proof_Str.
Ltac Zify.zify_post_hook ::= Z.div_mod_to_equations.

Definition ok_char (c : N) : Prop := (c <= 1114111)%N /\ ~ (55296 <= c <= 57343)%N.

Lemma utf8_char_ok c : ok_char c -> exists bs, utf8_char c = Some bs
  /\ Forall (fun b => (b < 256)%N) bs
  /\ forall rest, utf8_decode DStart (bs ++ rest) = c :: utf8_decode DStart rest.
Proof.
  intros [Hle Hns]. unfold utf8_char.
  destruct (N.ltb_spec c 128) as [H1|H1].
  { exists [c]. split; [reflexivity|]. split; [repeat constructor; lia|]. intros rest.
    cbn [app utf8_decode]. unfold utf8_lead. destruct (N.ltb_spec c 128); [reflexivity|lia]. }
  destruct (N.ltb_spec c 2048) as [H2|H2].
  { eexists. split; [reflexivity|]. split; [repeat constructor; lia|]. intros rest.
    cbn [app utf8_decode]. unfold utf8_lead.
    assert (E1 : N.ltb (192 + c / 64) 128 = false) by lia.
    assert (E2 : in_range 194 223 (192 + c / 64) = true) by (apply in_range_iff; lia).
    assert (E3 : in_range 128 191 (128 + c mod 64) = true) by (apply in_range_iff; lia).
    rewrite E1, E2. cbn [app utf8_decode]. rewrite E3. f_equal. lia. }
  assert (Hsur : is_surrogate c = false).
  { unfold is_surrogate, in_range. lia. }
  rewrite Hsur.
  destruct (N.ltb_spec c 65536) as [H3|H3].
  { eexists. split; [reflexivity|]. split; [repeat constructor; lia|]. intros rest.
    cbn [app utf8_decode]. unfold utf8_lead.
    assert (E1 : N.ltb (224 + c / 4096) 128 = false) by lia.
    assert (E2 : in_range 194 223 (224 + c / 4096) = false) by (unfold in_range; lia).
    assert (E5 : in_range 128 191 (128 + c mod 64) = true) by (apply in_range_iff; lia).
    rewrite E1, E2.
    destruct (N.eqb_spec (224 + c / 4096) 224) as [H4|H4].
    { assert (E3 : in_range 160 191 (128 + (c / 64) mod 64) = true) by (apply in_range_iff; lia).
      cbn [app utf8_decode]. rewrite E3. cbn [app utf8_decode]. rewrite E5. f_equal. lia. }
    destruct (N.eqb_spec (224 + c / 4096) 237) as [H5|H5].
    { assert (E3 : in_range 128 159 (128 + (c / 64) mod 64) = true) by (apply in_range_iff; lia).
      cbn [app utf8_decode]. rewrite E3. cbn [app utf8_decode]. rewrite E5. f_equal. lia. }
    assert (E3 : in_range 225 239 (224 + c / 4096) = true) by (apply in_range_iff; lia).
    assert (E4 : in_range 128 191 (128 + (c / 64) mod 64) = true) by (apply in_range_iff; lia).
    rewrite E3. cbn [app utf8_decode]. rewrite E4. cbn [app utf8_decode]. rewrite E5. f_equal. lia. }
  destruct (N.leb_spec c 1114111) as [H4|H4]; [|lia].
  eexists. split; [reflexivity|]. split; [repeat constructor; lia|]. intros rest.
  cbn [app utf8_decode]. unfold utf8_lead.
  assert (E1 : N.ltb (240 + c / 262144) 128 = false) by lia.
  assert (E2 : in_range 194 223 (240 + c / 262144) = false) by (unfold in_range; lia).
  assert (E3 : N.eqb (240 + c / 262144) 224 = false) by lia.
  assert (E4 : N.eqb (240 + c / 262144) 237 = false) by lia.
  assert (E5 : in_range 225 239 (240 + c / 262144) = false) by (unfold in_range; lia).
  assert (E6 : in_range 128 191 (128 + (c / 64) mod 64) = true) by (apply in_range_iff; lia).
  assert (E7 : in_range 128 191 (128 + c mod 64) = true) by (apply in_range_iff; lia).
  rewrite E1, E2, E3, E4, E5.
  destruct (N.eqb_spec (240 + c / 262144) 240) as [H5|H5].
  { assert (E8 : in_range 144 191 (128 + (c / 4096) mod 64) = true) by (apply in_range_iff; lia).
    cbn [app utf8_decode]. rewrite E8. cbn [app utf8_decode]. rewrite E6.
    cbn [app utf8_decode]. rewrite E7. f_equal. lia. }
  destruct (in_range 241 243 (240 + c / 262144)) eqn:H6.
  { assert (E8 : in_range 128 191 (128 + (c / 4096) mod 64) = true) by (apply in_range_iff; lia).
    cbn [app utf8_decode]. rewrite E8. cbn [app utf8_decode]. rewrite E6.
    cbn [app utf8_decode]. rewrite E7. f_equal. lia. }
  assert (H7 : N.eqb (240 + c / 262144) 244 = true).
  { unfold in_range in H6. lia. }
  rewrite H7.
  assert (E8 : in_range 128 143 (128 + (c / 4096) mod 64) = true) by (apply in_range_iff; lia).
  cbn [app utf8_decode]. rewrite E8. cbn [app utf8_decode]. rewrite E6.
  cbn [app utf8_decode]. rewrite E7. f_equal. lia.
Qed.

Lemma utf8_round_trip s : unicode_text s -> exists bs, utf8_encode s = Some bs
  /\ Forall (fun b => (b < 256)%N) bs /\ decode_replace bs = s.
Proof.
  induction s as [|c s IH]; intros Hs.
  - exists []. repeat split. constructor.
  - inversion Hs as [|? ? Hc Hs']; subst. destruct (IH Hs') as (bs & E & Hb & Hd).
    destruct (utf8_char_ok c Hc) as (b & Ec & Hbb & Hdd).
    exists (b ++ bs). cbn [utf8_encode]. rewrite Ec, E. split; [reflexivity|]. split.
    + apply Forall_app. auto.
    + unfold decode_replace in *. rewrite Hdd. now rewrite Hd.
Qed.

(** Encoding fails exactly outside Unicode text. *)
Lemma utf8_char_some c bs : utf8_char c = Some bs -> ok_char c.
Proof.
  unfold utf8_char, ok_char, is_surrogate, in_range.
  destruct (N.ltb_spec c 128); [intros _; lia|].
  destruct (N.ltb_spec c 2048); [intros _; lia|].
  destruct (_ && _)%bool eqn:E; [discriminate|].
  destruct (N.ltb_spec c 65536); [intros _; lia|].
  destruct (N.leb_spec c 1114111); [intros _; lia|discriminate].
Qed.
Lemma utf8_encode_some s bs : utf8_encode s = Some bs -> unicode_text s.
Proof.
  revert bs. induction s as [|c s IH]; intros bs E; [constructor|].
  cbn in E. destruct (utf8_char c) eqn:Ec; [|discriminate].
  destruct (utf8_encode s) eqn:Es; [|discriminate].
  constructor; [eapply utf8_char_some; eauto|eapply IH; eauto].
Qed.

(** ** Percent encoding *)
Lemma upper_hex_ok d : (d < 16)%N ->
  is_hex (upper_hex_char d) = true /\ hex_val (upper_hex_char d) = d
  /\ always_safe (upper_hex_char d) = true.
Proof.
  intros Hd.
  assert (Hs : is_hex (upper_hex_char d) && N.eqb (hex_val (upper_hex_char d)) d
               && always_safe (upper_hex_char d) = true).
  { revert d Hd.
    apply (sweep16 (fun d => is_hex (upper_hex_char d) && N.eqb (hex_val (upper_hex_char d)) d
               && always_safe (upper_hex_char d))). reflexivity. }
  apply andb_true_iff in Hs as [Hs H3]. apply andb_true_iff in Hs as [H1 H2].
  apply N.eqb_eq in H2. auto.
Qed.

Lemma unquote_percent b rest : (b < 256)%N ->
  unquote_bytes (percent b ++ rest) = b :: unquote_bytes rest.
Proof.
  intros Hb. unfold percent. cbn [app unquote_bytes]. rewrite N.eqb_refl.
  destruct (upper_hex_ok (b / 16)) as (H1 & V1 & _); [lia|].
  destruct (upper_hex_ok (b mod 16)) as (H2 & V2 & _); [lia|].
  rewrite H1, H2, V1, V2. cbn [andb]. f_equal. lia.
Qed.

Lemma always_safe_facts b : always_safe b = true -> (b < 128)%N /\ b <> 37%N /\ b <> 43%N /\ b <> 32%N.
Proof. unfold always_safe, is_upper, is_lower, is_digit, in_range. lia. Qed.

Lemma unquote_plain c rest : c <> 37%N -> unquote_bytes (c :: rest) = c :: unquote_bytes rest.
Proof. intros Hc. cbn [unquote_bytes]. apply N.eqb_neq in Hc. now rewrite Hc. Qed.

Definition plus_to_space (s : str) : str := map (fun c => if N.eqb c 43 then 32%N else c) s.

Lemma plus_to_space_app s t : plus_to_space (s ++ t) = plus_to_space s ++ plus_to_space t.
Proof. apply map_app. Qed.

Lemma upper_hex_range d : (d < 16)%N -> (48 <= upper_hex_char d <= 70)%N.
Proof. intros Hd. unfold upper_hex_char. destruct (N.ltb_spec d 10); lia. Qed.

Lemma plus_to_space_percent b : (b < 256)%N -> plus_to_space (percent b) = percent b.
Proof.
  intros Hb. unfold percent, plus_to_space. cbn [map].
  pose proof (upper_hex_range (b / 16) ltac:(lia)). pose proof (upper_hex_range (b mod 16) ltac:(lia)).
  repeat match goal with |- context [N.eqb ?a 43] => destruct (N.eqb_spec a 43); [lia|] end.
  reflexivity.
Qed.

Lemma unquote_quote_plus_byte b rest : (b < 256)%N ->
  unquote_bytes (plus_to_space (quote_plus_byte b) ++ rest) = b :: unquote_bytes rest.
Proof.
  intros Hb. unfold quote_plus_byte. destruct (N.eqb_spec b 32) as [->|Hsp]; [reflexivity|].
  destruct (always_safe b) eqn:Hs.
  - apply always_safe_facts in Hs as (_ & H1 & H2 & _). cbn [plus_to_space map app].
    apply N.eqb_neq in H2. rewrite H2. now apply unquote_plain.
  - rewrite plus_to_space_percent by assumption. now apply unquote_percent.
Qed.

Lemma unquote_quote_byte b rest : (b < 256)%N ->
  unquote_bytes (quote_byte b ++ rest) = b :: unquote_bytes rest.
Proof.
  intros Hb. unfold quote_byte. destruct (always_safe b) eqn:Hs; cbn [orb].
  - apply always_safe_facts in Hs as (_ & H1 & _). now apply unquote_plain.
  - destruct (N.eqb_spec b 47) as [->|Hn]; [reflexivity|]. now apply unquote_percent.
Qed.

Lemma unquote_flat_quote_plus bs : Forall (fun b => (b < 256)%N) bs ->
  unquote_bytes (plus_to_space (flat_map quote_plus_byte bs)) = bs.
Proof.
  induction 1 as [|b bs Hb Hbs IH]; [reflexivity|].
  cbn [flat_map]. rewrite plus_to_space_app, unquote_quote_plus_byte by assumption. now rewrite IH.
Qed.
Lemma unquote_flat_quote bs : Forall (fun b => (b < 256)%N) bs ->
  unquote_bytes (flat_map quote_byte bs) = bs.
Proof.
  induction 1 as [|b bs Hb Hbs IH]; [reflexivity|].
  cbn [flat_map]. rewrite unquote_quote_byte by assumption. now rewrite IH.
Qed.

Lemma unquote_runs_ascii s run : Forall (fun c => (c < 128)%N) s ->
  unquote_runs run s = decode_replace (unquote_bytes (rev run ++ s)).
Proof.
  revert run. induction s as [|c s IH]; intros run Hs; cbn [unquote_runs].
  - now rewrite app_nil_r.
  - inversion Hs as [|? ? Hc Hs']; subst. destruct (N.ltb_spec c 128); [|lia].
    rewrite IH by assumption. cbn [rev]. now rewrite <- app_assoc.
Qed.
Lemma unquote_ascii s : Forall (fun c => (c < 128)%N) s ->
  unquote s = decode_replace (unquote_bytes s).
Proof. intros Hs. unfold unquote. now rewrite unquote_runs_ascii. Qed.

(** The alphabet of quoted text: always-safe characters, "%", "+" (quote_plus) or "/" (quote). *)
Definition quoted_char (c : N) : bool := always_safe c || N.eqb c 37 || N.eqb c 43.
Definition quoted_char2 (c : N) : bool := always_safe c || N.eqb c 37 || N.eqb c 47.

Lemma percent_alphabet (q : N -> bool) b : (b < 256)%N ->
  (forall c, always_safe c = true -> q c = true) -> q 37%N = true ->
  forallb q (percent b) = true.
Proof.
  intros Hb Hq H37. unfold percent. cbn [forallb].
  destruct (upper_hex_ok (b / 16)) as (_ & _ & S1); [lia|].
  destruct (upper_hex_ok (b mod 16)) as (_ & _ & S2); [lia|].
  rewrite H37, (Hq _ S1), (Hq _ S2). reflexivity.
Qed.

Lemma quote_plus_alphabet bs : Forall (fun b => (b < 256)%N) bs ->
  forallb quoted_char (flat_map quote_plus_byte bs) = true.
Proof.
  induction 1 as [|b bs Hb Hbs IH]; [reflexivity|].
  cbn [flat_map]. apply forallb_app'. split; [|exact IH].
  unfold quote_plus_byte. destruct (N.eqb b 32); [reflexivity|].
  destruct (always_safe b) eqn:Hs.
  - cbn. unfold quoted_char. now rewrite Hs.
  - apply percent_alphabet; [assumption| |reflexivity].
    intros c Hc. unfold quoted_char. now rewrite Hc.
Qed.
Lemma quote_alphabet bs : Forall (fun b => (b < 256)%N) bs ->
  forallb quoted_char2 (flat_map quote_byte bs) = true.
Proof.
  induction 1 as [|b bs Hb Hbs IH]; [reflexivity|].
  cbn [flat_map]. apply forallb_app'. split; [|exact IH].
  unfold quote_byte. destruct (always_safe b) eqn:Hs; cbn [orb].
  - cbn. unfold quoted_char2. now rewrite Hs.
  - destruct (N.eqb_spec b 47) as [->|Hn]; [reflexivity|].
    apply percent_alphabet; [assumption| |reflexivity].
    intros c Hc. unfold quoted_char2. now rewrite Hc.
Qed.

Lemma quoted_ascii c : quoted_char c = true -> (c < 128)%N.
Proof.
  unfold quoted_char. rewrite !orb_true_iff, !N.eqb_eq.
  intros [[H|H]|H]; [apply always_safe_facts in H; lia|lia|lia].
Qed.
Lemma quoted2_ascii c : quoted_char2 c = true -> (c < 128)%N.
Proof.
  unfold quoted_char2. rewrite !orb_true_iff, !N.eqb_eq.
  intros [[H|H]|H]; [apply always_safe_facts in H; lia|lia|lia].
Qed.

Lemma quote_plus_round_trip s : unicode_text s ->
  exists q, quote_plus s = Some q /\ forallb quoted_char q = true /\ unquote_plus q = s
            /\ (s <> [] -> q <> []).
Proof.
  intros Hs. destruct (utf8_round_trip s Hs) as (bs & E & Hb & Hd).
  exists (flat_map quote_plus_byte bs). unfold quote_plus. rewrite E. cbn [option_map].
  pose proof (quote_plus_alphabet bs Hb) as Ha.
  repeat split; auto.
  - unfold unquote_plus. fold (plus_to_space (flat_map quote_plus_byte bs)).
    rewrite unquote_ascii.
    + now rewrite unquote_flat_quote_plus, Hd.
    + apply Forall_forall. intros c Hc. unfold plus_to_space in Hc.
      apply in_map_iff in Hc as (c' & <- & Hc'). destruct (N.eqb c' 43); [lia|].
      rewrite forallb_forall in Ha. now apply quoted_ascii, Ha.
  - intros Hne Hq. destruct bs as [|b bs]; [cbn in Hd; congruence|].
    cbn [flat_map] in Hq. apply app_eq_nil in Hq as [Hq _].
    unfold quote_plus_byte in Hq. destruct (N.eqb b 32); [discriminate|].
    destruct (always_safe b); discriminate.
Qed.

Lemma quote_round_trip s : unicode_text s ->
  exists q, quote s = Some q /\ forallb quoted_char2 q = true /\ unquote q = s.
Proof.
  intros Hs. destruct (utf8_round_trip s Hs) as (bs & E & Hb & Hd).
  exists (flat_map quote_byte bs). unfold quote. rewrite E. cbn [option_map].
  pose proof (quote_alphabet bs Hb) as Ha. repeat split; auto.
  rewrite unquote_ascii.
  - now rewrite unquote_flat_quote, Hd.
  - apply Forall_forall. intros c Hc. rewrite forallb_forall in Ha. now apply quoted2_ascii, Ha.
Qed.

Lemma py_space_iff c : py_space c = true <-> whitespace c.
Proof. unfold py_space, whitespace, in_range. lia. Qed.

Lemma strip_trimmed s : trimmed s -> strip py_space s = s.
Proof.
  intros [Hf Hl]. unfold strip. rewrite lstrip_id.
  - destruct s as [|c s _] using rev_ind; [reflexivity|]. apply rstrip_snoc.
    specialize (Hl c s eq_refl). rewrite <- py_space_iff in Hl.
    destruct (py_space c); [tauto|reflexivity].
  - intros c t E. specialize (Hf c t E). rewrite <- py_space_iff in Hf.
    destruct (py_space c); [tauto|reflexivity].
Qed.
