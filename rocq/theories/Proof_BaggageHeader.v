(** How baggage is written. *)
From Verif Require Import Spec_BaggageHeader Proof_Url Proof_Utf8.
From Coq Require Import Lia.

Lemma unreserved_safe c : always_safe c = true <-> In c unreserved.
Proof.
  split.
  - intro S. assert (B : (c < 128)%N) by now apply always_safe_facts in S.
    assert (A : forallb (fun n => implb (always_safe n) (existsb (N.eqb n) unreserved)) (map N.of_nat (seq 0 128)) = true) by (vm_compute; reflexivity).
    rewrite forallb_forall in A. specialize (A c).
    rewrite S in A. cbn [implb] in A. destruct (existsb_exists (N.eqb c) unreserved) as [E _].
    destruct E as (x & I & Ex); [|apply N.eqb_eq in Ex; now subst x].
    apply A. apply in_map_iff. exists (N.to_nat c). split; [apply N2Nat.id|]. apply in_seq. lia.
  - intro I. assert (A : forallb always_safe unreserved = true) by (vm_compute; reflexivity). rewrite forallb_forall in A. now apply A.
Qed.
Lemma hex_numeral_eq d : (d < 16)%N -> hex_numeral d = upper_hex_char d.
Proof.
  intro B. assert (A : forallb (fun n => N.eqb (hex_numeral n) (upper_hex_char n)) (map N.of_nat (seq 0 16)) = true) by (vm_compute; reflexivity).
  rewrite forallb_forall in A. apply N.eqb_eq, A. apply in_map_iff. exists (N.to_nat d). split; [apply N2Nat.id|]. apply in_seq. lia.
Qed.
Lemma percent_eq b : (b < 256)%N -> percent_byte b = percent b.
Proof.
  intro B. unfold percent_byte, percent. rewrite !hex_numeral_eq; [reflexivity| |].
  - now apply N.mod_lt.
  - apply N.div_lt_upper_bound; [discriminate|exact B].
Qed.
Lemma char_bytes c bs : utf8_char c = Some bs -> Forall (fun b => (b < 256)%N) bs /\ ((c < 128)%N -> bs = [c]) /\ ((128 <= c)%N -> Forall (fun b => (128 <= b)%N) bs).
Proof.
  intro E. destruct (utf8_char_ok c (utf8_char_some _ _ E)) as (b & E' & B & _). rewrite E in E'. injection E' as <-. split; [exact B|].
  unfold utf8_char in E. destruct (N.ltb_spec c 128).
  - injection E as <-. split; [reflexivity|intro; lia].
  - split; [intro; lia|]. intros _. destruct (N.ltb_spec c 2048); [apply some_eq in E; subst bs; repeat constructor; lia|].
    destruct (is_surrogate c); [discriminate|]. destruct (N.ltb_spec c 65536); [apply some_eq in E; subst bs; repeat constructor; lia|].
    destruct (N.leb c 1114111); [|discriminate]. apply some_eq in E; subst bs; repeat constructor; lia.
Qed.
Definition qb (plus : bool) : N -> str := if plus then quote_plus_byte else quote_byte.
Lemma high_unsafe b : (128 <= b)%N -> always_safe b = false.
Proof. intro. destruct (always_safe b) eqn:E; [|reflexivity]. apply always_safe_facts in E. lia. Qed.
Lemma high_bytes plus bs : Forall (fun b => (b < 256)%N) bs -> Forall (fun b => (128 <= b)%N) bs -> flat_map (qb plus) bs = flat_map percent_byte bs.
Proof.
  intros B H. induction H as [|b bs H0 H IH]; [reflexivity|]. apply Forall_cons_iff in B as [B0 B]. cbn [flat_map]. rewrite (IH B). f_equal.
  rewrite percent_eq by exact B0. destruct plus; cbn [qb]; unfold quote_plus_byte, quote_byte; rewrite high_unsafe by exact H0.
  - destruct (N.eqb_spec b 32); [lia|reflexivity].
  - cbn [orb]. destruct (N.eqb_spec b 47); [lia|reflexivity].
Qed.
Lemma char_written plus c bs : utf8_char c = Some bs -> written plus c (flat_map (qb plus) bs).
Proof.
  intro E. destruct (char_bytes c bs E) as (B & L & H).
  assert (E1 : utf8_form bs c) by (apply utf8_char_form, E).
  destruct (N.ltb_spec c 128) as [C|C].
  - rewrite (L C) in *. cbn [flat_map]. rewrite app_nil_r. destruct (always_safe c) eqn:S.
    + assert (Eq : qb plus c = [c]).
      { destruct plus; cbn [qb]; unfold quote_plus_byte, quote_byte; rewrite S; [|reflexivity]. destruct (N.eqb_spec c 32) as [->|]; [discriminate|reflexivity]. }
      rewrite Eq. apply wr_plain. left. now apply unreserved_safe.
    + assert (NI : ~ In c unreserved) by (intro I; apply unreserved_safe in I; congruence).
      destruct plus; cbn [qb]; unfold quote_plus_byte, quote_byte; rewrite S.
      * destruct (N.eqb_spec c 32) as [->|N].
        -- now apply wr_blank.
        -- rewrite <- percent_eq, <- (app_nil_r (percent_byte c)) by lia. change (percent_byte c ++ []) with (flat_map percent_byte [c]).
           apply wr_percent; [exact NI|intros _; exact N|discriminate|exact E1].
      * cbn [orb]. destruct (N.eqb_spec c 47) as [->|N].
        -- apply wr_plain. right. split; reflexivity.
        -- rewrite <- percent_eq, <- (app_nil_r (percent_byte c)) by lia. change (percent_byte c ++ []) with (flat_map percent_byte [c]).
           apply wr_percent; [exact NI|discriminate|intros _; exact N|exact E1].
  - rewrite high_bytes by auto. apply wr_percent; [|intros _ ->; cbn in C; lia|intros _ ->; cbn in C; lia|exact E1].
    intro I. apply unreserved_safe in I. rewrite high_unsafe in I by exact C. discriminate.
Qed.
Lemma text_is_written plus s bs : utf8_encode s = Some bs -> text_written plus s (flat_map (qb plus) bs).
Proof.
  revert bs. induction s as [|c s IH]; intros bs E.
  - injection E as <-. exists []. split; [constructor|reflexivity].
  - cbn [utf8_encode] in E. destruct (utf8_char c) as [b|] eqn:Ec; [|discriminate]. destruct (utf8_encode s) as [r|] eqn:Es; [|discriminate].
    injection E as <-. destruct (IH r eq_refl) as (ps & F & P). exists (flat_map (qb plus) b :: ps). split.
    + constructor; [now apply char_written|exact F].
    + rewrite flat_map_app, P. reflexivity.
Qed.
Lemma quote_plus_written s : unicode_text s -> exists q, quote_plus s = Some q /\ text_written true s q.
Proof.
  intro U. destruct (utf8_round_trip s U) as (bs & E & _). exists (flat_map quote_plus_byte bs). unfold quote_plus. rewrite E. split; [reflexivity|].
  exact (text_is_written true s bs E).
Qed.
Lemma quote_written s : unicode_text s -> exists q, quote s = Some q /\ text_written false s q.
Proof.
  intro U. destruct (utf8_round_trip s U) as (bs & E & _). exists (flat_map quote_byte bs). unfold quote. rewrite E. split; [reflexivity|].
  exact (text_is_written false s bs E).
Qed.

Lemma bag_header py_str ctx (d : list (str * str)) :
  get_all ctx = map (fun kv => (fst kv, OStr (snd kv))) d -> d <> [] ->
  Forall (fun kv => unicode_text (fst kv) /\ unicode_text (snd kv)) d ->
  exists members, bag_inject py_str ctx = Injected [(lit "baggage", join (lit ",") members)] false
  /\ Forall2 (fun kv m => exists a b, m = a ++ lit "=" ++ b /\ text_written true (fst kv) a /\ text_written true (snd kv) b) d members.
Proof.
  intros E N F.
  assert (P : exists members, format_pairs py_str (map (fun kv => (fst kv, OStr (snd kv))) d) = Some members
    /\ Forall2 (fun kv m => exists a b, m = a ++ lit "=" ++ b /\ text_written true (fst kv) a /\ text_written true (snd kv) b) d members).
  { clear E N. induction F as [|[k v] d [Uk Uv] F (ms & Em & Fm)]; [exists []; split; [reflexivity|constructor]|].
    cbn [fst snd] in *. destruct (quote_plus_written k Uk) as (a & Ea & Wa). destruct (quote_plus_written v Uv) as (b & Eb & Wb).
    exists ((a ++ [61%N] ++ b) :: ms). cbn [map format_pairs to_str fst snd]. rewrite Ea, Eb, Em. split; [reflexivity|]. constructor; [|exact Fm].
    exists a, b. split; [reflexivity|]. split; assumption. }
  destruct P as (ms & Em & Fm). exists ms. split; [|exact Fm]. unfold bag_inject. rewrite E.
  destruct d as [|kv d]; [now destruct N|]. cbn [map] in *. rewrite Em. reflexivity.
Qed.
Lemma jaeger_headers py_str ctx (d : list (str * str)) :
  sc_is_valid (current_span_context ctx) = true ->
  get_all ctx = map (fun kv => (fst kv, OStr (snd kv))) d -> Forall (fun kv => unicode_text (snd kv)) d ->
  exists id ws, jaeger_inject py_str ctx = Injected ((lit "uber-trace-id", id) :: ws) false
  /\ Forall2 (fun kv w => fst w = lit "uberctx-" ++ fst kv /\ text_written false (snd kv) (snd w)) d ws.
Proof.
  intros V E F.
  assert (P : exists ws, jaeger_baggage_writes py_str (map (fun kv => (fst kv, OStr (snd kv))) d) = Injected ws false
    /\ Forall2 (fun kv w => fst w = lit "uberctx-" ++ fst kv /\ text_written false (snd kv) (snd w)) d ws).
  { clear E. induction F as [|[k v] d Uv F (ws & Ew & Fw)]; [exists []; split; [reflexivity|constructor]|].
    cbn [fst snd] in *. destruct (quote_written v Uv) as (q & Eq & Wq). exists ((UBERCTX ++ k, q) :: ws).
    cbn [map jaeger_baggage_writes to_str fst snd]. rewrite Eq, Ew. split; [reflexivity|]. constructor; [|exact Fw]. split; [reflexivity|exact Wq]. }
  destruct P as (ws & Ew & Fw). unfold jaeger_inject. rewrite E, Ew.
  change (span_context_of (get_current_span ctx)) with (current_span_context ctx).
  assert (I : is_invalid_context (current_span_context ctx) = false).
  { unfold sc_is_valid, is_invalid_context in *. destruct (Z.eqb_spec (sc_trace_id (current_span_context ctx)) 0) as [Z0|]; [|reflexivity].
    rewrite Z0 in V. discriminate. }
  rewrite I. cbn [inj_writes inj_raised]. eexists. exists ws. split; [reflexivity|exact Fw].
Qed.
