From Verif Require Export Spec_Runtime Proof_Baggage Proof_Runtime.
From Verif Require Import Proof_Utf8.

Lemma whitespace_forallb w : forallb py_space w = true <-> Forall whitespace w.
Proof. apply forallb_Forall. intros c. apply py_space_iff. Qed.

Lemma stripped_iff h m : stripped h m <-> strip py_space h = m.
Proof.
  split.
  - intros (a & b & -> & Ha & Hb & Hm). apply whitespace_forallb in Ha, Hb.
    unfold strip. rewrite lstrip_app by assumption. destruct m as [|c m].
    + cbn [app]. rewrite lstrip_all by assumption. reflexivity.
    + cbn [app]. rewrite lstrip_hd.
      * change (c :: m ++ b) with ((c :: m) ++ b). rewrite rstrip_app by assumption.
        pose proof (strip_trimmed _ Hm) as E. unfold strip in E. rewrite lstrip_hd in E; [exact E|].
        destruct (py_space c) eqn:Ec; [|reflexivity]. apply py_space_iff in Ec.
        now destruct (proj1 Hm c m eq_refl).
      * destruct (py_space c) eqn:Ec; [|reflexivity]. apply py_space_iff in Ec.
        now destruct (proj1 Hm c m eq_refl).
  - intros <-. destruct (lstrip_decomp py_space h) as (a & Ea & Ha).
    destruct (rstrip_decomp py_space (lstrip py_space h)) as (b & Eb & Hb).
    exists a, b. unfold strip. repeat split.
    + rewrite <- Eb. exact Ea.
    + now apply whitespace_forallb.
    + now apply whitespace_forallb.
    + intros c t E Hc. apply rstrip_lstrip_first in E. apply py_space_iff in Hc. congruence.
    + intros c t E Hc. apply rstrip_last in E. apply py_space_iff in Hc. congruence.
Qed.

Lemma blanks_no_eq w : blanks w -> ~ In 61%N w.
Proof. unfold blanks. rewrite Forall_forall. intros Hw Hin. apply Hw in Hin. unfold blank in Hin. lia. Qed.

Lemma env_pair_name vchr m n v : env_pair vchr m n v -> ~ In 61%N n.
Proof.
  intros (_ & (w1 & k & w2 & -> & H1 & H2 & H3) & _). rewrite !in_app_iff. intros [H|[H|H]].
  - now apply blanks_no_eq in H.
  - now apply token_no_eq in H.
  - now apply blanks_no_eq in H.
Qed.

Lemma lvalue_lang v : lang LVALUE_FORMAT v <-> Forall (fun c => c = 32%N \/ bval_chr c) v.
Proof.
  unfold LVALUE_FORMAT. rewrite lang_star_cls. apply forallb_Forall. intros c. unfold lvalue_char.
  rewrite orb_true_iff, bvalue_char_iff, N.eqb_eq. reflexivity.
Qed.

Lemma liberal_lang p : lang LIBERAL_FORMAT p <->
  exists w1 k w2 w3 v w4, blanks w1 /\ token k /\ blanks w2 /\ blanks w3
    /\ Forall (fun c => c = 32%N \/ bval_chr c) v /\ blanks w4
    /\ p = w1 ++ k ++ w2 ++ [61%N] ++ w3 ++ v ++ w4.
Proof.
  unfold LIBERAL_FORMAT. split.
  - intros Hl. apply lang_cat in Hl as (w1 & r & -> & H1 & Hl).
    apply lang_cat in Hl as (k & r2 & -> & H2 & Hl).
    apply lang_cat in Hl as (w2 & r3 & -> & H3 & Hl).
    apply lang_cat in Hl as (e & r4 & -> & H4 & Hl).
    apply lang_cat in Hl as (w3 & r5 & -> & H5 & Hl).
    apply lang_cat in Hl as (v & w4 & -> & H6 & H7).
    apply lang_chr in H4 as ->. apply ows_lang in H1, H3, H5, H7.
    apply fullmatch_lang, bkey_match in H2. apply lvalue_lang in H6.
    exists w1, k, w2, w3, v, w4. auto 10.
  - intros (w1 & k & w2 & w3 & v & w4 & H1 & H2 & H3 & H4 & H5 & H6 & ->).
    repeat apply L_cat; try (now apply ows_lang).
    + now apply fullmatch_lang, bkey_match.
    + now apply lang_chr.
    + now apply lvalue_lang.
Qed.

Lemma pair_of_words vchr m :
  (exists w1 k w2 w3 v w4, blanks w1 /\ token k /\ blanks w2 /\ blanks w3 /\ Forall vchr v /\ blanks w4
    /\ m = w1 ++ k ++ w2 ++ [61%N] ++ w3 ++ v ++ w4) <-> exists n v, env_pair vchr m n v.
Proof.
  split.
  - intros (w1 & k & w2 & w3 & v & w4 & H1 & H2 & H3 & H4 & H5 & H6 & ->).
    exists (w1 ++ k ++ w2), (w3 ++ v ++ w4). split; [now rewrite <- !app_assoc|]. split.
    + exists w1, k, w2. auto.
    + exists w3, v, w4. auto.
  - intros (n & v & -> & (w1 & k & w2 & -> & H1 & H2 & H3) & (w3 & x & w4 & -> & H4 & H5 & H6)).
    exists w1, k, w2, w3, x, w4. rewrite <- !app_assoc. auto 10.
Qed.

Lemma strict_match m : fullmatch KEY_VALUE_FORMAT m = true <-> exists n v, strict_pair m n v.
Proof. rewrite fullmatch_lang, key_value_lang. apply pair_of_words. Qed.
Lemma liberal_match m : fullmatch LIBERAL_FORMAT m = true <-> exists n v, liberal_pair m n v.
Proof. rewrite fullmatch_lang, liberal_lang. apply pair_of_words. Qed.

Lemma entry_text_plus raw t : entry_text true raw t <-> strip py_space (unquote_plus raw) = t.
Proof.
  unfold entry_text. split.
  - intros (u & R & S). apply text_read_plus in R. apply stripped_iff in S. congruence.
  - intros E. exists (unquote_plus raw). split; [apply text_read_plus; reflexivity|apply stripped_iff; exact E].
Qed.
Lemma entry_text_path raw t : entry_text false raw t <-> strip py_space (unquote raw) = t.
Proof.
  unfold entry_text. split.
  - intros (u & R & S). apply text_read_iff in R. apply stripped_iff in S. congruence.
  - intros E. exists (unquote raw). split; [apply text_read_iff; reflexivity|apply stripped_iff; exact E].
Qed.

Lemma env_name_value_pair pylower u vchr m n v : env_pair vchr m n v ->
  env_name_value pylower u m = Some (pylower (strip py_space (u n)), strip py_space (u v)).
Proof.
  intros Hp. pose proof (env_pair_name _ _ _ _ Hp) as Hn. destruct Hp as [-> _].
  unfold env_name_value. change (n ++ [61%N] ++ v) with (n ++ 61%N :: v). now rewrite split1_app.
Qed.

Lemma parse_env_member_spec pylower liberal h nv :
  parse_env_member pylower liberal h = Some nv <-> env_member pylower liberal h nv.
Proof.
  unfold parse_env_member. destruct (fullmatch KEY_VALUE_FORMAT (strip py_space h)) eqn:Es.
  - apply strict_match in Es as (n & v & Hp). rewrite (env_name_value_pair _ _ _ _ _ _ Hp). split.
    + intros [= <-]. apply (em_strict _ _ _ (strip py_space h) n v);
        [now apply stripped_iff|assumption|now apply entry_text_path|now apply entry_text_path].
    + intros H. destruct H as [m n' v' tn tv Hs Hp' Hn Hv|m n' v' tn tv _ Hs Hno _ _ _].
      * apply stripped_iff in Hs. subst m.
        pose proof (env_name_value_pair pylower unquote _ _ _ _ Hp) as E1.
        rewrite (env_name_value_pair pylower unquote _ _ _ _ Hp') in E1.
        apply entry_text_path in Hn, Hv. subst tn tv. symmetry. exact E1.
      * apply stripped_iff in Hs. subst m. now apply Hno in Hp.
  - assert (Hns : forall n v, ~ strict_pair (strip py_space h) n v).
    { intros n v Hp. assert (fullmatch KEY_VALUE_FORMAT (strip py_space h) = true); [|congruence].
      apply strict_match. eauto. }
    destruct liberal; cbn [andb].
    + destruct (fullmatch LIBERAL_FORMAT (strip py_space h)) eqn:El.
      * apply liberal_match in El as (n & v & Hp). rewrite (env_name_value_pair _ _ _ _ _ _ Hp). split.
        -- intros [= <-]. apply (em_liberal _ _ _ (strip py_space h) n v); auto; now apply stripped_iff.
        -- intros H. destruct H as [m n' v' tn tv Hs Hp' _ _|m n' v' tn tv _ Hs Hno Hp' Hn Hv];
             apply stripped_iff in Hs; subst m; [now apply Hns in Hp'|].
           pose proof (env_name_value_pair pylower (fun x => x) _ _ _ _ Hp) as E1.
           rewrite (env_name_value_pair pylower (fun x => x) _ _ _ _ Hp') in E1.
           apply stripped_iff in Hn, Hv. subst tn tv. symmetry. exact E1.
      * split; [discriminate|]. intros H. destruct H as [m n' v' tn tv Hs Hp' _ _|m n' v' tn tv _ Hs Hno Hp' _ _];
             apply stripped_iff in Hs; subst m; [now apply Hns in Hp'|].
        assert (fullmatch LIBERAL_FORMAT (strip py_space h) = true); [|congruence].
        apply liberal_match. eauto.
    + split; [discriminate|]. intros H. destruct H as [m n' v' tn tv Hs Hp' _ _|m n' v' tn tv Hf Hs Hno Hp' _ _];
        [|discriminate]. apply stripped_iff in Hs; subst m. now apply Hns in Hp'.
Qed.

Definition env_parse (pylower : str -> str) (liberal : bool) (ps : list str) : list (str * str) :=
  flat_map (fun e => match parse_env_member pylower liberal e with Some nv => [nv] | None => [] end) ps.

Lemma env_members_spec pylower liberal ps nvs :
  env_members pylower liberal ps nvs <-> env_parse pylower liberal ps = nvs.
Proof.
  split.
  - induction 1 as [|p ps nv nvs Hp _ IH|p ps nvs Hp _ IH]; [reflexivity| |];
      unfold env_parse; cbn [flat_map]; fold (env_parse pylower liberal ps).
    + apply parse_env_member_spec in Hp. rewrite Hp, IH. reflexivity.
    + destruct (parse_env_member pylower liberal p) as [nv|] eqn:E; [|exact IH].
      apply parse_env_member_spec in E. now apply Hp in E.
  - intros <-. induction ps as [|p ps IH]; [constructor|].
    unfold env_parse. cbn [flat_map]. fold (env_parse pylower liberal ps).
    destruct (parse_env_member pylower liberal p) as [nv|] eqn:E; cbn [app].
    + constructor; [now apply parse_env_member_spec|assumption].
    + constructor; [|assumption]. intros nv Hp. apply parse_env_member_spec in Hp. congruence.
Qed.

Lemma parse_env_member_nil pylower liberal : parse_env_member pylower liberal [] = None.
Proof. destruct liberal; reflexivity. Qed.

Lemma parse_env_fold pylower liberal ps acc :
  fold_left (fun acc h => match h with
                          | [] => acc
                          | _ => match parse_env_member pylower liberal h with
                                 | Some (k, v) => dset k v acc
                                 | None => acc
                                 end
                          end) ps acc
  = fold_left (fun acc kv => dset (fst kv) (snd kv) acc) (env_parse pylower liberal ps) acc.
Proof.
  revert acc. induction ps as [|p ps IH]; intros acc; [reflexivity|].
  unfold env_parse. cbn [fold_left flat_map]. fold (env_parse pylower liberal ps).
  rewrite fold_left_app, IH. f_equal. destruct p as [|c p].
  - now rewrite parse_env_member_nil.
  - destruct (parse_env_member pylower liberal (c :: p)) as [[k v]|]; reflexivity.
Qed.

Lemma fold_dset_dget (l : list (str * str)) (acc : dict str str) k :
  dget k (fold_left (fun acc kv => dset (fst kv) (snd kv) acc) l acc)
  = match dget k (rev l) with Some v => Some v | None => dget k acc end.
Proof.
  revert acc. induction l as [|[k' v'] l IH]; intros acc; [reflexivity|].
  cbn [fold_left rev fst snd]. rewrite IH.
  assert (Happ : forall (a b : dict str str), dget k (a ++ b) = match dget k a with Some v => Some v | None => dget k b end).
  { clear. induction a as [|[x y] a IH]; intros b; [reflexivity|]. cbn. destruct (eq_dec k x); [reflexivity|apply IH]. }
  rewrite Happ. destruct (dget k (rev l)); [reflexivity|]. cbn [dget].
  destruct (eq_dec k k') as [->|Hn]; [now rewrite dget_dset_eq|now rewrite dget_dset_ne].
Qed.
Lemma fold_dset_nodup (l : list (str * str)) (acc : dict str str) :
  NoDup (keys acc) -> NoDup (keys (fold_left (fun acc kv => dset (fst kv) (snd kv) acc) l acc)).
Proof.
  revert acc. induction l as [|[k' v'] l IH]; intros acc H; [assumption|]. cbn. apply IH.
  now apply NoDup_dset.
Qed.

Lemma parse_env_spec pylower liberal s ps nvs :
  ows_split true s ps -> env_members pylower liberal ps nvs ->
  NoDup (keys (parse_env_headers pylower s liberal))
  /\ forall k, dget k (parse_env_headers pylower s liberal) = dget k (rev nvs).
Proof.
  intros Hs Hm. apply split_delim_spec in Hs. apply env_members_spec in Hm.
  unfold parse_env_headers. rewrite parse_env_fold, Hs, Hm. split.
  - apply fold_dset_nodup. constructor.
  - intros k. rewrite fold_dset_dget. cbn. now destruct (dget k (rev nvs)).
Qed.

Lemma env_reading_exists pylower liberal s :
  exists ps nvs, ows_split true s ps /\ env_members pylower liberal ps nvs.
Proof.
  exists (split_delim s), (env_parse pylower liberal (split_delim s)). split.
  - now apply split_delim_spec.
  - now apply env_members_spec.
Qed.

Lemma parse_env_malformed pylower liberal s s' a p b :
  ows_split true s (a ++ p :: b) -> (forall nv, ~ env_member pylower liberal p nv) ->
  ows_split true s' (a ++ b) ->
  parse_env_headers pylower s liberal = parse_env_headers pylower s' liberal.
Proof.
  intros Hs Hp Hs'. apply split_delim_spec in Hs, Hs'. unfold parse_env_headers.
  rewrite !parse_env_fold, Hs, Hs'. f_equal. unfold env_parse. rewrite !flat_map_app. cbn [flat_map].
  destruct (parse_env_member pylower liberal p) as [nv|] eqn:E; [|reflexivity].
  apply parse_env_member_spec in E. now apply Hp in E.
Qed.

(** Round trip: names that are tokens without percent sign, url-quoted values. *)
Definition env_entry (kv : str * str) (p : str) : Prop :=
  token (fst kv) /\ ~ In 37%N (fst kv) /\ unicode_text (snd kv) /\ trimmed (snd kv)
  /\ exists q, quote (snd kv) = Some q /\ p = fst kv ++ [61%N] ++ q.

Lemma quoted2_bval c : quoted_char2 c = true -> bval_chr c.
Proof.
  unfold quoted_char2, always_safe, is_upper, is_lower, is_digit, in_range, bval_chr.
  cbn [In]. lia.
Qed.

Lemma token_ascii k : token k -> Forall (fun c => (c < 128)%N) k.
Proof. intros [_ H]. eapply Forall_impl; [|exact H]. unfold token_chr. intros c [? _]. lia. Qed.
Lemma unquote_bytes_plain k : ~ In 37%N k -> unquote_bytes k = k.
Proof.
  induction k as [|c k IH]; intros Hn; [reflexivity|]. cbn [In] in Hn.
  rewrite unquote_plain by tauto. rewrite IH by tauto. reflexivity.
Qed.
Lemma token_trimmed k : token k -> trimmed k.
Proof.
  intros [_ H]. rewrite Forall_forall in H.
  split; intros c t -> Hw; assert (Hc : token_chr c) by (apply H; try (left; reflexivity); apply in_app_iff; right; left; reflexivity);
  unfold token_chr in Hc; unfold whitespace in Hw; lia.
Qed.
Lemma decode_ascii k : Forall (fun c => (c < 128)%N) k -> decode_replace k = k.
Proof.
  intros H. assert (Hu : unicode_text k).
  { eapply Forall_impl; [|exact H]. cbn. lia. }
  destruct (utf8_round_trip k Hu) as (bs & E & _ & Hd).
  assert (E' : utf8_encode k = Some k).
  { clear Hu E Hd. induction H as [|c k Hc _ IH]; [reflexivity|]. cbn [utf8_encode].
    assert (Ec : utf8_char c = Some [c]) by (unfold utf8_char; destruct (N.ltb_spec c 128); [reflexivity|lia]).
    now rewrite Ec, IH. }
  congruence.
Qed.
Lemma unquote_token k : token k -> ~ In 37%N k -> unquote k = k.
Proof.
  intros Hk Hn. rewrite unquote_ascii by now apply token_ascii.
  rewrite unquote_bytes_plain by assumption. now apply decode_ascii, token_ascii.
Qed.

Lemma env_entry_chars kv p c : env_entry kv p -> In c p -> c <> 44%N /\ ~ blank c /\ ~ whitespace c.
Proof.
  intros ([_ Hk] & _ & Hu & _ & q & Eq & ->) Hin. rewrite !in_app_iff in Hin.
  destruct (quote_round_trip _ Hu) as (q' & Eq' & Ha & _). assert (q' = q) by congruence. subst q'.
  destruct Hin as [Hin|[[<-|[]]|Hin]].
  - rewrite Forall_forall in Hk. apply Hk in Hin. unfold token_chr in Hin. cbn [In] in Hin.
    unfold blank, whitespace. lia.
  - unfold blank, whitespace. lia.
  - rewrite forallb_forall in Ha. apply Ha, quoted2_bval in Hin. unfold bval_chr in Hin. cbn [In] in Hin.
    unfold blank, whitespace. lia.
Qed.

Lemma env_entry_member pylower liberal kv p : env_entry kv p ->
  env_member pylower liberal p (pylower (fst kv), snd kv).
Proof.
  intros He. pose proof He as (Hk & Hn & Hu & Ht & q & Eq & Ep).
  destruct (quote_round_trip _ Hu) as (q' & Eq' & Ha & Hr). assert (q' = q) by congruence. subst q'.
  apply (em_strict _ _ _ p (fst kv) q).
    + exists [], []. rewrite app_nil_r. repeat split; try constructor.
      * intros c t E. apply (env_entry_chars _ _ c He). rewrite E. now left.
      * intros c t E. apply (env_entry_chars _ _ c He). rewrite E. apply in_app_iff. right. now left.
    + split; [exact Ep|]. split.
      * exists [], (fst kv), []. rewrite app_nil_r. split; [reflexivity|]. split; [constructor|]. split; [exact Hk|constructor].
      * exists [], q, []. rewrite app_nil_r. split; [reflexivity|]. split; [constructor|]. split; [|constructor].
        apply Forall_forall. intros c Hc. rewrite forallb_forall in Ha. now apply quoted2_bval, Ha.
    + apply entry_text_path. rewrite (unquote_token _ Hk Hn). apply strip_trimmed, token_trimmed, Hk.
    + apply entry_text_path. rewrite Hr. apply strip_trimmed, Ht.
Qed.

Lemma env_entries_split d ps : ps <> [] -> Forall2 env_entry d ps -> ows_split true (join [44%N] ps) ps.
Proof.
  intros Hne Hf.
  assert (Hg : forall first, ows_split first (join [44%N] ps) ps); [|apply Hg].
  induction Hf as [|kv p d ps Hp Hf IH]; [congruence|]. intros first.
  assert (H44 : ~ In 44%N p).
  { intros Hin. apply (env_entry_chars _ _ _ Hp) in Hin. tauto. }
  assert (Hfst : forall c t, p = c :: t -> ~ blank c).
  { intros c t ->. apply (env_entry_chars _ _ c Hp). now left. }
  destruct ps as [|p2 ps].
  - cbn. constructor; auto.
  - change (join [44%N] (p :: p2 :: ps)) with (p ++ [] ++ [44%N] ++ [] ++ join [44%N] (p2 :: ps)).
    constructor; auto.
    + intros c t ->. apply (env_entry_chars _ _ c Hp). apply in_app_iff. right. now left.
    + constructor.
    + constructor.
    + apply IH. discriminate.
Qed.

Lemma env_round_trip pylower liberal d ps : Forall2 env_entry d ps ->
  forall k, dget k (parse_env_headers pylower (join [44%N] ps) liberal)
            = dget k (rev (map (fun kv => (pylower (fst kv), snd kv)) d)).
Proof.
  intros Hf. destruct ps as [|p ps].
  - inversion Hf; subst. reflexivity.
  - apply (parse_env_spec pylower liberal _ (p :: ps)).
    + apply (env_entries_split d); [discriminate|assumption].
    + clear -Hf. induction Hf as [|kv p' d ps' He _ IH]; [constructor|].
      cbn [map]. constructor; [now apply env_entry_member|assumption].
Qed.
