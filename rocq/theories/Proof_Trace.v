From Verif Require Export Model_Trace Spec_Trace Proof_Dict Proof_Regex Proof_Str.

(** ** Character classes *)
Lemma is_lower_iff c : is_lower c = true <-> lcalpha c.
Proof. unfold is_lower, lcalpha. apply in_range_iff. Qed.
Lemma is_digit_iff c : is_digit c = true <-> digit c.
Proof. unfold is_digit, digit. apply in_range_iff. Qed.
Lemma key_char_iff c : key_char c = true <-> key_chr c.
Proof.
  unfold key_char, key_chr. rewrite !orb_true_iff, is_lower_iff, is_digit_iff, !N.eqb_eq. tauto.
Qed.
Lemma value_char_iff c : value_char c = true <-> value_chr c.
Proof. unfold value_char, value_chr, in_range. lia. Qed.
Lemma value_nblk_iff c : value_nblk c = true <-> value_chr c /\ c <> 32%N.
Proof. unfold value_nblk, value_chr, in_range. lia. Qed.
Lemma is_ows_iff c : is_ows c = true <-> blank c.
Proof. unfold is_ows, blank. lia. Qed.

Lemma forallb_Forall {A} (p : A -> bool) (P : A -> Prop) l :
  (forall x, p x = true <-> P x) -> (forallb p l = true <-> Forall P l).
Proof.
  intros Hp. rewrite forallb_forall, Forall_forall. split; intros Hx x Hin; apply Hp; auto.
Qed.

Lemma forallb_ows w : forallb is_ows w = true <-> blanks w.
Proof. apply forallb_Forall, is_ows_iff. Qed.

Lemma simple_key_lang k :
  lang (RCat (RCls is_lower) (rupto 255 (RCls key_char))) k <->
  exists a r, k = a :: r /\ lcalpha a /\ Forall key_chr r /\ length r <= 255.
Proof.
  rewrite lang_cat. split.
  - intros (u & r & -> & Hu & Hr). apply lang_cls in Hu as (a & -> & Ha).
    apply lang_upto_cls in Hr as [Hl Hr]. exists a, r.
    rewrite is_lower_iff in Ha. rewrite (forallb_Forall _ key_chr) in Hr by apply key_char_iff. auto.
  - intros (a & r & -> & Ha & Hr & Hl). exists [a], r. repeat split.
    + constructor. now apply is_lower_iff.
    + apply lang_upto_cls. split; [assumption|].
      rewrite (forallb_Forall _ key_chr); [assumption|apply key_char_iff].
Qed.

Lemma tenant_key_lang k :
  lang (RCat (RCls (fun c => is_lower c || is_digit c))
             (RCat (rupto 240 (RCls key_char))
                   (RCat (rchr 64) (RCat (RCls is_lower) (rupto 13 (RCls key_char)))))) k <->
  exists a t b s,
    k = a :: t ++ [64%N] ++ b :: s /\ (lcalpha a \/ digit a) /\ lcalpha b
    /\ Forall key_chr t /\ length t <= 240 /\ Forall key_chr s /\ length s <= 13.
Proof.
  split.
  - intros Hl. apply lang_cat in Hl as (u & r & -> & Hu & Hr).
    apply lang_cls in Hu as (a & -> & Ha).
    apply lang_cat in Hr as (t & r2 & -> & Ht & Hr2).
    apply lang_cat in Hr2 as (at_ & r3 & -> & Hat & Hr3).
    apply lang_chr in Hat as ->.
    apply lang_cat in Hr3 as (ub & s & -> & Hb & Hs).
    apply lang_cls in Hb as (b & -> & Hb).
    apply lang_upto_cls in Ht as [Hlt Ht]. apply lang_upto_cls in Hs as [Hls Hs].
    rewrite (forallb_Forall _ key_chr) in Ht by apply key_char_iff.
    rewrite (forallb_Forall _ key_chr) in Hs by apply key_char_iff.
    apply orb_true_iff in Ha. rewrite is_lower_iff, is_digit_iff in Ha.
    rewrite is_lower_iff in Hb.
    exists a, t, b, s. auto 12.
  - intros (a & t & b & s & -> & Ha & Hb & Ht & Hlt & Hs & Hls).
    change (a :: t ++ [64%N] ++ b :: s) with ([a] ++ t ++ [64%N] ++ [b] ++ s).
    repeat apply L_cat.
    + constructor. apply orb_true_iff. now rewrite is_lower_iff, is_digit_iff.
    + apply lang_upto_cls. split; [assumption|].
      rewrite (forallb_Forall _ key_chr); [assumption|apply key_char_iff].
    + now apply lang_chr.
    + constructor. now apply is_lower_iff.
    + apply lang_upto_cls. split; [assumption|].
      rewrite (forallb_Forall _ key_chr); [assumption|apply key_char_iff].
Qed.

Lemma key_match k : fullmatch KEY_FORMAT k = true <-> w3c_key k.
Proof.
  rewrite fullmatch_lang. unfold KEY_FORMAT.
  rewrite lang_alt, simple_key_lang, tenant_key_lang. reflexivity.
Qed.

Lemma value_match v : fullmatch VALUE_FORMAT v = true <-> w3c_value v.
Proof.
  rewrite fullmatch_lang. unfold VALUE_FORMAT, w3c_value. rewrite lang_cat. split.
  - intros (r & u & -> & Hr & Hu). apply lang_cls in Hu as (c & -> & Hc).
    apply lang_upto_cls in Hr as [Hl Hr].
    rewrite (forallb_Forall _ value_chr) in Hr by apply value_char_iff.
    apply value_nblk_iff in Hc as [Hc Hn]. exists r, c. repeat split; auto; apply Hc.
  - intros (r & c & -> & Hr & Hl & Hc & Hn). exists r, [c]. repeat split.
    + apply lang_upto_cls. split; [assumption|].
      rewrite (forallb_Forall _ value_chr); [assumption|apply value_char_iff].
    + constructor. now apply value_nblk_iff.
Qed.

Lemma valid_pair_iff k v : is_valid_pair k v = true <-> w3c_pair (k, v).
Proof.
  unfold is_valid_pair, w3c_pair. rewrite andb_true_iff, key_match, value_match. reflexivity.
Qed.

Lemma valid_pair_false k v : is_valid_pair k v = false <-> ~ w3c_pair (k, v).
Proof. rewrite <- valid_pair_iff. destruct (is_valid_pair k v); intuition congruence. Qed.

(** ** Constructor *)
Lemma ts_load_inv entries d :
  NoDup (keys d) -> Forall w3c_pair d ->
  NoDup (keys (ts_load entries d)) /\ Forall w3c_pair (ts_load entries d)
  /\ length (ts_load entries d) <= length d + length entries.
Proof.
  revert d. induction entries as [|[k v] rest IH]; intros d Hnd Hf.
  - cbn. split; [assumption|split; [assumption|lia]].
  - cbn [ts_load length]. destruct (is_valid_pair k v) eqn:Hv.
    + destruct (dmem k d) eqn:Hm.
      * destruct (IH d Hnd Hf) as (H1 & H2 & H3). repeat split; auto. lia.
      * apply dmem_false in Hm. apply valid_pair_iff in Hv.
        destruct (IH (dset k v d)) as (H1 & H2 & H3).
        -- now apply NoDup_dset.
        -- rewrite keys_dset_new by assumption. apply Forall_app. auto.
        -- rewrite length_dset_new in H3 by assumption. repeat split; auto. lia.
    + destruct (IH d Hnd Hf) as (H1 & H2 & H3). repeat split; auto. lia.
Qed.

Lemma ts_new_wf entries : ts_wf (ts_new entries).
Proof.
  unfold ts_new, MAX_TRACESTATE_KEYS. destruct (Nat.ltb_spec 32 (length entries)).
  - repeat split; cbn; [lia|constructor|constructor].
  - destruct (ts_load_inv entries []) as (H1 & H2 & H3); [constructor|constructor|].
    repeat split; auto. cbn in H3. unfold ts_empty. lia.
Qed.

(** Loading distinct valid pairs appends them all. *)
Lemma ts_load_all entries d :
  NoDup (keys d ++ keys entries) -> Forall w3c_pair entries ->
  ts_load entries d = d ++ entries.
Proof.
  revert d. induction entries as [|[k v] rest IH]; intros d Hnd Hf.
  - now rewrite app_nil_r.
  - inversion Hf as [|? ? Hp Hr]; subst. cbn [ts_load].
    apply valid_pair_iff in Hp. rewrite Hp.
    assert (Hni : ~ In k (keys d)).
    { cbn in Hnd. apply NoDup_remove_2 in Hnd. rewrite in_app_iff in Hnd. tauto. }
    apply dmem_false in Hni as Hm. rewrite Hm, keys_dset_new by assumption. rewrite IH.
    + rewrite <- app_assoc. reflexivity.
    + unfold keys. rewrite map_app, <- app_assoc. exact Hnd.
    + assumption.
Qed.

Lemma ts_new_id entries : ts_wf entries -> ts_new entries = entries.
Proof.
  intros (Hl & Hnd & Hf). unfold ts_new, MAX_TRACESTATE_KEYS.
  destruct (Nat.ltb_spec 32 (length entries)); [lia|].
  rewrite ts_load_all; [reflexivity|exact Hnd|assumption].
Qed.

Lemma ts_new_long entries : 32 < length entries -> ts_new entries = [].
Proof.
  intros Hl. unfold ts_new, MAX_TRACESTATE_KEYS.
  destruct (Nat.ltb_spec 32 (length entries)); [reflexivity|lia].
Qed.

(** ** Edits *)
Lemma Forall_ddel (P : str * str -> Prop) k (d : tracestate) :
  Forall P d -> Forall P (ddel k d).
Proof. rewrite !Forall_forall. intros Hf x Hx. apply Hf. eapply In_ddel; eauto. Qed.

Lemma ts_wf_ddel d k : ts_wf d -> ts_wf (ddel k d).
Proof.
  intros (Hl & Hnd & Hf). repeat split.
  - pose proof (length_ddel_le d k). lia.
  - now apply NoDup_ddel.
  - now apply Forall_ddel.
Qed.

Lemma ts_wf_cons d k v :
  ts_wf d -> w3c_pair (k, v) -> ~ In k (keys d) -> length d < 32 -> ts_wf ((k, v) :: d).
Proof.
  intros (Hl & Hnd & Hf) Hp Hni Hlt. repeat split.
  - cbn. lia.
  - cbn. now constructor.
  - now constructor.
Qed.

Lemma ddel_others d k : NoDup (keys d) -> ddel k d = others k d.
Proof. apply ddel_filter. Qed.

Lemma ts_add_new d k v :
  ts_wf d -> w3c_pair (k, v) -> ~ In k (map fst d) -> length d < 32 ->
  ts_add d k v = (k, v) :: d.
Proof.
  intros Hwf Hp Hni Hlt. unfold ts_add, MAX_TRACESTATE_KEYS.
  apply valid_pair_iff in Hp as Hv. rewrite Hv. cbn [negb].
  destruct (Nat.leb_spec 32 (length d)); [lia|].
  apply dmem_false in Hni as Hm. rewrite Hm.
  apply ts_new_id. now apply ts_wf_cons.
Qed.

Lemma ts_add_rejected d k v :
  ts_wf d -> (~ w3c_pair (k, v) \/ In k (map fst d) \/ length d = 32) -> ts_add d k v = d.
Proof.
  intros Hwf Hc. unfold ts_add, MAX_TRACESTATE_KEYS.
  destruct (is_valid_pair k v) eqn:Hv; [|reflexivity]. cbn [negb].
  destruct (Nat.leb_spec 32 (length d)) as [|Hlt]; [reflexivity|].
  destruct (dmem k d) eqn:Hm; [reflexivity|]. exfalso.
  apply valid_pair_iff in Hv. apply dmem_false in Hm. unfold keys in Hm.
  destruct Hc as [Hc|[Hc|Hc]]; [tauto|tauto|lia].
Qed.

Lemma ts_update_invalid d k v : ~ w3c_pair (k, v) -> ts_update d k v = d.
Proof. intros Hp. unfold ts_update. apply valid_pair_false in Hp. now rewrite Hp. Qed.

Lemma ts_update_ok d k v :
  ts_wf d -> w3c_pair (k, v) -> (In k (map fst d) \/ length d < 32) ->
  ts_update d k v = (k, v) :: others k d.
Proof.
  intros Hwf Hp Hc. unfold ts_update. apply valid_pair_iff in Hp as Hv. rewrite Hv. cbn [negb].
  rewrite <- ddel_others by apply Hwf. apply ts_new_id.
  apply ts_wf_cons; [now apply ts_wf_ddel|assumption| |].
  - apply dget_keys. apply dget_ddel_eq. apply Hwf.
  - destruct Hc as [Hin|Hlt].
    + apply length_ddel in Hin. destruct Hwf. lia.
    + pose proof (length_ddel_le d k). lia.
Qed.

Lemma ts_update_full d k v :
  ts_wf d -> w3c_pair (k, v) -> ~ In k (map fst d) -> length d = 32 -> ts_update d k v = [].
Proof.
  intros Hwf Hp Hni Hl. unfold ts_update. apply valid_pair_iff in Hp as Hv. rewrite Hv. cbn [negb].
  rewrite ddel_notin by assumption. apply ts_new_long. cbn. lia.
Qed.

Lemma ts_delete_spec d k : ts_wf d -> ts_delete d k = others k d.
Proof.
  intros Hwf. unfold ts_delete. rewrite <- ddel_others by apply Hwf.
  destruct (dmem k d) eqn:Hm.
  - apply ts_new_id. now apply ts_wf_ddel.
  - apply dmem_false in Hm. symmetry. now apply ddel_notin.
Qed.

Lemma ts_add_wf d k v : ts_wf d -> ts_wf (ts_add d k v).
Proof.
  intros Hwf. unfold ts_add. destruct (negb _); [assumption|].
  destruct (Nat.leb _ _); [assumption|]. destruct (dmem k d); [assumption|]. apply ts_new_wf.
Qed.
Lemma ts_update_wf d k v : ts_wf d -> ts_wf (ts_update d k v).
Proof. intros Hwf. unfold ts_update. destruct (negb _); [assumption|]. apply ts_new_wf. Qed.
Lemma ts_delete_wf d k : ts_wf d -> ts_wf (ts_delete d k).
Proof. intros Hwf. unfold ts_delete. destruct (dmem k d); [apply ts_new_wf|assumption]. Qed.

(** Histories of edits. *)
Lemma ts_apply_wf d o : ts_wf d -> ts_wf (ts_apply d o).
Proof. destruct o; [apply ts_add_wf|apply ts_update_wf|apply ts_delete_wf]. Qed.

Lemma ts_history_wf entries ops : ts_wf (fold_left ts_apply ops (ts_new entries)).
Proof.
  assert (Hg : forall d, ts_wf d -> ts_wf (fold_left ts_apply ops d)).
  { induction ops as [|o ops IH]; cbn; intros d Hd; [assumption|]. apply IH, ts_apply_wf, Hd. }
  apply Hg, ts_new_wf.
Qed.

(** ** Headers *)
Lemma key_no_special k c : w3c_key k -> In c k -> c <> 61%N /\ c <> 44%N /\ ~ blank c.
Proof.
  intros Hk Hin.
  assert (Hc : key_chr c \/ c = 64%N).
  { destruct Hk as [(a & r & -> & Ha & Hr & _)|(a & t & b & s & -> & Ha & Hb & Ht & _ & Hs & _)].
    - destruct Hin as [<-|Hin]; [left; now left|]. left. rewrite Forall_forall in Hr. auto.
    - destruct Hin as [<-|Hin]; [left; unfold key_chr; tauto|].
      apply in_app_iff in Hin as [Hin|[<-|[<-|Hin]]].
      + left. rewrite Forall_forall in Ht. auto.
      + now right.
      + left. now left.
      + left. rewrite Forall_forall in Hs. auto. }
  unfold key_chr, lcalpha, digit, blank in *. lia.
Qed.

Lemma key_nonempty k : w3c_key k -> k <> [].
Proof. intros [(a & r & -> & _)|(a & t & b & s & -> & _)]; discriminate. Qed.

Lemma value_no_special v c : w3c_value v -> In c v -> c <> 61%N /\ c <> 44%N.
Proof.
  intros (r & x & -> & Hr & _ & Hx & _) Hin. apply in_app_iff in Hin as [Hin|[<-|[]]].
  - rewrite Forall_forall in Hr. apply Hr in Hin. unfold value_chr in Hin. lia.
  - unfold value_chr in Hx. lia.
Qed.

Lemma value_rstrip v w : w3c_value v -> blanks w -> rstrip is_ows (v ++ w) = v.
Proof.
  intros (r & x & -> & Hr & _ & Hx & Hn) Hw. rewrite rstrip_app by now apply forallb_ows.
  apply rstrip_snoc. unfold value_chr in Hx. unfold is_ows. lia.
Qed.

(** The model's member matcher computes the regular expression's groups. *)
Lemma match_member_spec m kv : match_member m = Some kv <-> is_member m kv.
Proof.
  unfold match_member, is_member, w3c_pair. split.
  - pose proof (split1_spec 61 m) as Hs. destruct (split1 61 m) as [k [r|]]; [|discriminate].
    destruct Hs as [-> Hni].
    destruct (fullmatch KEY_FORMAT k && _) eqn:Hm; [|discriminate].
    intros E. injection E as <-. cbn [fst snd].
    apply andb_true_iff in Hm as [Hk Hv]. apply key_match in Hk. apply value_match in Hv.
    split; [tauto|]. destruct (rstrip_decomp is_ows r) as (w & E & Hw).
    exists w. split; [now apply forallb_ows|]. now rewrite E at 1.
  - destruct kv as [k v]. cbn [fst snd]. intros [[Hk Hv] (w & Hw & ->)].
    change (k ++ [61%N] ++ v ++ w) with (k ++ 61%N :: v ++ w).
    rewrite split1_app.
    + rewrite value_rstrip by assumption.
      apply key_match in Hk. apply value_match in Hv. now rewrite Hk, Hv.
    + intros Hin. apply (key_no_special _ _ Hk) in Hin. tauto.
Qed.

(** The member matcher as the regular expression itself. *)
Definition MEMBER_FORMAT : re :=
  RCat KEY_FORMAT (RCat (rchr 61) (RCat VALUE_FORMAT (RStar (RCls is_ows)))).
Lemma match_member_regex m :
  (exists kv, match_member m = Some kv) <-> lang MEMBER_FORMAT m.
Proof.
  unfold MEMBER_FORMAT. split.
  - intros [[k v] Hm]. apply match_member_spec in Hm as [[Hk Hv] (w & Hw & ->)]. cbn [fst snd] in *.
    repeat apply L_cat.
    + now apply fullmatch_lang, key_match.
    + now apply lang_chr.
    + now apply fullmatch_lang, value_match.
    + now apply lang_star_cls, forallb_ows.
  - intros Hl. apply lang_cat in Hl as (k & r & -> & Hk & Hr).
    apply lang_cat in Hr as (e & r2 & -> & He & Hr2). apply lang_chr in He as ->.
    apply lang_cat in Hr2 as (v & w & -> & Hv & Hw).
    exists (k, v). apply match_member_spec. split.
    + split; [now apply key_match, fullmatch_lang | now apply value_match, fullmatch_lang].
    + exists w. split; [now apply forallb_ows, lang_star_cls|reflexivity].
Qed.

(** *** The delimiter split *)
Lemma not_blank_ows c : ~ blank c <-> is_ows c = false.
Proof. rewrite <- is_ows_iff. destruct (is_ows c); intuition congruence. Qed.

Lemma rstrip_idle p : (forall c t, p = t ++ [c] -> ~ blank c) -> rstrip is_ows p = p.
Proof.
  intros Hp. destruct p as [|c p _] using rev_ind; [reflexivity|].
  apply rstrip_snoc, not_blank_ows. eapply Hp. reflexivity.
Qed.
Lemma lstrip_idle p : (forall c t, p = c :: t -> ~ blank c) -> lstrip is_ows p = p.
Proof.
  intros Hp. apply lstrip_id. intros c t E. apply not_blank_ows. eapply Hp; eauto.
Qed.

Lemma rstrip_last p s c t : rstrip p s = t ++ [c] -> p c = false.
Proof.
  unfold rstrip. intros E. apply (f_equal (@rev N)) in E.
  rewrite rev_involutive, rev_app_distr in E. cbn in E.
  destruct (lstrip_result p (rev s)) as [E'|(x & y & E' & Hx)]; rewrite E in E'; [discriminate|].
  injection E' as <- _. assumption.
Qed.
Lemma lstrip_first p s c t : lstrip p s = c :: t -> p c = false.
Proof.
  intros E. destruct (lstrip_result p s) as [E'|(x & y & E' & Hx)]; rewrite E in E'; [discriminate|].
  injection E' as <- _. assumption.
Qed.

Lemma rstrip_lstrip_first p s c t : rstrip p (lstrip p s) = c :: t -> p c = false.
Proof.
  intros E. destruct (rstrip_decomp p (lstrip p s)) as (w & E' & _).
  rewrite E in E'. cbn in E'. eapply lstrip_first; eauto.
Qed.

Lemma blanks_no_comma w : blanks w -> ~ In 44%N w.
Proof. intros Hw Hin. unfold blanks in Hw. rewrite Forall_forall in Hw. apply Hw in Hin. unfold blank in Hin. lia. Qed.

Lemma split_on_head c s p ps : split_on c s = p :: ps ->
  match ps with
  | [] => s = p
  | _ => exists s', s = p ++ c :: s' /\ split_on c s' = ps
  end.
Proof.
  revert p ps. induction s as [|x s IH]; intros p ps E.
  - cbn in E. injection E as <- <-. reflexivity.
  - cbn in E. destruct (N.eqb_spec x c) as [->|Hx].
    + injection E as <- <-. pose proof (split_on_nonempty c s).
      destruct (split_on c s) eqn:Es; [congruence|]. exists s. split; [reflexivity|now rewrite Es].
    + destruct (split_on c s) as [|q qs] eqn:Es; [now apply split_on_nonempty in Es|].
      injection E as <- <-. specialize (IH q qs eq_refl). destruct qs as [|q2 qs].
      * now subst.
      * destruct IH as (s' & -> & Es'). exists s'. split; [reflexivity|assumption].
Qed.

Lemma lstrip_notin p s c : ~ In c s -> ~ In c (lstrip p s).
Proof. intros Hni Hin. apply Hni. destruct (lstrip_decomp p s) as (w & E & _). rewrite E. apply in_app_iff. now right. Qed.
Lemma rstrip_notin p s c : ~ In c s -> ~ In c (rstrip p s).
Proof. intros Hni Hin. apply Hni. destruct (rstrip_decomp p s) as (w & E & _). rewrite E. apply in_app_iff. now left. Qed.

(** [split_on] on a string whose leading blanks were removed. *)
Lemma ows_pieces_sound s (first : bool) ps :
  split_on 44 s = ps ->
  exists w s', s = w ++ s' /\ blanks w /\ (first = true -> w = []) /\
               ows_split first s' (ows_pieces first ps).
Proof.
  revert s first. induction ps as [|p ps IH]; intros s first E; [now apply split_on_nonempty in E|].
  pose proof (split_on_notin_all 44 s) as Hall. rewrite E in Hall.
  inversion Hall as [|? ? Hp Hps]; subst.
  pose proof (split_on_head _ _ _ _ E) as Hh.
  destruct (lstrip_decomp is_ows p) as (w & Ew & Hw). apply forallb_ows in Hw.
  destruct ps as [|q ps].
  - subst s. cbn [ows_pieces]. destruct first.
    + exists [], p. repeat split; [constructor|]. constructor; auto.
    + exists w, (lstrip is_ows p). repeat split; auto; [discriminate|].
      constructor; [now apply lstrip_notin|]. right. intros c t Ec. apply not_blank_ows.
      eapply lstrip_first; eauto.
  - destruct Hh as (s' & -> & Es').
    destruct (IH s' false Es') as (w2 & s2 & -> & Hw2 & _ & Hos).
    change (ows_pieces first (p :: q :: ps)) with
      (rstrip is_ows (if first then p else lstrip is_ows p) :: ows_pieces false (q :: ps)).
    destruct first.
    + destruct (rstrip_decomp is_ows p) as (w1 & E1 & Hw1).
      exists [], (p ++ 44%N :: w2 ++ s2). repeat split; [constructor|].
      rewrite E1 at 1. rewrite <- app_assoc.
      change (w1 ++ 44%N :: w2 ++ s2) with (w1 ++ [44%N] ++ w2 ++ s2).
      constructor; auto.
      * now apply rstrip_notin.
      * intros c t Ec. apply not_blank_ows. eapply rstrip_last; eauto.
      * now apply forallb_ows.
    + destruct (rstrip_decomp is_ows (lstrip is_ows p)) as (w1 & E1 & Hw1).
      exists w, (lstrip is_ows p ++ 44%N :: w2 ++ s2). repeat split; auto.
      * rewrite app_assoc, <- Ew. reflexivity.
      * discriminate.
      * rewrite E1 at 1. rewrite <- app_assoc.
        change (w1 ++ 44%N :: w2 ++ s2) with (w1 ++ [44%N] ++ w2 ++ s2).
        constructor; auto.
        -- apply rstrip_notin. now apply lstrip_notin.
        -- right. intros c t Ec. apply not_blank_ows. eapply rstrip_lstrip_first; eauto.
        -- intros c t Ec. apply not_blank_ows. eapply rstrip_last; eauto.
        -- now apply forallb_ows.
Qed.

Lemma ows_pieces_lblank first w s :
  blanks w -> (first = true -> w = []) ->
  ows_pieces first (split_on 44 (w ++ s)) = ows_pieces first (split_on 44 s).
Proof.
  intros Hw Hf. destruct first; [now rewrite Hf|].
  assert (Hni := blanks_no_comma _ Hw).
  assert (E : exists p ps, split_on 44 s = p :: ps /\ split_on 44 (w ++ s) = (w ++ p) :: ps).
  { clear Hf. induction w as [|c w IH]; cbn.
    - destruct (split_on 44 s) eqn:Es; [now apply split_on_nonempty in Es|]. eauto.
    - inversion Hw as [|? ? Hc Hw']; subst.
      destruct (N.eqb_spec c 44) as [->|Hc']; [exfalso; apply Hni; now left|].
      destruct IH as (p & ps & E1 & E2); [assumption| |].
      { intros Hin. apply Hni. now right. }
      exists p, ps. rewrite E2. auto. }
  destruct E as (p & ps & -> & ->).
  apply forallb_ows in Hw. destruct ps; cbn; now rewrite lstrip_app.
Qed.

Lemma ows_split_complete first s ps :
  ows_split first s ps -> ows_pieces first (split_on 44 s) = ps.
Proof.
  induction 1 as [first p Hni Hf|first p w1 w2 h ps Hni Hf Hl Hw1 Hw2 Hos IH].
  - rewrite split_on_notin by assumption. cbn. destruct first; [reflexivity|].
    destruct Hf as [Hf|Hf]; [discriminate|]. f_equal. now apply lstrip_idle.
  - rewrite app_assoc. cbn [app]. rewrite split_on_app.
    + pose proof (ows_pieces_lblank false w2 h Hw2) as Hlb.
      assert (Hpe : ows_pieces first ((p ++ w1) :: split_on 44 (w2 ++ h)) =
                    rstrip is_ows (if first then p ++ w1 else lstrip is_ows (p ++ w1))
                           :: ows_pieces false (split_on 44 (w2 ++ h))).
      { cbn. destruct (split_on 44 (w2 ++ h)) eqn:Es; [now apply split_on_nonempty in Es|].
        reflexivity. }
      rewrite Hpe. f_equal.
      * apply forallb_ows in Hw1. destruct first.
        -- rewrite rstrip_app by assumption. now apply rstrip_idle.
        -- destruct Hf as [Hf|Hf]; [discriminate|]. destruct p as [|c p].
           ++ cbn [app]. rewrite lstrip_all by assumption. reflexivity.
           ++ assert (Hc := Hf c p eq_refl). apply not_blank_ows in Hc.
              cbn [app]. rewrite lstrip_hd by assumption.
              change (c :: p ++ w1) with ((c :: p) ++ w1). rewrite rstrip_app by assumption.
              now apply rstrip_idle.
      * rewrite Hlb; [assumption|discriminate].
    + rewrite in_app_iff. intros [Hin|Hin]; [tauto|]. now apply blanks_no_comma in Hin.
Qed.

Lemma split_delim_spec s ps : split_delim s = ps <-> ows_split true s ps.
Proof.
  unfold split_delim. split.
  - intros <-. destruct (ows_pieces_sound s true _ eq_refl) as (w & s' & E & Hw & Hn & Hos).
    rewrite Hn in E by reflexivity. cbn in E. now subst.
  - apply ows_split_complete.
Qed.

(** *** Round trip *)
Lemma member_text_nonempty kv : w3c_pair kv -> member_text kv <> [].
Proof.
  intros [Hk _]. apply key_nonempty in Hk. unfold member_text.
  destruct (fst kv); [congruence|discriminate].
Qed.

Lemma member_text_no_comma kv : w3c_pair kv -> ~ In 44%N (member_text kv).
Proof.
  intros [Hk Hv] Hin. unfold member_text in Hin. rewrite !in_app_iff in Hin.
  destruct Hin as [Hin|[[Hin|[]]|Hin]].
  - apply (key_no_special _ _ Hk) in Hin. tauto.
  - discriminate.
  - apply (value_no_special _ _ Hv) in Hin. tauto.
Qed.

Lemma member_text_first kv c t : w3c_pair kv -> member_text kv = c :: t -> ~ blank c.
Proof.
  intros [Hk _] E. unfold member_text in E.
  destruct (fst kv) as [|x k] eqn:Ek; [now apply key_nonempty in Hk|].
  cbn in E. injection E as -> _.
  now apply (key_no_special _ c Hk); left.
Qed.

Lemma member_text_last kv c t : w3c_pair kv -> member_text kv = t ++ [c] -> ~ blank c.
Proof.
  intros [_ (r & x & Ev & _ & _ & Hx & Hn)] E. unfold member_text in E.
  rewrite Ev in E. rewrite !app_assoc in E. apply app_inj_tail in E as [_ <-].
  unfold value_chr, blank in *. lia.
Qed.

Lemma split_delim_join (d : tracestate) :
  d <> [] -> Forall w3c_pair d -> split_delim (ts_to_header d) = map member_text d.
Proof.
  intros Hne Hf. apply split_delim_spec.
  assert (Hg : forall first, ows_split first (ts_to_header d) (map member_text d)).
  { revert Hne. induction d as [|kv d IH]; [congruence|]. intros _ first.
    inversion Hf as [|? ? Hp Hd]; subst. destruct d as [|kv2 d].
    - cbn. constructor; [now apply member_text_no_comma|].
      right. intros c t E. eapply member_text_first; eauto.
    - change (ts_to_header (kv :: kv2 :: d)) with
        (member_text kv ++ [] ++ [44%N] ++ [] ++ ts_to_header (kv2 :: d)).
      cbn [map]. constructor.
      + now apply member_text_no_comma.
      + right. intros c t E. eapply member_text_first; eauto.
      + intros c t E. eapply member_text_last; eauto.
      + constructor.
      + constructor.
      + apply IH; [assumption|discriminate]. }
  apply Hg.
Qed.

(** The non-empty members of a list of headers. *)
Definition members (hs : list str) : list str := filter nonempty (flat_map split_delim hs).

Fixpoint load_list (ms : list str) (pairs : tracestate) : option tracestate :=
  match ms with
  | [] => Some pairs
  | m :: rest =>
      match match_member m with
      | None => None
      | Some (k, v) => if dmem k pairs then None else load_list rest (dset k v pairs)
      end
  end.

Lemma load_members_list ms pairs : load_members ms pairs = load_list (filter nonempty ms) pairs.
Proof.
  revert pairs. induction ms as [|m ms IH]; intros pairs; [reflexivity|].
  cbn [load_members filter]. destruct m as [|c m]; cbn [nonempty]; [apply IH|].
  cbn [load_list]. destruct (match_member (c :: m)) as [[k v]|]; [|reflexivity].
  destruct (dmem k pairs); [reflexivity|apply IH].
Qed.

Lemma load_list_app ms1 ms2 pairs :
  load_list (ms1 ++ ms2) pairs =
  match load_list ms1 pairs with None => None | Some p => load_list ms2 p end.
Proof.
  revert pairs. induction ms1 as [|m ms1 IH]; intros pairs; [reflexivity|].
  cbn. destruct (match_member m) as [[k v]|]; [|reflexivity].
  destruct (dmem k pairs); [reflexivity|apply IH].
Qed.

Lemma load_headers_list hs pairs : load_headers hs pairs = load_list (members hs) pairs.
Proof.
  revert pairs. induction hs as [|h hs IH]; intros pairs; [reflexivity|].
  cbn [load_headers]. unfold members. cbn [flat_map].
  rewrite filter_app, load_list_app, load_members_list.
  destruct (load_list (filter nonempty (split_delim h)) pairs); [apply IH|reflexivity].
Qed.

Lemma load_list_ok ms kvs pairs :
  Forall2 is_member ms kvs -> NoDup (keys pairs ++ keys kvs) ->
  load_list ms pairs = Some (pairs ++ kvs).
Proof.
  intros Hf. revert pairs. induction Hf as [|m [k v] ms kvs Hm Hf IH]; intros pairs Hnd.
  - now rewrite app_nil_r.
  - cbn [load_list]. apply match_member_spec in Hm. rewrite Hm.
    assert (Hni : ~ In k (keys pairs)).
    { cbn in Hnd. apply NoDup_remove_2 in Hnd. rewrite in_app_iff in Hnd. tauto. }
    apply dmem_false in Hni as Hd. rewrite Hd, keys_dset_new by assumption. rewrite IH.
    + now rewrite <- app_assoc.
    + unfold keys. rewrite map_app, <- app_assoc. exact Hnd.
Qed.

Lemma load_list_inv ms pairs res :
  NoDup (keys pairs) ->
  load_list ms pairs = Some res ->
  exists kvs, Forall2 is_member ms kvs /\ res = pairs ++ kvs /\ NoDup (keys res).
Proof.
  revert pairs. induction ms as [|m ms IH]; intros pairs Hnd; cbn [load_list].
  - intros E. injection E as <-. exists []. rewrite app_nil_r. repeat split; [constructor|assumption].
  - destruct (match_member m) as [[k v]|] eqn:Em; [|discriminate].
    destruct (dmem k pairs) eqn:Ed; [discriminate|]. intros E.
    apply IH in E as (kvs & Hf & -> & Hn); [|now apply NoDup_dset].
    apply dmem_false in Ed. rewrite keys_dset_new in Hn |- * by assumption.
    exists ((k, v) :: kvs). rewrite <- app_assoc in Hn |- *. repeat split; [|assumption].
    constructor; [now apply match_member_spec|assumption].
Qed.

Lemma Forall2_length {A B} (R : A -> B -> Prop) l l' : Forall2 R l l' -> length l = length l'.
Proof. induction 1; cbn; congruence. Qed.

Lemma header_members_spec hs ms : header_members hs ms <-> members hs = ms.
Proof.
  unfold header_members, members. split.
  - intros (pss & Hf & ->). f_equal. induction Hf as [|h ps hs pss Hh Hf IH]; [reflexivity|].
    cbn. apply split_delim_spec in Hh. now rewrite Hh, IH.
  - intros <-. exists (map split_delim hs). split.
    + induction hs as [|h hs IH]; constructor; [now apply split_delim_spec|assumption].
    + now rewrite flat_map_concat_map.
Qed.

Lemma from_header_wf hs : ts_wf (ts_from_header hs).
Proof.
  unfold ts_from_header. destruct (load_headers hs []); [apply ts_new_wf|apply (ts_new_wf [])].
Qed.

Lemma members_pairs ms kvs : Forall2 is_member ms kvs -> Forall w3c_pair kvs.
Proof. induction 1 as [|m kv ms kvs [Hp _] _ IH]; constructor; assumption. Qed.

Lemma from_header_ok hs kvs :
  Forall2 is_member (members hs) kvs -> NoDup (map fst kvs) -> length kvs <= 32 ->
  ts_from_header hs = kvs.
Proof.
  intros Hf Hnd Hl. unfold ts_from_header. rewrite load_headers_list.
  rewrite (load_list_ok _ kvs []); [|assumption|assumption]. cbn [app].
  apply ts_new_id. repeat split; [assumption|assumption|]. eapply members_pairs; eauto.
Qed.

Lemma from_header_too_many hs kvs :
  Forall2 is_member (members hs) kvs -> 32 < length kvs -> ts_from_header hs = [].
Proof.
  intros Hf Hl. unfold ts_from_header. rewrite load_headers_list.
  destruct (load_list (members hs) []) as [res|] eqn:E; [|reflexivity].
  apply load_list_inv in E as (kvs' & Hf' & -> & _); [|constructor].
  apply ts_new_long. cbn. apply Forall2_length in Hf. apply Forall2_length in Hf'. lia.
Qed.

Lemma is_member_fun m kv kv' : is_member m kv -> is_member m kv' -> kv = kv'.
Proof. rewrite <- !match_member_spec. congruence. Qed.

Lemma Forall2_member_fun ms kvs kvs' :
  Forall2 is_member ms kvs -> Forall2 is_member ms kvs' -> kvs = kvs'.
Proof.
  intros Hf. revert kvs'. induction Hf as [|m kv ms kvs Hm Hf IH]; intros kvs' Hf';
    inversion Hf'; subst; [reflexivity|].
  f_equal; [eapply is_member_fun; eauto|auto].
Qed.

Lemma from_header_bad hs :
  (exists m, In m (members hs) /\ forall kv, ~ is_member m kv) -> ts_from_header hs = [].
Proof.
  intros (m & Hin & Hm). unfold ts_from_header. rewrite load_headers_list.
  destruct (load_list (members hs) []) as [res|] eqn:E; [|reflexivity].
  apply load_list_inv in E as (kvs & Hf & _ & _); [|constructor].
  exfalso. clear -Hin Hm Hf. induction Hf as [|m' kv ms kvs Hkv Hf IH]; [contradiction|].
  destruct Hin as [->|Hin]; [now apply Hm in Hkv|auto].
Qed.

Lemma from_header_dup hs kvs :
  Forall2 is_member (members hs) kvs -> ~ NoDup (map fst kvs) -> ts_from_header hs = [].
Proof.
  intros Hf Hnd. unfold ts_from_header. rewrite load_headers_list.
  destruct (load_list (members hs) []) as [res|] eqn:E; [|reflexivity].
  apply load_list_inv in E as (kvs' & Hf' & -> & Hn); [|constructor].
  rewrite (Forall2_member_fun _ _ _ Hf Hf') in Hnd. now cbn in Hn.
Qed.

Lemma from_header_spec hs ms :
  header_members hs ms ->
  ((exists m, In m ms /\ forall kv, ~ is_member m kv) -> ts_from_header hs = [])
  /\ (forall kvs, Forall2 is_member ms kvs ->
       (~ NoDup (map fst kvs) \/ 32 < length kvs -> ts_from_header hs = [])
       /\ (NoDup (map fst kvs) -> length kvs <= 32 -> ts_from_header hs = kvs)).
Proof.
  intros Hm. apply header_members_spec in Hm as <-. split.
  - apply from_header_bad.
  - intros kvs Hf. split.
    + intros [Hn|Hl]; [eapply from_header_dup|eapply from_header_too_many]; eauto.
    + now apply from_header_ok.
Qed.

Lemma header_roundtrip d : ts_wf d -> ts_from_header [ts_to_header d] = d.
Proof.
  intros Hwf. destruct d as [|kv d]; [reflexivity|].
  assert (Hd : Forall w3c_pair (kv :: d)) by apply Hwf.
  apply from_header_ok; [|apply Hwf|apply Hwf].
  unfold members. cbn [flat_map]. rewrite app_nil_r, split_delim_join; [|discriminate|assumption].
  induction Hd as [|x l Hx Hl IH]; [constructor|].
  cbn [map filter]. pose proof (member_text_nonempty x Hx) as Hne.
  destruct (member_text x) eqn:Ex; [congruence|]. cbn [nonempty].
  rewrite <- Ex. constructor.
  - split; [assumption|]. exists []. split; [constructor|]. rewrite app_nil_r. reflexivity.
  - destruct l as [|y l]; [constructor|]. apply IH. destruct Hwf as (H1 & H2 & H3).
    cbn in H1, H2. repeat split; [cbn; lia| |assumption]. now inversion H2.
Qed.

(** ** Identifiers *)
Lemma format_hex_nonneg w z : (0 <= z)%Z -> format_hex w z = hex_pad w (Z.to_N z).
Proof. intros Hz. unfold format_hex. destruct (Z.ltb_spec z 0); [lia|reflexivity]. Qed.

Lemma pow16 w : (Z.of_N (16 ^ N.of_nat w) = 2 ^ (4 * Z.of_nat w))%Z.
Proof.
  rewrite N2Z.inj_pow, nat_N_Z. change (Z.of_N 16) with (2 ^ 4)%Z.
  rewrite <- Z.pow_mul_r by lia. reflexivity.
Qed.

Lemma format_hex_ok w z :
  (0 < w)%nat -> (0 <= z < 2 ^ (4 * Z.of_nat w))%Z ->
  length (format_hex w z) = w /\ forallb is_lhex (format_hex w z) = true
  /\ Z.of_N (hex_value (format_hex w z)) = z.
Proof.
  intros Hw Hz. rewrite format_hex_nonneg by lia. repeat split.
  - apply hex_pad_length; [assumption|]. pose proof (pow16 w). lia.
  - apply hex_pad_lhex.
  - rewrite hex_value_hex_pad. lia.
Qed.

Lemma format_trace_id_ok z :
  (0 <= z < 2 ^ 128)%Z ->
  length (format_trace_id z) = 32 /\ forallb is_lhex (format_trace_id z) = true
  /\ Z.of_N (hex_value (format_trace_id z)) = z.
Proof. intros Hz. apply (format_hex_ok 32); [lia|exact Hz]. Qed.

Lemma format_span_id_ok z :
  (0 <= z < 2 ^ 64)%Z ->
  length (format_span_id z) = 16 /\ forallb is_lhex (format_span_id z) = true
  /\ Z.of_N (hex_value (format_span_id z)) = z.
Proof. intros Hz. apply (format_hex_ok 16); [lia|exact Hz]. Qed.

Lemma others_others k d : others k (others k d) = others k d.
Proof.
  unfold others. induction d as [|[k' v'] d IH]; [reflexivity|]. cbn [filter fst].
  destruct (str_eq_dec k k') as [->|Hn]; [assumption|]. cbn [filter fst].
  destruct (str_eq_dec k k'); [congruence|]. now rewrite IH.
Qed.

Lemma others_notin k d : ~ In k (map fst d) -> others k d = d.
Proof.
  unfold others. induction d as [|[k' v'] d IH]; [reflexivity|]. cbn. intros Hni.
  destruct (str_eq_dec k k') as [->|Hn]; [tauto|]. now rewrite IH by tauto.
Qed.

Lemma format_ids_inj :
  (forall a b, (0 <= a < 2 ^ 128)%Z -> (0 <= b < 2 ^ 128)%Z ->
     format_trace_id a = format_trace_id b -> a = b)
  /\ (forall a b, (0 <= a < 2 ^ 64)%Z -> (0 <= b < 2 ^ 64)%Z ->
     format_span_id a = format_span_id b -> a = b).
Proof.
  split; intros a b Ha Hb E.
  - rewrite <- (proj2 (proj2 (format_trace_id_ok a Ha))), E. apply format_trace_id_ok, Hb.
  - rewrite <- (proj2 (proj2 (format_span_id_ok a Ha))), E. apply format_span_id_ok, Hb.
Qed.
