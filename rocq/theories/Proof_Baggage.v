From Verif Require Export Proof_TraceContext Proof_Url.

(** ** Grammar *)
Lemma bkey_char_iff c : bkey_char c = true <-> token_chr c.
Proof. unfold bkey_char, token_chr, in_range. cbn [In]. lia. Qed.
Lemma bvalue_char_iff c : bvalue_char c = true <-> bval_chr c.
Proof. unfold bvalue_char, bval_chr, in_range. cbn [In]. lia. Qed.

Lemma bkey_match k : fullmatch BKEY_FORMAT k = true <-> token k.
Proof.
  rewrite fullmatch_lang. unfold BKEY_FORMAT. rewrite lang_plus_cls.
  rewrite (forallb_Forall _ _ _ bkey_char_iff). reflexivity.
Qed.
Lemma bvalue_match v : fullmatch BVALUE_FORMAT v = true <-> bval v.
Proof.
  rewrite fullmatch_lang. unfold BVALUE_FORMAT. rewrite lang_star_cls.
  apply (forallb_Forall _ _ _ bvalue_char_iff).
Qed.
Lemma ows_lang w : lang OWS_FORMAT w <-> blanks w.
Proof. unfold OWS_FORMAT. rewrite lang_star_cls. apply forallb_ows. Qed.

Lemma key_value_lang p : lang KEY_VALUE_FORMAT p <->
  exists w1 k w2 w3 v w4, blanks w1 /\ token k /\ blanks w2 /\ blanks w3 /\ bval v /\ blanks w4
    /\ p = w1 ++ k ++ w2 ++ [61%N] ++ w3 ++ v ++ w4.
Proof.
  unfold KEY_VALUE_FORMAT. split.
  - intros Hl. apply lang_cat in Hl as (w1 & r & -> & H1 & Hl).
    apply lang_cat in Hl as (k & r2 & -> & H2 & Hl).
    apply lang_cat in Hl as (w2 & r3 & -> & H3 & Hl).
    apply lang_cat in Hl as (e & r4 & -> & H4 & Hl).
    apply lang_cat in Hl as (w3 & r5 & -> & H5 & Hl).
    apply lang_cat in Hl as (v & w4 & -> & H6 & H7).
    apply lang_chr in H4 as ->. apply ows_lang in H1, H3, H5, H7.
    apply fullmatch_lang, bkey_match in H2. apply fullmatch_lang, bvalue_match in H6.
    exists w1, k, w2, w3, v, w4. auto 10.
  - intros (w1 & k & w2 & w3 & v & w4 & H1 & H2 & H3 & H4 & H5 & H6 & ->).
    repeat apply L_cat; try (now apply ows_lang).
    + now apply fullmatch_lang, bkey_match.
    + now apply lang_chr.
    + now apply fullmatch_lang, bvalue_match.
Qed.

Lemma property_match p : fullmatch PROPERTY_FORMAT p = true <-> bproperty p.
Proof.
  rewrite fullmatch_lang. unfold PROPERTY_FORMAT. rewrite lang_alt, key_value_lang. split.
  - intros [(w1 & k & w2 & w3 & v & w4 & H1 & H2 & H3 & H4 & H5 & H6 & ->)|Hl].
    + exists w1, k, w2. repeat (split; [assumption|]). right. exists w3, v, w4. auto.
    + apply lang_cat in Hl as (w1 & r & -> & H1 & Hl).
      apply lang_cat in Hl as (k & w2 & -> & H2 & H3).
      apply ows_lang in H1, H3. apply fullmatch_lang, bkey_match in H2.
      exists w1, k, w2. auto.
  - intros (w1 & k & w2 & H1 & H2 & H3 & [->|(w3 & v & w4 & H4 & H5 & H6 & ->)]).
    + right. repeat apply L_cat; try (now apply ows_lang).
      now apply fullmatch_lang, bkey_match.
    + left. exists w1, k, w2, w3, v, w4. auto 10.
Qed.

Lemma bval_no_semicolon p : bval p -> ~ In 59%N p.
Proof.
  unfold bval. intros Hp Hin. rewrite Forall_forall in Hp. apply Hp in Hin as [_ Hn].
  apply Hn. cbn [In]. lia.
Qed.

Lemma bvalue_valid v : is_valid_bvalue v = true <-> bvalue_text v.
Proof.
  unfold is_valid_bvalue, bvalue_text. split.
  - pose proof (join_split_on 59 v) as Hj. pose proof (split_on_notin_all 59 v) as Hn.
    destruct (split_on 59 v) as [|p0 props]; [discriminate|].
    rewrite andb_true_iff, bvalue_match. intros [H0 Hp]. exists p0, props.
    inversion Hn; subst. repeat split; auto.
    rewrite (forallb_Forall _ _ _ property_match) in Hp. exact Hp.
  - intros (p0 & props & -> & H0 & Hp & Hn).
    rewrite split_on_join; [|discriminate|].
    + apply andb_true_iff. split; [now apply bvalue_match|].
      rewrite (forallb_Forall _ _ _ property_match). exact Hp.
    + constructor; [now apply bval_no_semicolon|assumption].
Qed.

Lemma token_no_eq k : token k -> ~ In 61%N k.
Proof.
  intros [_ Hk] Hin. rewrite Forall_forall in Hk. apply Hk in Hin as [_ Hn].
  apply Hn. cbn [In]. lia.
Qed.

(** ** The loop *)
Definition parse_piece (e : str) : option (str * str) :=
  if N.ltb MAX_PAIR_LENGTH (nlen e) then None
  else match split1 61 e with
       | (_, None) => None
       | (n, Some v) => if is_valid_bpair n v then Some (n, v) else None
       end.

Lemma parse_piece_spec e nv : parse_piece e = Some nv <-> baggage_piece e nv.
Proof.
  unfold parse_piece, baggage_piece, MAX_PAIR_LENGTH, nlen. split.
  - destruct (N.ltb_spec 4096 (N.of_nat (length e))) as [|Hle]; [discriminate|].
    pose proof (split1_spec 61 e) as Hs. destruct (split1 61 e) as [n [v|]]; [|discriminate].
    destruct Hs as [-> Hni]. unfold is_valid_bpair, is_valid_bkey.
    destruct (fullmatch BKEY_FORMAT n && is_valid_bvalue v) eqn:Hv; [|discriminate].
    intros E. injection E as <-. apply andb_true_iff in Hv as [Hk Hv].
    apply bkey_match in Hk. apply bvalue_valid in Hv. auto.
  - destruct nv as [n v]. cbn [fst snd]. intros (Hle & -> & Hk & Hv).
    destruct (N.ltb_spec 4096 (N.of_nat (length (n ++ [61%N] ++ v)))); [lia|].
    change (n ++ [61%N] ++ v) with (n ++ 61%N :: v).
    rewrite split1_app by now apply token_no_eq.
    unfold is_valid_bpair, is_valid_bkey. apply bkey_match in Hk. apply bvalue_valid in Hv.
    now rewrite Hk, Hv.
Qed.

Definition put (ctx : context) (nv : str * str) : context :=
  set_baggage (strip py_space (unquote_plus (fst nv)))
              (OStr (strip py_space (unquote_plus (snd nv)))) ctx.

Definition parse_pieces (es : list str) : list (str * str) :=
  flat_map (fun e => match parse_piece e with Some nv => [nv] | None => [] end) es.

Lemma bag_loop_spec es left ctx : 0 < left ->
  bag_loop es left ctx = fold_left put (firstn left (parse_pieces es)) ctx.
Proof.
  revert left ctx. induction es as [|e es IH]; intros left ctx Hl.
  - cbn [bag_loop parse_pieces flat_map]. now rewrite firstn_nil.
  - cbn [bag_loop]. unfold parse_pieces. cbn [flat_map]. fold (parse_pieces es).
    unfold parse_piece at 1. destruct (N.ltb MAX_PAIR_LENGTH (nlen e)); [now apply IH|].
    destruct e as [|c e]; [cbn [split1]; now apply IH|].
    destruct (split1 61 (c :: e)) as [n [v|]]; [|now apply IH].
    destruct (is_valid_bpair n v); [|now apply IH].
    destruct left as [|left]; [lia|]. cbn [app firstn fold_left].
    replace (S left - 1) with left by lia.
    destruct (Nat.eqb_spec left 0) as [->|Hn].
    + now rewrite firstn_O.
    + rewrite IH by lia. reflexivity.
Qed.

Lemma taken_spec ps nvs : taken ps nvs <-> parse_pieces ps = nvs.
Proof.
  split.
  - induction 1 as [|p ps nv nvs Hp _ IH|p ps nvs Hp _ IH]; [reflexivity| |];
      unfold parse_pieces; cbn [flat_map]; fold (parse_pieces ps).
    + apply parse_piece_spec in Hp. rewrite Hp, IH. reflexivity.
    + destruct (parse_piece p) as [nv|] eqn:E; [|exact IH].
      apply parse_piece_spec in E. now apply Hp in E.
  - intros <-. induction ps as [|p ps IH]; [constructor|].
    unfold parse_pieces. cbn [flat_map]. fold (parse_pieces ps).
    destruct (parse_piece p) as [nv|] eqn:E; cbn [app].
    + constructor; [now apply parse_piece_spec|assumption].
    + constructor; [|assumption]. intros nv Hp. apply parse_piece_spec in Hp. congruence.
Qed.

Lemma bag_extract_spec g ctx h rest ps nvs :
  g_get g BAGGAGE = Some (h :: rest) -> (N.of_nat (length h) <= 8192)%N ->
  ows_split true h ps -> taken ps nvs ->
  bag_extract g ctx = fold_left put (firstn 180 nvs) ctx.
Proof.
  intros Hg Hl Hs Ht. unfold bag_extract. rewrite Hg. cbn [first_element].
  apply split_delim_spec in Hs. apply taken_spec in Ht.
  destruct h as [|c h].
  - cbn in Hs. subst ps. cbn in Ht. subst nvs. reflexivity.
  - unfold MAX_HEADER_LENGTH, nlen. destruct (N.ltb_spec 8192 (N.of_nat (length (c :: h)))); [lia|].
    rewrite bag_loop_spec by (unfold MAX_PAIRS; lia). now rewrite Hs, Ht.
Qed.

Lemma bag_extract_ignored g ctx :
  (forall h rest, g_get g BAGGAGE = Some (h :: rest) -> (8192 < N.of_nat (length h))%N) ->
  bag_extract g ctx = ctx.
Proof.
  intros Hg. unfold bag_extract. destruct (g_get g BAGGAGE) as [[|h rest]|]; try reflexivity.
  cbn [first_element]. specialize (Hg h rest eq_refl). destruct h as [|c h]; [reflexivity|].
  unfold MAX_HEADER_LENGTH, nlen. destruct (N.ltb_spec 8192 (N.of_nat (length (c :: h)))); [reflexivity|lia].
Qed.

(** ** Effect on the context *)
Lemma get_all_set_baggage n v ctx : get_all (set_baggage n v ctx) = dset n v (get_all ctx).
Proof. unfold get_all at 1, set_baggage. now rewrite get_value_set_eq. Qed.

Lemma get_value_set_baggage k n v ctx : k <> BAGGAGE_KEY ->
  get_value k (set_baggage n v ctx) = get_value k ctx.
Proof. intros Hk. unfold set_baggage. now apply get_value_set_ne. Qed.

Lemma fold_put_frame nvs ctx k : k <> BAGGAGE_KEY ->
  get_value k (fold_left put nvs ctx) = get_value k ctx.
Proof.
  intros Hk. revert ctx. induction nvs as [|nv nvs IH]; intros ctx; [reflexivity|].
  cbn [fold_left]. rewrite IH. now apply get_value_set_baggage.
Qed.

Lemma fold_put_get_all nvs ctx :
  get_all (fold_left put nvs ctx) =
  dupdate (get_all ctx)
    (map (fun nv => (strip py_space (unquote_plus (fst nv)),
                     OStr (strip py_space (unquote_plus (snd nv))))) nvs).
Proof.
  revert ctx. induction nvs as [|nv nvs IH]; intros ctx; [reflexivity|].
  cbn [fold_left map]. rewrite IH. unfold put. rewrite get_all_set_baggage. reflexivity.
Qed.

Lemma length_dupdate {V} (l d : dict str V) : length (dupdate d l) <= length d + length l.
Proof.
  revert d. induction l as [|[k v] l IH]; intros d; cbn; [lia|].
  unfold dupdate in *. specialize (IH (dset k v d)).
  destruct (in_dec eq_dec k (keys d)) as [Hin|Hni].
  - rewrite length_dset_in in IH by assumption. cbn [fst snd]. lia.
  - rewrite length_dset_new in IH by assumption. cbn [fst snd]. lia.
Qed.

Lemma bag_extract_cases g ctx :
  exists nvs, bag_extract g ctx = fold_left put nvs ctx /\ length nvs <= 180.
Proof.
  unfold bag_extract. destruct (first_element (g_get g BAGGAGE)) as [[|c h]|];
    try (exists []; split; [reflexivity|cbn; lia]).
  destruct (N.ltb MAX_HEADER_LENGTH (nlen (c :: h))); [exists []; split; [reflexivity|cbn; lia]|].
  rewrite bag_loop_spec by (unfold MAX_PAIRS; lia). eexists. split; [reflexivity|].
  apply firstn_le_length.
Qed.

Lemma bag_extract_bounded g ctx :
  (forall k, k <> BAGGAGE_KEY -> get_value k (bag_extract g ctx) = get_value k ctx)
  /\ length (get_all (bag_extract g ctx)) <= length (get_all ctx) + 180.
Proof.
  destruct (bag_extract_cases g ctx) as (nvs & E & Hl). rewrite E. split.
  - intros k Hk. now apply fold_put_frame.
  - rewrite fold_put_get_all.
    match goal with |- length (dupdate ?d ?l) <= _ => pose proof (length_dupdate l d) as H end.
    rewrite map_length in H. lia.
Qed.

(** ** Round trip *)
Definition baggage_ok (kv : str * str) : Prop :=
  fst kv <> [] /\ unicode_text (fst kv) /\ trimmed (fst kv)
  /\ unicode_text (snd kv) /\ trimmed (snd kv).

Definition as_objs (d : list (str * str)) : dict str obj := map (fun kv => (fst kv, OStr (snd kv))) d.

Lemma quoted_bkey c : quoted_char c = true -> bkey_char c = true.
Proof.
  unfold quoted_char, always_safe, bkey_char, is_upper, is_lower, is_digit, in_range. lia.
Qed.
Lemma quoted_bvalue c : quoted_char c = true -> bvalue_char c = true.
Proof.
  unfold quoted_char, always_safe, bvalue_char, is_upper, is_lower, is_digit, in_range. lia.
Qed.
Lemma quoted_plain c : quoted_char c = true -> c <> 44%N /\ c <> 61%N /\ c <> 59%N /\ ~ blank c.
Proof.
  unfold quoted_char, always_safe, is_upper, is_lower, is_digit, in_range, blank. lia.
Qed.

Definition good_piece (p : str) (kv : str * str) : Prop :=
  exists a b, p = a ++ [61%N] ++ b /\ a <> [] /\ forallb quoted_char a = true
    /\ forallb quoted_char b = true /\ unquote_plus a = fst kv /\ unquote_plus b = snd kv.

Lemma format_pairs_ok py_str d : Forall baggage_ok d ->
  exists ps, format_pairs py_str (as_objs d) = Some ps /\ Forall2 good_piece ps d.
Proof.
  induction 1 as [|[k v] d (Hne & Uk & Tk & Uv & Tv) _ IH].
  - exists []. split; [reflexivity|constructor].
  - destruct IH as (ps & E & Hf). cbn [fst snd] in *.
    destruct (quote_plus_round_trip k Uk) as (a & Ea & Fa & Ra & Na).
    destruct (quote_plus_round_trip v Uv) as (b & Eb & Fb & Rb & _).
    exists ((a ++ [61%N] ++ b) :: ps). cbn [as_objs map format_pairs to_str fst snd].
    unfold as_objs in E. rewrite Ea, Eb, E. split; [reflexivity|].
    constructor; [|exact Hf]. exists a, b. cbn [fst snd]. auto 10.
Qed.

Lemma good_piece_chars p kv c : good_piece p kv -> In c p -> c <> 44%N /\ ~ blank c.
Proof.
  intros (a & b & -> & _ & Fa & Fb & _) Hin. rewrite !in_app_iff in Hin.
  rewrite forallb_forall in Fa, Fb.
  destruct Hin as [Hin|[[<-|[]]|Hin]].
  - apply Fa, quoted_plain in Hin. tauto.
  - split; [lia|]. unfold blank. lia.
  - apply Fb, quoted_plain in Hin. tauto.
Qed.

Lemma split_good_pieces ps d : ps <> [] -> Forall2 good_piece ps d ->
  ows_split true (join [44%N] ps) ps.
Proof.
  intros Hne Hf.
  assert (Hg : forall first, ows_split first (join [44%N] ps) ps); [|apply Hg].
  induction Hf as [|p kv ps d Hp Hf IH]; [congruence|]. intros first.
  assert (H44 : ~ In 44%N p).
  { intros Hin. apply (good_piece_chars _ _ _ Hp) in Hin. tauto. }
  assert (Hfst : forall c t, p = c :: t -> ~ blank c).
  { intros c t ->. apply (good_piece_chars _ _ c Hp). now left. }
  destruct ps as [|p2 ps].
  - cbn. constructor; auto.
  - change (join [44%N] (p :: p2 :: ps)) with (p ++ [] ++ [44%N] ++ [] ++ join [44%N] (p2 :: ps)).
    constructor; auto.
    + intros c t ->. apply (good_piece_chars _ _ c Hp). apply in_app_iff. right. now left.
    + constructor.
    + constructor.
    + apply IH. discriminate.
Qed.

Lemma good_piece_taken p kv : good_piece p kv -> (N.of_nat (length p) <= 4096)%N ->
  exists nv, baggage_piece p nv
    /\ unquote_plus (fst nv) = fst kv /\ unquote_plus (snd nv) = snd kv.
Proof.
  intros (a & b & -> & Hne & Fa & Fb & Ra & Rb) Hl. exists (a, b). cbn [fst snd].
  split; [|auto]. split; [exact Hl|]. split; [reflexivity|]. split.
  - split; [exact Hne|]. apply (forallb_Forall _ _ _ bkey_char_iff).
    eapply forallb_impl; [|exact Fa]. exact quoted_bkey.
  - exists b, []. cbn [join snd]. repeat split; auto.
    apply (forallb_Forall _ _ _ bvalue_char_iff).
    eapply forallb_impl; [|exact Fb]. exact quoted_bvalue.
Qed.

Lemma good_pieces_taken ps d : Forall2 good_piece ps d ->
  Forall (fun p => (N.of_nat (length p) <= 4096)%N) ps ->
  exists nvs, taken ps nvs
    /\ map (fun nv => (unquote_plus (fst nv), unquote_plus (snd nv))) nvs = d.
Proof.
  induction 1 as [|p kv ps d Hp Hf IH]; intros Hl.
  - exists []. split; [constructor|reflexivity].
  - inversion Hl as [|? ? H1 H2]; subst. destruct (IH H2) as (nvs & Ht & Hm).
    destruct (good_piece_taken _ _ Hp H1) as (nv & Hbp & E1 & E2).
    exists (nv :: nvs). split; [now constructor|]. cbn [map]. rewrite E1, E2, Hm.
    now destruct kv.
Qed.

Lemma bag_inject_ok py_str ctx d :
  get_all ctx = as_objs d -> d <> [] -> Forall baggage_ok d ->
  exists ps, bag_inject py_str ctx = Injected [(BAGGAGE, join [44%N] ps)] false
             /\ Forall2 good_piece ps d.
Proof.
  intros Hg Hne Hok. destruct (format_pairs_ok py_str d Hok) as (ps & E & Hf).
  exists ps. split; [|exact Hf]. unfold bag_inject. rewrite Hg.
  destruct d as [|kv d]; [congruence|].
  cbn [as_objs map]. cbn [as_objs map] in E. rewrite E. reflexivity.
Qed.

Lemma good_pieces_split_on ps d : ps <> [] -> Forall2 good_piece ps d ->
  split_on 44 (join [44%N] ps) = ps.
Proof.
  intros Hne Hf. apply split_on_join; [exact Hne|]. clear Hne.
  induction Hf as [|p kv ps d Hp Hf IH]; constructor; [|exact IH].
  intros Hin. apply (good_piece_chars _ _ _ Hp) in Hin. tauto.
Qed.

(** The header an injection wrote, and the limits of the baggage specification on it. *)
Definition within_limits (h : str) (d : list (str * str)) : Prop :=
  length d <= 180 /\ (N.of_nat (length h) <= 8192)%N
  /\ Forall (fun p => (N.of_nat (length p) <= 4096)%N) (split_on 44 h).

Lemma bag_extract_of_good g h rest ps d base :
  g_get g BAGGAGE = Some (h :: rest) ->
  h = join [44%N] ps -> ps <> [] -> Forall2 good_piece ps d -> Forall baggage_ok d ->
  within_limits h d ->
  bag_extract g base = fold_left (fun c kv => set_baggage (fst kv) (OStr (snd kv)) c) d base.
Proof.
  intros Hg Eh Hne Hf Hok (Hd & Hh & Hp). rewrite Eh in Hp.
  rewrite (good_pieces_split_on ps d Hne Hf) in Hp.
  destruct (good_pieces_taken ps d Hf Hp) as (nvs & Ht & Hm).
  rewrite (bag_extract_spec g base h rest ps nvs Hg Hh); [| |exact Ht].
  - assert (Hlen : length nvs = length d) by (rewrite <- Hm; now rewrite map_length).
    rewrite firstn_all2 by lia. clear -Hm Hok. revert d base Hm Hok.
    induction nvs as [|nv nvs IH]; intros d base Hm Hok.
    + cbn in Hm. subst d. reflexivity.
    + cbn in Hm. destruct d as [|kv d]; [discriminate|]. injection Hm as E Hm.
      inversion Hok as [|? ? Hkv Hd]; subst. destruct Hkv as (_ & _ & Tk & _ & Tv).
      cbn [fst snd] in Tk, Tv. cbn [fold_left fst snd]. rewrite <- IH by auto.
      f_equal. unfold put. now rewrite !strip_trimmed by assumption.
  - rewrite Eh. now apply split_good_pieces with d.
Qed.

Lemma fold_set_get_all d base :
  get_all (fold_left (fun c kv => set_baggage (fst kv) (OStr (snd kv)) c) d base)
  = dupdate (get_all base) (as_objs d).
Proof.
  revert base. induction d as [|kv d IH]; intros base; [reflexivity|].
  cbn [fold_left]. rewrite IH, get_all_set_baggage. reflexivity.
Qed.
Lemma fold_set_frame d base k : k <> BAGGAGE_KEY ->
  get_value k (fold_left (fun c kv => set_baggage (fst kv) (OStr (snd kv)) c) d base)
  = get_value k base.
Proof.
  intros Hk. revert base. induction d as [|kv d IH]; intros base; [reflexivity|].
  cbn [fold_left]. rewrite IH. now apply get_value_set_baggage.
Qed.

Lemma bag_round_trip py_str ctx d base c0 :
  get_all ctx = as_objs d -> d <> [] -> NoDup (map fst d) -> Forall baggage_ok d ->
  exists h, bag_inject py_str ctx = Injected [(BAGGAGE, h)] false /\
    (within_limits h d ->
     let g := default_getter (default_set [(BAGGAGE, h)] c0) in
     (forall k, k <> BAGGAGE_KEY -> get_value k (bag_extract g base) = get_value k base)
     /\ (forall name, get_baggage name (bag_extract g base) =
           match dget name d with Some v => OStr v | None => get_baggage name base end)
     /\ (get_all base = [] -> get_all (bag_extract g base) = get_all ctx)).
Proof.
  intros Hg Hne Hnd Hok. destruct (bag_inject_ok py_str ctx d Hg Hne Hok) as (ps & Ei & Hf).
  exists (join [44%N] ps). split; [exact Ei|]. intros Hw. cbn zeta.
  assert (Hps : ps <> []). { intros ->. inversion Hf. congruence. }
  rewrite (bag_extract_of_good _ (join [44%N] ps) [] ps d base); auto.
  - assert (Hga := fold_set_get_all d base).
    assert (Hk : keys (as_objs d) = map fst d).
    { unfold keys, as_objs. rewrite map_map. reflexivity. }
    assert (Hdg : forall n, dget n (as_objs d) = option_map OStr (dget n d)).
    { intros n. clear. induction d as [|[k v] d IH]; cbn; [reflexivity|].
      destruct (eq_dec n k); [reflexivity|exact IH]. }
    split; [|split].
    + intros k Hk'. now apply fold_set_frame.
    + intros name. unfold get_baggage. rewrite Hga, dget_dupdate by now rewrite Hk.
      rewrite Hdg. destruct (dget name d); reflexivity.
    + intros Hb. rewrite Hga, Hb, Hg. apply dict_of_NoDup. now rewrite Hk.
  - cbn [g_get default_getter]. rewrite dget_default_set.
    + cbn [dget]. destruct (eq_dec BAGGAGE BAGGAGE); [reflexivity|congruence].
    + cbn. repeat constructor. tauto.
Qed.

Lemma bag_reading_exists h : exists ps nvs, ows_split true h ps /\ taken ps nvs.
Proof.
  exists (split_delim h), (parse_pieces (split_delim h)). split.
  - now apply split_delim_spec.
  - now apply taken_spec.
Qed.
