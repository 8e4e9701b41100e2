(** Proofs about the Zipkin exporters. *)
From Verif Require Export Spec_Zipkin Proof_Dict Proof_Str Proof_Otlp Proof_Trace.
From Coq Require Import Lia.

(** ** JSON *)

Lemma hex4 : forall n, (n < 65536)%N -> length (hex_pad 4 n) = 4%nat /\ forallb is_hex (hex_pad 4 n) = true.
Proof.
  intros n Hn. split; [apply hex_pad_length; [lia|exact Hn]|].
  apply forallb_forall. intros c Hc. apply is_lhex_is_hex. eapply (proj1 (forallb_forall _ _) (hex_pad_lhex 4 n)). exact Hc.
Qed.

Lemma json_char_denotes : forall c t s, (c < 1114112)%N -> ~ (55296 <= c < 57344)%N -> jchars t s ->
  jchars (json_char c ++ t) (c :: s).
Proof.
  intros c t s Hc Hs Ht. unfold json_char.
  destruct (N.eqb_spec c 34) as [->|H34]; [apply (jc_short 34 34); [cbn; tauto|exact Ht]|].
  destruct (N.eqb_spec c 92) as [->|H92]; [apply (jc_short 92 92); [cbn; tauto|exact Ht]|].
  destruct (N.eqb_spec c 10) as [->|H10]; [apply (jc_short 110 10); [cbn; tauto|exact Ht]|].
  destruct (N.eqb_spec c 13) as [->|H13]; [apply (jc_short 114 13); [cbn; tauto|exact Ht]|].
  destruct (N.eqb_spec c 9) as [->|H9]; [apply (jc_short 116 9); [cbn; tauto|exact Ht]|].
  destruct (N.eqb_spec c 12) as [->|H12]; [apply (jc_short 102 12); [cbn; tauto|exact Ht]|].
  destruct (N.eqb_spec c 8) as [->|H8]; [apply (jc_short 98 8); [cbn; tauto|exact Ht]|].
  destruct (N.leb 32 c && N.leb c 126) eqn:Ep.
  { apply andb_true_iff in Ep as [E1 E2]. apply N.leb_le in E1. apply (jc_plain c); auto. }
  destruct (N.ltb_spec c 65536) as [Hl|Hl].
  - destruct (hex4 c Hl) as [L1 L2]. rewrite <- app_assoc. apply (jc_unit (hex_pad 4 c) c); auto. apply hex_value_hex_pad.
  - set (n1 := (55296 + N.modulo (N.div (c - 65536) 1024) 1024)%N).
    set (n2 := (56320 + N.modulo (c - 65536) 1024)%N).
    assert (B1 : (N.div (c - 65536) 1024 < 1024)%N) by (apply N.div_lt_upper_bound; lia).
    assert (B2 : (N.modulo (c - 65536) 1024 < 1024)%N) by (apply N.mod_lt; lia).
    assert (B3 : N.modulo (N.div (c - 65536) 1024) 1024 = N.div (c - 65536) 1024) by (apply N.mod_small, B1).
    assert (B4 : (c - 65536 = 1024 * N.div (c - 65536) 1024 + N.modulo (c - 65536) 1024)%N) by (apply N.div_mod; lia).
    destruct (hex4 n1) as [L1 L2]; [unfold n1; lia|]. destruct (hex4 n2) as [L3 L4]; [unfold n2; lia|].
    replace (c :: s) with ((65536 + (n1 - 55296) * 1024 + (n2 - 56320))%N :: s) by (f_equal; unfold n1, n2; lia).
    rewrite <- !app_assoc. apply (jc_pair (hex_pad 4 n1) (hex_pad 4 n2) n1 n2); auto; try apply hex_value_hex_pad; unfold n1, n2; lia.
Qed.
Lemma json_chars_denote : forall s, scalars s -> jchars (flat_map json_char s) s.
Proof.
  intros s H. induction H as [|c s [Hc Hs] H IH]; [constructor|]. cbn [flat_map]. apply json_char_denotes; assumption.
Qed.
Lemma json_array_denotes : forall es, Forall scalar_item es -> jarray (json_array es) es.
Proof.
  intros es H. exists (map json_item es). split; [|reflexivity].
  induction H as [|[s|] es Hs H IH]; cbn [map]; constructor; try exact IH.
  - apply (jv_string (flat_map json_char s) s). apply json_chars_denote, Hs.
  - constructor.
Qed.

Lemma json_plain : forall s, plain s -> flat_map json_char s = s.
Proof.
  intros s H. induction H as [|c s (Hc & H34 & H92) H IH]; [reflexivity|]. cbn [flat_map]. rewrite IH.
  unfold json_char.
  replace (N.eqb c 34) with false by (symmetry; apply N.eqb_neq; exact H34).
  replace (N.eqb c 92) with false by (symmetry; apply N.eqb_neq; exact H92).
  replace (N.eqb c 10) with false by (symmetry; apply N.eqb_neq; lia).
  replace (N.eqb c 13) with false by (symmetry; apply N.eqb_neq; lia).
  replace (N.eqb c 9) with false by (symmetry; apply N.eqb_neq; lia).
  replace (N.eqb c 12) with false by (symmetry; apply N.eqb_neq; lia).
  replace (N.eqb c 8) with false by (symmetry; apply N.eqb_neq; lia).
  replace (N.leb 32 c && N.leb c 126) with true by (symmetry; apply andb_true_iff; split; apply N.leb_le; lia).
  reflexivity.
Qed.
Lemma plain_scalar : forall e, plain_item e -> scalar_item e.
Proof.
  intros [s|] H; [|exact I]. cbn in *. unfold plain, scalars in *. eapply Forall_impl; [|exact H]. cbn. intros c [Hc _]. lia.
Qed.
Lemma json_item_room : forall e, plain_item e -> Z.of_nat (length (json_item e)) = item_room e.
Proof.
  intros [s|] H; [|reflexivity]. cbn [json_item item_room]. unfold json_string. rewrite !app_length, json_plain by exact H. cbn [length]. lia.
Qed.
Lemma join_room : forall l, Forall plain_item l ->
  Z.of_nat (length (join (lit ",") (map json_item l)))
  = (fold_right Z.add 0 (map item_room l) + match l with [] => 0 | _ => Z.of_nat (length l) - 1 end)%Z.
Proof.
  intros l H. induction H as [|e l He H IH]; [reflexivity|].
  destruct l as [|e' l'].
  - cbn [map join fold_right length]. rewrite json_item_room by exact He. lia.
  - cbn [map] in *. cbn [join] in *. rewrite !app_length, !Nat2Z.inj_add. rewrite IH.
    rewrite json_item_room by exact He. change (length (lit ",")) with 1%nat. cbn [fold_right length map]. lia.
Qed.
Lemma json_array_room : forall es, Forall plain_item es -> Z.of_nat (length (json_array es)) = array_room es.
Proof.
  intros es H. unfold json_array, array_room. rewrite !app_length, !Nat2Z.inj_add, join_room by exact H.
  change (length (lit "[")) with 1%nat. change (length (lit "]")) with 1%nat. lia.
Qed.
Lemma room_snoc : forall acc e, array_room (acc ++ [e])
  = (array_room acc + item_room e + match acc with [] => 0 | _ => 1 end)%Z.
Proof.
  intros acc e. unfold array_room. rewrite map_app, fold_right_app, app_length.
  assert (G : forall l b, fold_right Z.add b l = (fold_right Z.add 0 l + b)%Z).
  { induction l as [|x l IH]; intros b; cbn [fold_right]; [lia|]. rewrite IH. lia. }
  rewrite G. cbn [map fold_right length]. destruct acc as [|a acc]; cbn [app length]; lia.
Qed.
Lemma room_ge2 : forall es, (2 <= array_room es)%Z.
Proof.
  intros es. unfold array_room. assert (0 <= fold_right Z.add 0 (map item_room es))%Z.
  { induction es as [|[s|] es IH]; cbn [map fold_right item_room]; lia. }
  destruct es; cbn [length]; lia.
Qed.

Lemma cut_short : forall z s, (Z.of_nat (length s) <= z)%Z -> cut (Some z) s = s.
Proof. intros z s H. unfold cut. destruct (Z.ltb_spec 0 z); [|reflexivity]. apply firstn_all2. lia. Qed.
Lemma cut_length : forall z s, (0 < z)%Z -> (Z.of_nat (length (cut (Some z) s)) <= z)%Z.
Proof. intros z s H. unfold cut. destruct (Z.ltb_spec 0 z); [|lia]. rewrite firstn_length. lia. Qed.

Section Tags.
Variable int_text float_text : Z -> str.
Notation texts := (texts int_text float_text).
Notation seq_loop := (seq_loop int_text float_text).

Lemma seq_unbounded : forall maxlen l es acc run, bounded maxlen = false -> texts l es -> seq_loop maxlen acc run l = acc ++ es.
Proof.
  intros maxlen l es acc run Hb H. revert acc run.
  assert (Hz : forall y, maxlen = Some y -> (0 <? y)%Z = false) by (intros y ->; exact Hb).
  induction H; intros acc run; cbn [Model_Zipkin.seq_loop scalar_text].
  1: symmetry; apply app_nil_r.
  1-6: destruct maxlen as [y|]; [rewrite (Hz y eq_refl)|]; rewrite IHtexts, <- app_assoc; reflexivity.
  destruct v; try destruct H; cbn [scalar_text]; apply IHtexts.
Qed.

Lemma seq_bounded : forall z l es acc, (0 < z)%Z -> texts l es -> (array_room acc <= z)%Z ->
  exists n, seq_loop (Some z) acc (array_room acc) l = acc ++ firstn n es
    /\ (n <= length es)%nat /\ (array_room (acc ++ firstn n es) <= z)%Z
    /\ (n = length es \/ (z < array_room (acc ++ firstn (S n) es))%Z).
Proof.
  intros z l es acc Hz H. revert acc.
  assert (Hz' : (0 <? z)%Z = true) by (apply Z.ltb_lt; exact Hz).
  assert (STEP : forall e l' es', (forall acc, (array_room acc <= z)%Z ->
      exists n, seq_loop (Some z) acc (array_room acc) l' = acc ++ firstn n es'
        /\ (n <= length es')%nat /\ (array_room (acc ++ firstn n es') <= z)%Z
        /\ (n = length es' \/ (z < array_room (acc ++ firstn (S n) es'))%Z)) ->
    forall acc, (array_room acc <= z)%Z ->
    exists n, (if (0 <? z)%Z then
        if (z <? array_room acc + item_room e + match acc with [] => 0 | _ => 1 end)%Z then acc
        else seq_loop (Some z) (acc ++ [e]) (array_room acc + item_room e + match acc with [] => 0 | _ => 1 end)%Z l'
      else seq_loop (Some z) (acc ++ [e]) (array_room acc) l') = acc ++ firstn n (e :: es')
      /\ (n <= length (e :: es'))%nat /\ (array_room (acc ++ firstn n (e :: es')) <= z)%Z
      /\ (n = length (e :: es') \/ (z < array_room (acc ++ firstn (S n) (e :: es')))%Z)).
  { intros e l' es' IH acc Ha. rewrite Hz', <- room_snoc.
    destruct (Z.ltb_spec z (array_room (acc ++ [e]))) as [Hlt|Hge].
    - exists O. cbn [firstn length]. rewrite app_nil_r. split; [reflexivity|]. split; [lia|]. split; [exact Ha|].
      right. exact Hlt.
    - destruct (IH _ Hge) as (n & E & Hn & Hr & Hl). exists (S n). cbn [firstn length]. rewrite E, <- app_assoc. cbn [app].
      split; [reflexivity|]. split; [lia|]. rewrite <- !app_assoc in Hr, Hl. cbn [app] in Hr, Hl. split; [exact Hr|].
      destruct Hl as [->|Hl]; [left; reflexivity|right; exact Hl]. }
  induction H; intros acc Ha; cbn [Model_Zipkin.seq_loop scalar_text].
  - exists O. cbn. rewrite app_nil_r. split; [reflexivity|]. split; [lia|]. split; [exact Ha|]. left. reflexivity.
  - apply (STEP None l es IHtexts acc Ha).
  - apply (STEP (Some (lit "true")) l es IHtexts acc Ha).
  - apply (STEP (Some (lit "false")) l es IHtexts acc Ha).
  - apply (STEP (Some (int_text z0)) l es IHtexts acc Ha).
  - apply (STEP (Some (float_text f)) l es IHtexts acc Ha).
  - apply (STEP (Some s) l es IHtexts acc Ha).
  - destruct v; try destruct H; cbn [scalar_text]; apply IHtexts, Ha.
Qed.

Lemma seq_text_unbounded : forall maxlen l es t, bounded maxlen = false -> texts l es -> Forall scalar_item es ->
  seq_text int_text float_text maxlen l = Some t -> jarray t es.
Proof.
  intros maxlen l es t Hb Ht Hs H. unfold seq_text in H.
  assert (E : Some (json_array (seq_loop maxlen [] 2 l)) = Some t).
  { destruct maxlen as [z|]; [|exact H]. destruct z as [|[p|p|]|p]; try exact H. discriminate Hb. }
  injection E as <-. rewrite (seq_unbounded _ _ _ _ _ Hb Ht). apply json_array_denotes, Hs.
Qed.
Lemma seq_text_bounded : forall z l es, (1 < z)%Z -> texts l es -> Forall scalar_item es ->
  exists t n, seq_text int_text float_text (Some z) l = Some t /\ jarray t (firstn n es)
    /\ (n <= length es)%nat /\ (array_room (firstn n es) <= z)%Z
    /\ (n = length es \/ (z < array_room (firstn (S n) es))%Z)
    /\ (Forall plain_item es -> (Z.of_nat (length t) <= z)%Z).
Proof.
  intros z l es Hz Ht Hs. destruct (seq_bounded z l es [] ltac:(lia) Ht) as (n & E & Hn & Hr & Hl).
  { change (array_room []) with 2%Z. lia. }
  change (array_room []) with 2%Z in E. cbn [app] in *.
  exists (json_array (firstn n es)), n. split; [unfold seq_text; rewrite E; destruct z as [|[p|p|]|p]; try reflexivity; lia|].
  assert (F : forall P, Forall P es -> Forall P (firstn n es)).
  { intros P HP. rewrite Forall_forall in *. intros x Hx. apply HP. rewrite <- (firstn_skipn n es). apply in_or_app. auto. }
  split; [apply json_array_denotes, F, Hs|]. split; [exact Hn|]. split; [exact Hr|]. split; [exact Hl|].
  intros Hp. rewrite json_array_room by (apply F, Hp). exact Hr.
Qed.

Lemma texts_exist : forall l, exists es, texts l es.
Proof.
  induction l as [|v l [es IH]]; [exists []; constructor|].
  destruct v as [|[|]|b z|b f|b t|b t|b t|n];
    eauto using tx_none, tx_true, tx_false, tx_int, tx_float, tx_str; exists es; apply tx_other; (exact I || assumption).
Qed.
Lemma seq_text_tag : forall maxlen l, sequence_tag int_text float_text maxlen l (option_map (cut maxlen) (seq_text int_text float_text maxlen l)).
Proof.
  intros maxlen l. unfold sequence_tag.
  destruct (match maxlen with Some z => Z.eqb z 1 | None => false end) eqn:E1.
  { destruct maxlen as [z|]; [|discriminate]. apply Z.eqb_eq in E1. subst z. reflexivity. }
  assert (E : seq_text int_text float_text maxlen l = Some (json_array (seq_loop maxlen [] 2 l))).
  { unfold seq_text. destruct maxlen as [[|[p|p|]|p]|]; try reflexivity. discriminate E1. }
  destruct (texts_exist l) as [es T]. rewrite E. cbn [option_map]. eexists. exists es. split; [reflexivity|]. split; [exact T|].
  intros Hs. destruct maxlen as [z|].
  - destruct (0 <? z)%Z eqn:E0.
    + apply Z.ltb_lt in E0. apply Z.eqb_neq in E1.
      destruct (seq_text_bounded z l es ltac:(lia) T Hs) as (t & n & Et & J & Hn & Hr & Hl & _).
      rewrite E in Et. injection Et as <-. exists n. eexists. split; [exact J|]. unfold cut.
      replace (0 <? z)%Z with true by (symmetry; apply Z.ltb_lt; lia). split; [reflexivity|]. split; [exact Hr|].
      destruct Hl as [->|Hl]; [left; reflexivity|].
      destruct (Nat.eq_dec n (length es)); [left; assumption|right; split; [lia|assumption]].
    + assert (C : forall t, cut (Some z) t = t) by (intros t; unfold cut; rewrite E0; reflexivity). rewrite C.
      exact (seq_text_unbounded (Some z) l es _ E0 T Hs E).
  - exact (seq_text_unbounded None l es _ eq_refl T Hs E).
Qed.
Lemma tag_text_spec : forall maxlen v, value_tag int_text float_text maxlen v (tag_text int_text float_text maxlen v).
Proof.
  intros maxlen v. destruct v; try reflexivity; unfold tag_text; cbn [scalar_text value_tag]; apply seq_text_tag.
Qed.
(** The tag of the attribute [k] of these attributes *)
Definition attr_text (maxlen : option Z) (d : dict str pyval) (k : str) : option str :=
  match dget k d with Some v => tag_text int_text float_text maxlen v | None => None end.
Lemma attr_text_spec : forall maxlen d k, attr_tag int_text float_text maxlen d k (attr_text maxlen d k).
Proof. intros maxlen d k. unfold attr_tag, attr_text. destruct (dget k d); [apply tag_text_spec|reflexivity]. Qed.
Lemma tag_length : forall z v t, (0 < z)%Z -> tag_text int_text float_text (Some z) v = Some t -> (Z.of_nat (length t) <= z)%Z.
Proof.
  intros z v t Hz H. unfold tag_text in H. destruct (scalar_text int_text float_text v).
  - injection H as <-. apply cut_length, Hz.
  - destruct v; try discriminate.
    + destruct (seq_text int_text float_text (Some z) (map (fun c => PInt false (Z.of_N c)) b)); [|discriminate].
      injection H as <-. apply cut_length, Hz.
    + destruct (seq_text int_text float_text (Some z) l); [|discriminate]. injection H as <-. apply cut_length, Hz.
Qed.

(** ** Tags *)
Lemma tags_fold : forall maxlen d t k, NoDup (keys d) ->
  dget k (fold_left (fun t kv => match tag_text int_text float_text maxlen (snd kv) with Some s => dset (fst kv) (Some s) t | None => t end) d t)
  = match attr_text maxlen d k with Some s => Some (Some s) | None => dget k t end.
Proof.
  intros maxlen d. induction d as [|[k' v'] d IH]; intros t k Hn; [reflexivity|]. cbn [fold_left fst snd].
  inversion Hn as [|? ? Hni Hn']; subst. rewrite IH by exact Hn'. unfold attr_text. cbn [dget].
  destruct (eq_dec k k') as [->|Hne].
  - assert (E : dget k' d = None) by (apply dget_keys; exact Hni). rewrite E.
    destruct (tag_text int_text float_text maxlen v'); [apply dget_dset_eq|reflexivity].
  - destruct (dget k d) as [v|]; [destruct (tag_text int_text float_text maxlen v); [reflexivity|]|];
      (destruct (tag_text int_text float_text maxlen v'); [apply dget_dset_ne, Hne|reflexivity]).
Qed.
Lemma tags_nodup : forall maxlen d, NoDup (keys (tags_of_dict int_text float_text maxlen d)).
Proof.
  intros maxlen d. unfold tags_of_dict.
  assert (G : forall t, NoDup (keys t) -> NoDup (keys (fold_left (fun t kv => match tag_text int_text float_text maxlen (snd kv) with Some s => dset (fst kv) (Some s) t | None => t end) d t))).
  { induction d as [|[k v] d IH]; intros t Ht; [exact Ht|]. cbn [fold_left fst snd]. apply IH.
    destruct (tag_text int_text float_text maxlen v); [apply NoDup_dset, Ht|exact Ht]. }
  apply G. constructor.
Qed.

Lemma fixed_nodup : forall s, NoDup (keys (fixed_tags int_text s)).
Proof.
  intros s. unfold fixed_tags.
  assert (G : forall a b c d e, NoDup (keys (
    (if a : bool then [(lit "otel.library.name", 0%nat); (lit "otel.library.version", 0%nat); (lit "otel.scope.name", 0%nat); (lit "otel.scope.version", 0%nat)] else [])
    ++ match b with UNSET => [] | OK => [(lit "otel.status_code", 0%nat)] | ERROR => [(lit "otel.status_code", 0%nat); (lit "error", 0%nat)] end
    ++ (if c : bool then [(lit "otel.dropped_attributes_count", 0%nat)] else [])
    ++ (if d : bool then [(lit "otel.dropped_events_count", 0%nat)] else [])
    ++ (if e : bool then [(lit "otel.dropped_links_count", 0%nat)] else [])))).
  { intros a b c d e. apply (NoDup_count_occ' str_eq_dec).
    destruct a, b, c, d, e; intros x Hx; cbn in Hx; repeat (destruct Hx as [<-|Hx]; [vm_compute; reflexivity|]); destruct Hx. }
  specialize (G (match rs_scope s with Some _ => true | None => false end) (st_code (sp_status (rs_span s)))
    (negb (Nat.eqb (ba_dropped (sp_attrs (rs_span s))) 0)) (negb (Nat.eqb (bl_dropped (sp_events (rs_span s))) 0))
    (negb (Nat.eqb (bl_dropped (sp_links (rs_span s))) 0))).
  unfold keys in *. rewrite !map_app in *.
  destruct (rs_scope s), (st_code (sp_status (rs_span s))); unfold opt_tag;
    destruct (Nat.eqb (ba_dropped (sp_attrs (rs_span s))) 0), (Nat.eqb (bl_dropped (sp_events (rs_span s))) 0),
      (Nat.eqb (bl_dropped (sp_links (rs_span s))) 0); exact G.
Qed.

Lemma fixed_special : forall s k, dget k (fixed_tags int_text s) = special_tag int_text s k.
Proof.
  intros s k. unfold fixed_tags, special_tag, str_eqb, count_text, opt_tag.
  destruct (rs_scope s) as [sc|], (st_code (sp_status (rs_span s)));
    destruct (Nat.eqb (ba_dropped (sp_attrs (rs_span s))) 0), (Nat.eqb (bl_dropped (sp_events (rs_span s))) 0),
      (Nat.eqb (bl_dropped (sp_links (rs_span s))) 0); cbn [negb app dget];
    unfold eq_dec, EqDec_str;
    repeat (match goal with |- context [str_eq_dec k ?l] => destruct (str_eq_dec k l) as [->|?]; cbn [orb]; try reflexivity end);
    try reflexivity; vm_compute; reflexivity.
Qed.

Lemma tags_of_span_get : forall maxlen s k, NoDup (keys (r_attrs (rs_resource s))) ->
  NoDup (keys (ba_dict (sp_attrs (rs_span s)))) ->
  dget k (tags_of_span int_text float_text maxlen s) =
  match special_tag int_text s k with
  | Some v => Some v
  | None => match attr_text maxlen (r_attrs (rs_resource s)) k with
            | Some t => Some (Some t)
            | None => option_map Some (attr_text maxlen (ba_dict (sp_attrs (rs_span s))) k)
            end
  end.
Proof.
  intros maxlen s k H1 H2. unfold tags_of_span. rewrite dget_dupdate by apply fixed_nodup. rewrite fixed_special.
  destruct (special_tag int_text s k); [reflexivity|]. rewrite dget_dupdate by apply tags_nodup.
  unfold tags_of_dict. rewrite !tags_fold by assumption. cbn [dget].
  destruct (attr_text maxlen (r_attrs (rs_resource s)) k); [reflexivity|].
  destruct (attr_text maxlen (ba_dict (sp_attrs (rs_span s))) k); reflexivity.
Qed.
End Tags.

(** ** Spans *)
Lemma usec_rounded : forall n, rounded (usec n) n.
Proof. intros n. unfold rounded, usec. pose proof (Z.div_mod (n + 500) 1000). pose proof (Z.mod_pos_bound (n + 500) 1000). lia. Qed.
Lemma hex_id_format : forall w z, (0 < w)%nat -> (0 <= z < 16 ^ Z.of_nat w)%Z -> hex_id w z (format_hex w z).
Proof.
  intros w z Hw Hz. rewrite format_hex_nonneg by lia. split; [|split].
  - apply hex_pad_length; [exact Hw|]. apply N2Z.inj_lt. rewrite Z2N.id, N2Z.inj_pow, nat_N_Z by lia. exact (proj2 Hz).
  - apply hex_pad_lhex.
  - rewrite hex_value_hex_pad. lia.
Qed.
Lemma trace_id_read : forall z, (0 <= z < 2 ^ 128)%Z -> hex_id 32 z (format_trace_id z).
Proof. intros z H. apply hex_id_format; [lia|]. change (16 ^ Z.of_nat 32)%Z with (2 ^ 128)%Z. exact H. Qed.
Lemma span_id_read : forall z, (0 <= z < 2 ^ 64)%Z -> hex_id 16 z (format_span_id z).
Proof. intros z H. apply hex_id_format; [lia|]. change (16 ^ Z.of_nat 16)%Z with (2 ^ 64)%Z. exact H. Qed.

Lemma cut_val_read : forall maxlen v, cut_attr maxlen v (cut_val maxlen v).
Proof.
  intros maxlen v. destruct v; try reflexivity. cbn. eexists. split; [reflexivity|]. unfold cut.
  destruct maxlen as [z|]; [|reflexivity]. destruct (0 <? z)%Z; reflexivity.
Qed.
Lemma annotations_read : forall maxlen l, Forall2 (annotation_read maxlen) l (annotations_of maxlen l).
Proof.
  intros maxlen l. induction l as [|e l IH]; constructor; [|exact IH]. split; [apply usec_rounded|]. split; [reflexivity|].
  cbn [an_attrs]. induction (ba_dict (ev_attrs e)) as [|[k v] d IHd]; constructor; [|exact IHd].
  split; [reflexivity|apply cut_val_read].
Qed.
Lemma shared_read : forall maxlen s st en k t, ids_in_range s -> sp_start s = Some st -> sp_end s = Some en ->
  zipkin_read maxlen s
    (ZSpan (format_trace_id (sc_trace_id (sp_ctx s))) (format_span_id (sc_span_id (sp_ctx s))) (sp_name s)
       (usec st) (usec (en - st)) k t (annotations_of maxlen (bl_items (sp_events s)))
       (flags_sampled (sc_flags (sp_ctx s))) (option_map (fun p => format_span_id (sc_span_id p)) (sp_parent s))).
Proof.
  intros maxlen s st en k t (H1 & H2 & H3) Hs He. unfold zipkin_read.
  cbn [z_trace z_id z_name z_time z_duration z_annotations z_debug z_parent].
  split; [apply trace_id_read, H1|]. split; [apply span_id_read, H2|]. split; [reflexivity|].
  split; [exists st, en; split; [exact Hs|]; split; [exact He|]; split; apply usec_rounded|].
  split; [apply annotations_read|]. split.
  - reflexivity.
  - destruct (sp_parent s) as [p|]; [|exact I]. cbn. apply span_id_read. apply H3. reflexivity.
Qed.

Section Spans.
Variable int_text float_text : Z -> str.

Lemma v2_read : forall maxlen s z, ids_in_range (rs_span s) -> encode_v2 int_text float_text maxlen s = Ok z ->
  zipkin_read maxlen (rs_span s) z
  /\ nth_error kind_names (Z.to_nat (sp_kind (rs_span s))) = Some (z_kind z) /\ (0 <= sp_kind (rs_span s))%Z
  /\ z_tags z = tags_of_span int_text float_text maxlen s.
Proof.
  intros maxlen s z Hr H. unfold encode_v2 in H.
  destruct (sp_start (rs_span s)) as [st|] eqn:Es; [|discriminate].
  destruct (sp_end (rs_span s)) as [en|] eqn:Ee; [|discriminate].
  destruct (kind_text (sp_kind (rs_span s))) as [k|] eqn:Ek; [|discriminate]. injection H as <-.
  split; [apply shared_read; assumption|]. cbn [z_kind z_tags].
  assert (K : nth_error kind_names (Z.to_nat (sp_kind (rs_span s))) = Some k /\ (0 <= sp_kind (rs_span s))%Z).
  { unfold kind_text in Ek.
    destruct (sp_kind (rs_span s)) as [|[[q|q|]|[q|[q|q|]|]|]|q]; try discriminate; injection Ek as <-; split; (reflexivity || lia). }
  destruct K. auto.
Qed.
Lemma tags_read : forall maxlen s k, NoDup (keys (r_attrs (rs_resource s))) -> NoDup (keys (ba_dict (sp_attrs (rs_span s)))) ->
  exists tr ts, attr_tag int_text float_text maxlen (r_attrs (rs_resource s)) k tr
    /\ attr_tag int_text float_text maxlen (ba_dict (sp_attrs (rs_span s))) k ts
    /\ dget k (tags_of_span int_text float_text maxlen s) =
       match special_tag int_text s k, tr with
       | Some v, _ => Some v
       | None, Some t => Some (Some t)
       | None, None => option_map Some ts
       end.
Proof.
  intros maxlen s k H1 H2. eexists. eexists. split; [apply attr_text_spec|]. split; [apply attr_text_spec|].
  rewrite tags_of_span_get by assumption. reflexivity.
Qed.
Lemma v2_tags_read : forall maxlen s z, encode_v2 int_text float_text maxlen s = Ok z -> z_tags z = tags_of_span int_text float_text maxlen s.
Proof.
  intros maxlen s z H. unfold encode_v2 in H.
  destruct (sp_start (rs_span s)); [|discriminate]. destruct (sp_end (rs_span s)); [|discriminate].
  destruct (kind_text (sp_kind (rs_span s))); [|discriminate]. injection H as <-. reflexivity.
Qed.
Lemma tags_of_span_nodup : forall maxlen s, NoDup (keys (tags_of_span int_text float_text maxlen s)).
Proof. intros maxlen s. unfold tags_of_span. apply NoDup_dupdate, NoDup_dupdate, tags_nodup. Qed.
Lemma v2_total : forall maxlen s st en, sp_start (rs_span s) = Some st -> sp_end (rs_span s) = Some en ->
  (0 <= sp_kind (rs_span s) <= 4)%Z -> exists z, encode_v2 int_text float_text maxlen s = Ok z.
Proof.
  intros maxlen s st en Hs He Hk. unfold encode_v2. rewrite Hs, He.
  assert (K : (sp_kind (rs_span s) = 0 \/ sp_kind (rs_span s) = 1 \/ sp_kind (rs_span s) = 2 \/ sp_kind (rs_span s) = 3
    \/ sp_kind (rs_span s) = 4)%Z) by lia.
  destruct K as [E|[E|[E|[E|E]]]]; rewrite E; cbn [kind_text]; eexists; reflexivity.
Qed.

Lemma v1_tags_ok : forall z d, v1_tags (Some z) d = Ok (map (fun kv => (fst kv, option_map (cut (Some z)) (snd kv))) d).
Proof.
  intros z d. induction d as [|[k [v|]] d IH]; [reflexivity| |]; cbn [v1_tags map fst snd option_map]; rewrite IH; reflexivity.
Qed.
Lemma v1_read : forall z0 s z, ids_in_range (rs_span s) -> encode_v1 int_text float_text (Some z0) s = Ok z ->
  zipkin_read (Some z0) (rs_span s) z
  /\ Forall2 (fun t u => fst u = fst t /\ snd u = option_map (cut (Some z0)) (snd t)) (tags_of_span int_text float_text (Some z0) s) (z_tags z).
Proof.
  intros z0 s z Hr H. unfold encode_v1 in H.
  destruct (sp_start (rs_span s)) as [st|] eqn:Es; [|discriminate].
  destruct (sp_end (rs_span s)) as [en|] eqn:Ee; [|discriminate].
  rewrite v1_tags_ok in H. injection H as <-. split; [apply shared_read; assumption|]. cbn [z_tags].
  induction (tags_of_span int_text float_text (Some z0) s) as [|t l IH]; constructor; [split; reflexivity|exact IH].
Qed.
Lemma v1_tags_none : forall d k v, dget k d = Some (Some v) -> exists e, v1_tags None d = Raises e.
Proof.
  induction d as [|[k' [v'|]] d IH]; intros k v H; [discriminate| |].
  - exists "TypeError"%string. reflexivity.
  - cbn [dget] in H. destruct (eq_dec k k'); [discriminate|]. destruct (IH _ _ H) as [e E]. exists e. cbn [v1_tags]. rewrite E. reflexivity.
Qed.
Lemma v1_default_raises : forall s sc, rs_scope s = Some sc -> exists e, encode_v1 int_text float_text None s = Raises e.
Proof.
  intros s sc Hs. unfold encode_v1.
  destruct (sp_start (rs_span s)); [|eexists; reflexivity]. destruct (sp_end (rs_span s)); [|eexists; reflexivity].
  assert (G : dget (lit "otel.scope.name") (tags_of_span int_text float_text None s) = Some (Some (sco_name sc))).
  { unfold tags_of_span. rewrite dget_dupdate by apply fixed_nodup. rewrite fixed_special.
    unfold special_tag. rewrite Hs. reflexivity. }
  destruct (v1_tags_none _ _ _ G) as [e E]. rewrite E. eexists. reflexivity.
Qed.

Lemma map_opt_Forall2 : forall {A B} (f : A -> option B) l r, map_opt f l = Some r -> Forall2 (fun a b => f a = Some b) l r.
Proof.
  intros A B f l. induction l as [|a l IH]; intros r H; cbn [map_opt] in H; [injection H as <-; constructor|]. unfold bind in H.
  destruct (f a) as [b|] eqn:E; [|discriminate]. destruct (map_opt f l) as [bs|]; [|discriminate]. injection H as <-.
  constructor; [exact E|]. apply IH. reflexivity.
Qed.

Lemma proto_read : forall maxlen s p, encode_proto int_text float_text maxlen s = Some p ->
  let sp := rs_span s in
  is_bytes 16 (zp_trace p) /\ number_of_bytes (zp_trace p) = sc_trace_id (sp_ctx sp)
  /\ is_bytes 8 (zp_id p) /\ number_of_bytes (zp_id p) = sc_span_id (sp_ctx sp)
  /\ zp_name p = sp_name sp
  /\ (exists st en, sp_start sp = Some st /\ sp_end sp = Some en /\ rounded (zp_time p) st /\ rounded (zp_duration p) (en - st))
  /\ nth_error [0; 2; 1; 3; 4]%Z (Z.to_nat (sp_kind sp)) = Some (zp_kind p)
  /\ tags_of_span int_text float_text maxlen s = map (fun kv => (fst kv, Some (snd kv))) (zp_tags p)
  /\ Forall2 (annotation_read maxlen) (bl_items (sp_events sp)) (zp_annotations p)
  /\ zp_debug p = Z.testbit (sc_flags (sp_ctx sp)) 0
  /\ match sp_parent sp, zp_parent p with
     | None, None => True
     | Some q, Some b => is_bytes 8 b /\ number_of_bytes b = sc_span_id q
     | _, _ => False
     end.
Proof.
  intros maxlen s p H sp. unfold encode_proto, bind in H. fold sp in H.
  destruct (sp_start sp) as [st|] eqn:Es; [|discriminate]. destruct (sp_end sp) as [en|] eqn:Ee; [|discriminate].
  destruct (encode_trace_id (sc_trace_id (sp_ctx sp))) as [t|] eqn:Et; [|discriminate].
  destruct (encode_span_id (sc_span_id (sp_ctx sp))) as [i|] eqn:Ei; [|discriminate].
  destruct (pb_str (sp_name sp)) as [n|] eqn:En; [|discriminate].
  destruct (pb_uint64 (usec st)) as [ts|] eqn:Ets; [|discriminate].
  destruct (pb_uint64 (usec (en - st))) as [d|] eqn:Ed; [|discriminate].
  destruct (kind_pb (sp_kind sp)) as [k|] eqn:Ek; [|discriminate].
  match type of H with context [map_opt ?f (tags_of_span _ _ _ _)] => set (F := f) in H end.
  destruct (map_opt F (tags_of_span int_text float_text maxlen s)) as [tags|] eqn:Etg; [|discriminate].
  destruct (match sp_parent sp with None => Some None | Some p0 => match encode_span_id (sc_span_id p0) with Some b => Some (Some b) | None => None end end)
    as [pp|] eqn:Ep; [|discriminate].
  match type of H with context [map_opt ?f (annotations_of _ _)] => set (G := f) in H end.
  destruct (map_opt G (annotations_of maxlen (bl_items (sp_events sp)))) as [an|] eqn:Ea; [|discriminate].
  injection H as <-. cbn [zp_trace zp_id zp_name zp_time zp_duration zp_kind zp_tags zp_annotations zp_debug zp_parent].
  assert (R : forall lo hi z x, pb_range lo hi z = Some x -> x = z).
  { intros lo hi z x. unfold pb_range. destruct ((lo <=? z)%Z && (z <=? hi)%Z); congruence. }
  assert (Rs : forall a b, pb_str a = Some b -> b = a) by (intros a b; unfold pb_str; destruct (utf8_encode a); congruence).
  apply R in Ets as ->. apply R in Ed as ->. apply Rs in En as ->.
  apply to_bytes_some in Et as (_ & T1 & T2). apply to_bytes_some in Ei as (_ & I1 & I2).
  split; [exact T1|]. split; [exact T2|]. split; [exact I1|]. split; [exact I2|]. split; [reflexivity|].
  split; [exists st, en; auto using usec_rounded|].
  split.
  { unfold kind_pb in Ek. destruct (sp_kind sp) as [|[[q|q|]|[q|[q|q|]|]|]|q]; try discriminate; injection Ek as <-; reflexivity. }
  split.
  { apply map_opt_Forall2 in Etg. induction Etg as [|[k' v'] [k2 v2] l l' H1 H2 IH]; [reflexivity|]. cbn [map fst snd].
    rewrite IH. unfold F in H1. cbn [fst snd] in H1. unfold bind in H1. destruct v' as [v'|]; [|discriminate].
    destruct (pb_str k') as [k3|] eqn:E3; [|discriminate]. destruct (pb_str v') as [v3|] eqn:E4; [|discriminate].
    apply Rs in E3. apply Rs in E4. congruence. }
  split.
  { replace an with (annotations_of maxlen (bl_items (sp_events sp))); [apply annotations_read|].
    apply map_opt_Forall2 in Ea. induction Ea as [|a b l l' H1 H2 IH]; [reflexivity|]. f_equal; [|exact IH].
    unfold G, bind in H1. destruct (pb_uint64 (an_time a)); [congruence|discriminate]. }
  split; [reflexivity|].
  destruct (sp_parent sp) as [q|]; [|injection Ep as <-; exact I].
  destruct (encode_span_id (sc_span_id q)) as [b|] eqn:Eq; [|discriminate]. injection Ep as <-.
  apply to_bytes_some in Eq. tauto.
Qed.
Lemma proto_kind : forall maxlen s p, encode_proto int_text float_text maxlen s = Some p -> (0 <= sp_kind (rs_span s) <= 4)%Z.
Proof.
  intros maxlen s p H. unfold encode_proto, bind in H.
  destruct (sp_start (rs_span s)); [|discriminate]. destruct (sp_end (rs_span s)); [|discriminate].
  destruct (encode_trace_id _); [|discriminate]. destruct (encode_span_id _); [|discriminate].
  destruct (pb_str _); [|discriminate]. destruct (pb_uint64 _); [|discriminate]. destruct (pb_uint64 _); [|discriminate].
  destruct (kind_pb (sp_kind (rs_span s))) as [k|] eqn:Ek; [|discriminate]. clear H. unfold kind_pb in Ek.
  destruct (sp_kind (rs_span s)) as [|[[q|q|]|[q|[q|q|]|]|]|q]; try discriminate; lia.
Qed.
Lemma proto_needs_version : forall maxlen s sc, rs_scope s = Some sc -> sco_version sc = None ->
  encode_proto int_text float_text maxlen s = None.
Proof.
  intros maxlen s sc Hs Hv. destruct (encode_proto int_text float_text maxlen s) as [p|] eqn:E; [|reflexivity].
  apply proto_read in E. destruct E as (_ & _ & _ & _ & _ & _ & _ & T & _).
  assert (G : dget (lit "otel.scope.version") (tags_of_span int_text float_text maxlen s) = Some None).
  { unfold tags_of_span. rewrite dget_dupdate by apply fixed_nodup. rewrite fixed_special.
    unfold special_tag. rewrite Hs, Hv. reflexivity. }
  rewrite T in G. clear T. induction (zp_tags p) as [|[k v] l IH]; [discriminate|]. cbn [map dget fst snd] in G.
  destruct (eq_dec (lit "otel.scope.version") k); [discriminate|auto].
Qed.
End Spans.

(** ** The exporter *)
Lemma encode_each_Forall2 : forall enc l zs, encode_each enc l = Ok zs -> Forall2 (fun s z => enc s = Ok z) l zs.
Proof.
  intros enc l. induction l as [|s l IH]; intros zs H; cbn [encode_each] in H; [injection H as <-; constructor|].
  destruct (enc s) as [z|] eqn:E; [|discriminate]. destruct (encode_each enc l) as [zs'|]; [|discriminate]. injection H as <-.
  constructor; [exact E|]. apply IH. reflexivity.
Qed.
Lemma encode_each_total : forall enc l, Forall (fun s => exists z, enc s = Ok z) l -> exists zs, encode_each enc l = Ok zs.
Proof.
  intros enc l H. induction H as [|s l [z Hz] H [zs IH]]; [eexists; reflexivity|]. cbn [encode_each]. rewrite Hz, IH. eauto.
Qed.
Lemma closed_run : forall enc h e, ze_closed e = true ->
  posts enc e h = [] /\ results enc e h = repeat (Ok false) (exports_in h).
Proof.
  intros enc h. induction h as [|[l r|] h IH]; intros e He; [split; reflexivity| |].
  - unfold posts, results in *. cbn [zrun exports_in repeat]. unfold zexport. rewrite He.
    destruct (IH e He) as [I1 I2]. destruct (zrun enc e h) as [[ps xs] e2]. cbn [fst snd] in *. subst. auto.
  - unfold posts, results in *. cbn [zrun exports_in]. apply IH. reflexivity.
Qed.
Lemma run_app : forall enc h1 h2 e, exists e',
  posts enc e (h1 ++ h2) = posts enc e h1 ++ posts enc e' h2
  /\ results enc e (h1 ++ h2) = results enc e h1 ++ results enc e' h2
  /\ (In ZShutdown h1 \/ ze_closed e = true -> ze_closed e' = true).
Proof.
  intros enc h1 h2. induction h1 as [|[l r|] h1 IH]; intros e.
  - exists e. split; [reflexivity|]. split; [reflexivity|]. intros [[]|H]; exact H.
  - unfold posts, results in *. cbn [app zrun]. destruct (zexport enc e l r) as [[p x] e1] eqn:E.
    destruct (IH e1) as (e' & I1 & I2 & I3). exists e'.
    destruct (zrun enc e1 (h1 ++ h2)) as [[ps xs] e2]. destruct (zrun enc e1 h1) as [[ps1 xs1] e3]. cbn [fst snd] in *. subst.
    split; [destruct p; reflexivity|]. split; [reflexivity|]. intros H. apply I3.
    destruct H as [[H|H]|H]; [discriminate|auto|]. right. unfold zexport in E. rewrite H in E. injection E as _ _ <-. exact H.
  - destruct (IH (zshutdown e)) as (e' & I1 & I2 & I3). exists e'. split; [exact I1|]. split; [exact I2|]. intros _. apply I3. right. reflexivity.
Qed.
Lemma after_shutdown : forall enc e h1 h2, posts enc e (h1 ++ ZShutdown :: h2) = posts enc e h1
  /\ results enc e (h1 ++ ZShutdown :: h2) = results enc e h1 ++ repeat (Ok false) (exports_in h2).
Proof.
  intros enc e h1 h2. destruct (run_app enc h1 (ZShutdown :: h2) e) as (e' & E1 & E2 & _). rewrite E1, E2.
  destruct (closed_run enc h2 (zshutdown e') eq_refl) as [C1 C2].
  unfold posts, results in *. cbn [zrun]. rewrite C1, C2. rewrite app_nil_r. auto.
Qed.
