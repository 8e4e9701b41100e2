From Verif Require Export Proof_Baggage.

Section Nd.
Variable nd : N -> option N.

Lemma digit16_spec c d : digit16 nd c = Some d <-> hex_digit nd c d.
Proof.
  unfold digit16, hex_digit, is_hex, is_lhex, is_digit, in_range, hex_val, is_digit, in_range.
  destruct (N.ltb_spec c 128) as [Hc|Hc].
  - repeat match goal with |- context [if ?b then _ else _] => destruct b eqn:? end;
      (split; [intros E; try discriminate E; injection E as <-|intros E; f_equal]);
      try discriminate; try lia.
    all: destruct E as [[? ?]|[[? ?]|[[? ?]|[? ?]]]]; subst; try lia.
  - split; [intros ->; right; right; right; auto|].
    intros [[? ?]|[[? ?]|[[? ?]|[? E]]]]; try lia. exact E.
Qed.

Lemma digits_value_snoc s c d : digit16 nd c = Some d ->
  digits_value nd (s ++ [c]) = (16 * digits_value nd s + Z.of_N d)%Z.
Proof. intros E. unfold digits_value. rewrite fold_left_app. cbn [fold_left]. now rewrite E. Qed.

Lemma hex_number_spec n s z :
  hex_number nd n s z <-> length s = n /\ forallb (b3_char nd) s = true /\ z = digits_value nd s.
Proof.
  split.
  - induction 1 as [|n s z c d _ (Hl & Hf & ->) Hd]; [repeat split|].
    apply digit16_spec in Hd. rewrite app_length, forallb_app, Hf, Hl. cbn [length forallb].
    unfold b3_char. rewrite Hd. split; [lia|]. split; [reflexivity|].
    now rewrite (digits_value_snoc s c d).
  - intros (Hl & Hf & ->). revert n Hl Hf. induction s as [|c s IH] using rev_ind; intros n Hl Hf.
    + cbn in Hl. subst n. constructor.
    + rewrite app_length in Hl. cbn in Hl. destruct n as [|n]; [lia|].
      rewrite forallb_app in Hf. apply andb_true_iff in Hf as [Hf Hc]. cbn in Hc.
      unfold b3_char in Hc. destruct (digit16 nd c) as [d|] eqn:Ed; [|discriminate].
      rewrite (digits_value_snoc s c d) by assumption.
      constructor; [apply IH; auto; lia|]. now apply digit16_spec.
Qed.

Lemma hex_number_fun n s z z' : hex_number nd n s z -> hex_number nd n s z' -> z = z'.
Proof.
  rewrite !hex_number_spec. intros (_ & _ & ->) (_ & _ & ->). reflexivity.
Qed.

Lemma hex_number_bound n s z : decimal nd -> hex_number nd n s z -> (0 <= z < 2 ^ (4 * Z.of_nat n))%Z.
Proof.
  intros Hdec. induction 1 as [|n s z c d _ IH Hd]; [cbn; lia|].
  assert (d < 16)%N.
  { destruct Hd as [[? ?]|[[? ?]|[[? ?]|[? E]]]]; try lia. apply Hdec in E. lia. }
  replace (4 * Z.of_nat (S n))%Z with (4 + 4 * Z.of_nat n)%Z by lia.
  rewrite Z.pow_add_r by lia. lia.
Qed.

Lemma trace_re_spec t : fullmatch (b3_trace_re nd) t = true <->
  exists n z, (n = 16 \/ n = 32) /\ hex_number nd n t z.
Proof.
  rewrite fullmatch_lang. unfold b3_trace_re. rewrite lang_alt, !lang_rep_cls. split.
  - intros [[Hl Hf]|[Hl Hf]].
    + exists 16, (digits_value nd t). split; [now left|]. apply hex_number_spec. auto.
    + exists 32, (digits_value nd t). split; [now right|]. apply hex_number_spec. auto.
  - intros (n & z & [-> | ->] & Hn); apply hex_number_spec in Hn as (Hl & Hf & _); auto.
Qed.
Lemma span_re_spec s : fullmatch (b3_span_re nd) s = true <-> exists z, hex_number nd 16 s z.
Proof.
  rewrite fullmatch_lang. unfold b3_span_re. rewrite lang_rep_cls. split.
  - intros [Hl Hf]. exists (digits_value nd s). apply hex_number_spec. auto.
  - intros (z & Hn). apply hex_number_spec in Hn as (Hl & Hf & _). auto.
Qed.

Definition sampling (sampled : str) (flags : option str) : bool :=
  existsb (str_eqb sampled) [lit "1"; lit "True"; lit "true"; lit "d"]
  || match flags with Some f => str_eqb f (lit "1") | None => false end.

Lemma b3_extract_cases g ctx :
  (b3_extract nd g ctx = ctx /\
   ~ exists t s sm fl n tid sid, b3_fields_of g = (Some t, Some s, sm, fl)
       /\ (n = 16 \/ n = 32) /\ hex_number nd n t tid /\ hex_number nd 16 s sid)
  \/ exists t s sm fl n tid sid, b3_fields_of g = (Some t, Some s, sm, fl)
       /\ (n = 16 \/ n = 32) /\ hex_number nd n t tid /\ hex_number nd 16 s sid
       /\ b3_extract nd g ctx =
          set_span_in_context
            (OSpan (SC tid sid true (if sampling sm fl then 1 else 0) []) false None) ctx.
Proof.
  unfold b3_extract. destruct (b3_fields_of g) as [[[[t|] [s|]] sm] fl] eqn:E.
  2,3,4: left; split; [reflexivity|]; intros (? & ? & ? & ? & ? & ? & ? & E' & _); discriminate.
  destruct (fullmatch (b3_trace_re nd) t) eqn:Et; cbn [andb].
  - destruct (fullmatch (b3_span_re nd) s) eqn:Es.
    + right. apply trace_re_spec in Et as (n & tid & Hn & Ht). apply span_re_spec in Es as (sid & Hs).
      exists t, s, sm, fl, n, tid, sid. repeat (split; [assumption || reflexivity|]).
      apply hex_number_spec in Ht as (_ & _ & ->). apply hex_number_spec in Hs as (_ & _ & ->).
      reflexivity.
    + left. split; [reflexivity|]. intros (t' & s' & sm' & fl' & n & tid & sid & E' & _ & _ & Hs).
      injection E' as <- <- <- <-. assert (fullmatch (b3_span_re nd) s = true) by (apply span_re_spec; eauto).
      congruence.
  - left. split; [reflexivity|]. intros (t' & s' & sm' & fl' & n & tid & sid & E' & Hn & Ht & _).
    injection E' as <- <- <- <-. assert (fullmatch (b3_trace_re nd) t = true) by (apply trace_re_spec; eauto).
    congruence.
Qed.

(** Hexadecimal renderings are numbers in this sense. *)
Lemma digit16_hex c : is_hex c = true -> digit16 nd c = Some (hex_val c).
Proof.
  intros Hc. unfold digit16. rewrite Hc.
  destruct (N.ltb_spec c 128) as [|Hlt]; [reflexivity|].
  unfold is_hex, is_lhex, is_digit, in_range in Hc. lia.
Qed.
Lemma digits_value_hex s : forallb is_hex s = true -> digits_value nd s = Z.of_N (hex_value s).
Proof.
  induction s as [|c s IH] using rev_ind; intros Hf; [reflexivity|].
  rewrite forallb_app in Hf. apply andb_true_iff in Hf as [Hf Hc]. cbn in Hc.
  rewrite andb_true_r in Hc.
  rewrite (digits_value_snoc s c _ (digit16_hex c Hc)), IH by assumption.
  unfold hex_value. rewrite fold_left_app. cbn [fold_left]. lia.
Qed.
Lemma lhex_number n s : length s = n -> forallb is_lhex s = true ->
  hex_number nd n s (Z.of_N (hex_value s)).
Proof.
  intros Hl Hf. assert (Hh := forallb_impl _ _ _ is_lhex_is_hex Hf).
  apply hex_number_spec. split; [assumption|]. split; [|now rewrite digits_value_hex].
  eapply forallb_impl; [|exact Hh]. intros c Hc. unfold b3_char. now rewrite digit16_hex.
Qed.

Lemma trace_id_number z : (0 <= z < 2 ^ 128)%Z -> hex_number nd 32 (format_trace_id z) z.
Proof.
  intros Hz. destruct (format_trace_id_ok z Hz) as (Hl & Hf & Hv).
  rewrite <- Hv at 2. now apply lhex_number.
Qed.
Lemma span_id_number z : (0 <= z < 2 ^ 64)%Z -> hex_number nd 16 (format_span_id z) z.
Proof.
  intros Hz. destruct (format_span_id_ok z Hz) as (Hl & Hf & Hv).
  rewrite <- Hv at 2. now apply lhex_number.
Qed.

Lemma b3_extract_ok g ctx t s sm fl n tid sid :
  b3_fields_of g = (Some t, Some s, sm, fl) -> (n = 16 \/ n = 32) ->
  hex_number nd n t tid -> hex_number nd 16 s sid ->
  b3_extract nd g ctx = set_span_in_context
    (OSpan (SC tid sid true (if sampling sm fl then 1 else 0) []) false None) ctx.
Proof.
  intros Hf Hn Ht Hs. destruct (b3_extract_cases g ctx) as [[_ Hno]|H].
  - exfalso. apply Hno. exists t, s, sm, fl, n, tid, sid. auto.
  - destruct H as (t' & s' & sm' & fl' & n' & tid' & sid' & E & Hn' & Ht' & Hs' & ->).
    rewrite Hf in E. injection E as <- <- <- <-.
    apply hex_number_spec in Ht as (_ & _ & ->), Ht' as (_ & _ & ->).
    apply hex_number_spec in Hs as (_ & _ & ->), Hs' as (_ & _ & ->). reflexivity.
Qed.

(** The fields are what the carrier states. *)
Lemma first_header g k h : first_element (g_get g k) = Some h <-> header g k h.
Proof.
  unfold header, first_element. destruct (g_get g k) as [[|x l]|]; split; try discriminate.
  - intros (r & [=]).
  - intros [= ->]. eauto.
  - intros (r & [= -> _]). reflexivity.
  - intros (r & [=]).
Qed.
Lemma accept_spec sm : existsb (str_eqb sm) [lit "1"; lit "True"; lit "true"; lit "d"] = true <-> b3_accept sm.
Proof.
  rewrite existsb_exists. unfold b3_accept. split.
  - intros (x & Hx & E). apply str_eqb_eq in E. now subst.
  - intros H. exists sm. split; [exact H|]. apply str_eqb_eq. reflexivity.
Qed.
Lemma sampling_none sm b : (b = true <-> b3_accept sm) <-> b = sampling sm None.
Proof.
  unfold sampling. rewrite orb_false_r. rewrite <- accept_spec. destruct b, (existsb _ _); intuition discriminate.
Qed.
Lemma or_iff_compat A B C D : (A <-> C) -> (B <-> D) -> (A \/ B <-> C \/ D).
Proof. tauto. Qed.
Lemma b3_fields_states g t s b : t <> [] -> s <> [] ->
  b3_states g t s b <-> exists sm fl, b3_fields_of g = (Some t, Some s, sm, fl) /\ b = sampling sm fl.
Proof.
  intros Ht Hs. split.
  - assert (Hb : forall h l, header g (lit "b3") h -> h <> [] -> splitn 4 45 h = l ->
                  b3_fields_of g = match l with
                    | [f0] => (None, None, f0, None)
                    | [t; s] => (Some t, Some s, lit "1", None)
                    | [t; s; sm] => (Some t, Some s, sm, None)
                    | [t; s; sm; _] => (Some t, Some s, sm, None)
                    | _ => (None, None, lit "1", None) end).
    { intros h l Hh Hn <-. unfold b3_fields_of. apply first_header in Hh. change (lit "b3") with B3 in Hh. rewrite Hh.
      destruct h as [|c h]; [congruence|reflexivity]. }
    assert (Hne : forall r, t ++ r <> []) by (destruct t; [congruence|discriminate]).
    intros [Hh H1 H2 ->|sm Hh H1 H2 H3 E|sm p Hh H1 H2 H3 H4 E|Hn Hht Hhs E].
    + exists (lit "1"), None. split; [|reflexivity]. rewrite (Hb _ [t; s] Hh (Hne _)); [reflexivity|].
      cbn [splitn app]. rewrite split1_app by exact H1. now rewrite split1_none.
    + exists sm, None. split; [|now apply sampling_none]. rewrite (Hb _ [t; s; sm] Hh (Hne _)); [reflexivity|].
      cbn [splitn app]. rewrite split1_app by exact H1. rewrite split1_app by exact H2. now rewrite split1_none.
    + exists sm, None. split; [|now apply sampling_none]. rewrite (Hb _ [t; s; sm; p] Hh (Hne _)); [reflexivity|].
      cbn [splitn app]. rewrite split1_app by exact H1. rewrite split1_app by exact H2. rewrite split1_app by exact H3.
      now rewrite split1_none.
    + unfold b3_fields_of.
      assert (E0 : first_element (g_get g B3) = None \/ first_element (g_get g B3) = Some []).
      { destruct (first_element (g_get g B3)) as [h|] eqn:Eh; [|now left]. right. apply first_header in Eh.
        now rewrite (Hn h Eh). }
      apply first_header in Hht, Hhs. change (lit "x-b3-traceid") with B3_TRACE_ID in Hht.
      change (lit "x-b3-spanid") with B3_SPAN_ID in Hhs. rewrite Hht, Hhs.
      exists (match or_else (first_element (g_get g B3_SAMPLED)) (Some (lit "0")) with Some s => s | None => lit "0" end),
        (or_else (first_element (g_get g B3_FLAGS)) None). split.
      * destruct E0 as [-> | ->]; cbn [or_else]; destruct t, s; try congruence; reflexivity.
      * assert (Hiff : b = true <-> sampling (match or_else (first_element (g_get g B3_SAMPLED)) (Some (lit "0")) with Some s => s | None => lit "0" end)
           (or_else (first_element (g_get g B3_FLAGS)) None) = true).
        { rewrite E. unfold sampling. rewrite orb_true_iff, accept_spec. apply or_iff_compat.
          - change (lit "x-b3-sampled") with B3_SAMPLED. split.
            + intros (sm & Hsm & Ha). apply first_header in Hsm. rewrite Hsm. destruct sm as [|c sm].
              * exfalso. unfold b3_accept in Ha. cbn in Ha. intuition discriminate.
              * exact Ha.
            + intros Ha. destruct (first_element (g_get g B3_SAMPLED)) as [[|c sm]|] eqn:Em; cbn in Ha.
              * exfalso. unfold b3_accept in Ha. cbn in Ha. intuition discriminate.
              * exists (c :: sm). split; [now apply first_header|exact Ha].
              * exfalso. unfold b3_accept in Ha. cbn in Ha. intuition discriminate.
          - change (lit "x-b3-flags") with B3_FLAGS. rewrite <- first_header.
            destruct (first_element (g_get g B3_FLAGS)) as [[|c f]|]; cbn [or_else].
            + split; discriminate.
            + rewrite str_eqb_eq. split; intros H; [exact (f_equal (fun o => match o with Some x => x | None => [] end) H)|now rewrite H].
            + split; discriminate. }
        destruct b, (sampling _ _); intuition discriminate.
  - intros (sm & fl & Ef & ->). unfold b3_fields_of in Ef.
    destruct (first_element (g_get g B3)) as [[|c h]|] eqn:Eh.
    2: { apply first_header in Eh. cbn [splitn] in Ef.
      pose proof (split1_spec 45 (c :: h)) as S1. destruct (split1 45 (c :: h)) as [a1 [b1|]]; [|discriminate].
      destruct S1 as [E1 N1]. rewrite E1 in Eh.
      pose proof (split1_spec 45 b1) as S2. destruct (split1 45 b1) as [a2 [b2|]]; destruct S2 as [-> N2].
      2: { injection Ef as <- <- <- <-. now apply b3_deferred. }
      pose proof (split1_spec 45 b2) as S3. destruct (split1 45 b2) as [a3 [b3|]]; destruct S3 as [-> N3].
      2: { injection Ef as <- <- <- <-. apply (b3_sampled g a1 a2 _ a3); auto. now apply sampling_none. }
      pose proof (split1_spec 45 b3) as S4. destruct (split1 45 b3) as [a4 [b4|]]; destruct S4 as [-> N4]; [discriminate|].
      injection Ef as <- <- <- <-. apply (b3_parent g a1 a2 _ a3 a4); auto. now apply sampling_none. }
    all: injection Ef as Et Es <- <-.
    all: apply b3_multi.
    1, 5: intros h Hh; apply first_header in Hh; change (lit "b3") with B3 in Hh; congruence.
    1, 4: apply first_header; change (lit "x-b3-traceid") with B3_TRACE_ID;
          destruct (first_element (g_get g B3_TRACE_ID)) as [[|? ?]|]; cbn in Et; congruence.
    1, 3: apply first_header; change (lit "x-b3-spanid") with B3_SPAN_ID;
          destruct (first_element (g_get g B3_SPAN_ID)) as [[|? ?]|]; cbn in Es; congruence.
    all: unfold sampling; rewrite orb_true_iff, accept_spec; apply or_iff_compat.
    1, 3: change (lit "x-b3-sampled") with B3_SAMPLED; split.
    1, 3: intros Ha; destruct (first_element (g_get g B3_SAMPLED)) as [[|d sm]|] eqn:Em; cbn in Ha;
          [exfalso; unfold b3_accept in Ha; cbn in Ha; intuition discriminate
          |exists (d :: sm); split; [now apply first_header|exact Ha]
          |exfalso; unfold b3_accept in Ha; cbn in Ha; intuition discriminate].
    1, 2: intros (sm & Hsm & Ha); apply first_header in Hsm; rewrite Hsm; destruct sm as [|d sm];
          [exfalso; unfold b3_accept in Ha; cbn in Ha; intuition discriminate|exact Ha].
    all: change (lit "x-b3-flags") with B3_FLAGS; rewrite <- first_header;
         destruct (first_element (g_get g B3_FLAGS)) as [[|d f]|]; cbn [or_else];
         [split; discriminate
         |rewrite str_eqb_eq; split; intros H; [now rewrite H|exact (f_equal (fun o => match o with Some x => x | None => [] end) H)]
         |split; discriminate].
Qed.
Lemma hex_nonempty n t z : n = 16 \/ n = 32 -> hex_number nd n t z -> t <> [].
Proof. intros [-> | ->] H; apply hex_number_spec in H as (L & _); destruct t; discriminate. Qed.
Lemma b3_extract_states g ctx :
  (b3_extract nd g ctx = ctx /\
   ~ exists t s b n tid sid, b3_states g t s b
       /\ (n = 16 \/ n = 32) /\ hex_number nd n t tid /\ hex_number nd 16 s sid)
  \/ exists t s b n tid sid, b3_states g t s b
       /\ (n = 16 \/ n = 32) /\ hex_number nd n t tid /\ hex_number nd 16 s sid
       /\ b3_extract nd g ctx =
          set_span_in_context (OSpan (SC tid sid true (if b then 1 else 0) []) false None) ctx.
Proof.
  destruct (b3_extract_cases g ctx) as [[E Hn]|(t & s & sm & fl & n & tid & sid & Ef & Hn & H1 & H2 & E)].
  - left. split; [exact E|]. intros (t & s & b & n & tid & sid & Hb & Hl & H1 & H2). apply Hn.
    apply (b3_fields_states g t s b) in Hb as (sm & fl & Ef & _).
    + exists t, s, sm, fl, n, tid, sid. auto.
    + now apply (hex_nonempty n t tid).
    + apply (hex_nonempty 16 s sid); auto.
  - right. exists t, s, (sampling sm fl), n, tid, sid. split; [|auto].
    apply (b3_fields_states g t s).
    + now apply (hex_nonempty n t tid).
    + apply (hex_nonempty 16 s sid); auto.
    + eauto.
Qed.
Lemma b3_extract_accepts g ctx t s b n tid sid :
  b3_states g t s b -> (n = 16 \/ n = 32) ->
  hex_number nd n t tid -> hex_number nd 16 s sid ->
  b3_extract nd g ctx = set_span_in_context (OSpan (SC tid sid true (if b then 1 else 0) []) false None) ctx.
Proof.
  intros Hb Hn Ht Hs. apply (b3_fields_states g t s b) in Hb as (sm & fl & Ef & ->).
  - now apply (b3_extract_ok g ctx t s sm fl n).
  - now apply (hex_nonempty n t tid).
  - apply (hex_nonempty 16 s sid); auto.
Qed.

Definition sampled_flag (sc : span_context) : Z := if flags_sampled (sc_flags sc) then 1%Z else 0%Z.


Lemma sampling_flag sc fl : fl = None \/ fl = Some (lit "0") ->
  (if sampling (if flags_sampled (sc_flags sc) then lit "1" else lit "0") fl then 1 else 0)%Z
  = sampled_flag sc.
Proof. unfold sampled_flag. intros [-> | ->]; destruct (flags_sampled (sc_flags sc)); reflexivity. Qed.

Lemma or_else_nonnil s d n : length s = S n -> or_else (Some s) d = Some s.
Proof. intros Hl. destruct s; [discriminate|reflexivity]. Qed.

Lemma b3_multi_round_trip ctx sc base c0 :
  current_span_context ctx = sc -> sc_is_valid sc = true ->
  dget B3 c0 = None -> dget B3_FLAGS c0 = None ->
  b3_extract nd (default_getter (default_set (inj_writes (b3_multi_inject ctx)) c0)) base =
  set_span_in_context
    (OSpan (SC (sc_trace_id sc) (sc_span_id sc) true (sampled_flag sc) []) false None) base.
Proof.
  intros Hcur Hv Hb Hfl. unfold b3_multi_inject. rewrite Hcur, valid_not_invalid by assumption.
  cbn [inj_writes]. apply valid_bounds in Hv as [Ht Hs].
  set (t := format_trace_id _). set (s := format_span_id _). set (sm := if flags_sampled _ then _ else _).
  set (g := default_getter _).
  assert (Hnd : NoDup (map fst [(B3_TRACE_ID, t); (B3_SPAN_ID, s); (B3_SAMPLED, sm)])).
  { cbn [map fst]. repeat constructor; cbn [In]; intros H;
      repeat (destruct H as [H|H]; [discriminate H|]); exact H. }
  assert (Hlt : length t = 32) by (apply format_trace_id_ok; lia).
  assert (Hls : length s = 16) by (apply format_span_id_ok; lia).
  assert (Hf : b3_fields_of g = (Some t, Some s, sm, None)).
  { unfold b3_fields_of, g. cbn [g_get default_getter].
    rewrite !dget_default_set by assumption.
    replace (dget B3 [(B3_TRACE_ID, t); (B3_SPAN_ID, s); (B3_SAMPLED, sm)]) with (@None str) by reflexivity.
    replace (dget B3_TRACE_ID [(B3_TRACE_ID, t); (B3_SPAN_ID, s); (B3_SAMPLED, sm)]) with (Some t) by reflexivity.
    replace (dget B3_SPAN_ID [(B3_TRACE_ID, t); (B3_SPAN_ID, s); (B3_SAMPLED, sm)]) with (Some s) by reflexivity.
    replace (dget B3_SAMPLED [(B3_TRACE_ID, t); (B3_SPAN_ID, s); (B3_SAMPLED, sm)]) with (Some sm) by reflexivity.
    replace (dget B3_FLAGS [(B3_TRACE_ID, t); (B3_SPAN_ID, s); (B3_SAMPLED, sm)]) with (@None str) by reflexivity.
    rewrite Hb, Hfl. cbn [first_element].
    assert (E1 := or_else_nonnil t None 31 Hlt). assert (E2 := or_else_nonnil s None 15 Hls).
    f_equal. f_equal; [f_equal; [exact E1|exact E2]|].
    unfold sm. destruct (flags_sampled _); reflexivity. }
  rewrite (b3_extract_ok g base t s sm None 32 (sc_trace_id sc) (sc_span_id sc)); auto.
  - do 3 f_equal. apply sampling_flag. now left.
  - apply trace_id_number; lia.
  - apply span_id_number; lia.
Qed.

Lemma lhex_no_dash s : forallb is_lhex s = true -> ~ In 45%N s.
Proof. intros Hf. eapply forallb_notin; [exact Hf|reflexivity]. Qed.

Lemma b3_single_round_trip ctx sc base c0 :
  current_span_context ctx = sc -> sc_is_valid sc = true ->
  b3_extract nd (default_getter (default_set (inj_writes (b3_single_inject ctx)) c0)) base =
  set_span_in_context
    (OSpan (SC (sc_trace_id sc) (sc_span_id sc) true (sampled_flag sc) []) false None) base.
Proof.
  intros Hcur Hv. unfold b3_single_inject. rewrite Hcur, valid_not_invalid by assumption.
  cbn [inj_writes]. apply valid_bounds in Hv as [Ht Hs].
  set (t := format_trace_id _). set (s := format_span_id _). set (sm := if flags_sampled _ then _ else _).
  set (h := join [45%N] [t; s; sm]). set (g := default_getter _).
  destruct (format_trace_id_ok (sc_trace_id sc)) as (Hlt & Hft & _); [lia|].
  destruct (format_span_id_ok (sc_span_id sc)) as (Hls & Hfs & _); [lia|].
  fold t in Hlt, Hft. fold s in Hls, Hfs.
  assert (Hg : g_get g B3 = Some [h]).
  { unfold g. cbn [g_get default_getter]. rewrite dget_default_set; [reflexivity|].
    cbn. repeat constructor. tauto. }
  assert (Hf : b3_fields_of g = (Some t, Some s, sm, None)).
  { unfold b3_fields_of. rewrite Hg. cbn [first_element].
    assert (Hsp : splitn 4 45 h = [t; s; sm]).
    { unfold h. cbn [join splitn]. cbn [app]. rewrite split1_app by now apply lhex_no_dash.
      rewrite split1_app by now apply lhex_no_dash.
      unfold sm. destruct (flags_sampled _); reflexivity. }
    destruct h as [|c h'] eqn:Eh.
    - exfalso. unfold h in Eh. cbn [join] in Eh. destruct t; [discriminate Hlt|discriminate Eh].
    - rewrite Hsp. reflexivity. }
  rewrite (b3_extract_ok g base t s sm None 32 (sc_trace_id sc) (sc_span_id sc)); auto.
  - do 3 f_equal. apply sampling_flag. now left.
  - apply trace_id_number; lia.
  - apply span_id_number; lia.
Qed.

(** ** Jaeger *)
Lemma int_digits_lhex s a : forallb is_lhex s = true ->
  int_digits nd s false a = Some (fold_left (fun a c => (16 * a + Z.of_N (hex_val c))%Z) s a).
Proof.
  revert a. induction s as [|c s IH]; intros a Hf; [reflexivity|].
  cbn [forallb] in Hf. apply andb_true_iff in Hf as [Hc Hf]. cbn [int_digits fold_left].
  rewrite digit16_hex by now apply is_lhex_is_hex. now apply IH.
Qed.

Lemma fold_hex_Z s a : (fold_left (fun a c => (16 * a + Z.of_N (hex_val c))%Z) s (Z.of_N a)
  = Z.of_N (fold_left (fun a c => (16 * a + hex_val c)%N) s a))%Z.
Proof.
  revert a. induction s as [|c s IH]; intros a; [reflexivity|]. cbn [fold_left].
  rewrite <- IH. f_equal. lia.
Qed.

Lemma lhex_not_space c : is_lhex c = true -> int_space c = false.
Proof. intros Hc. apply lhex_iff in Hc. unfold int_space, in_range, py_space, in_range. lia. Qed.

Lemma int16_lhex s : s <> [] -> forallb is_lhex s = true -> int16 nd s = Some (Z.of_N (hex_value s)).
Proof.
  intros Hne Hf. unfold int16. rewrite strip_none.
  2:{ eapply forallb_impl; [|exact Hf]. intros c Hc. now rewrite lhex_not_space. }
  destruct s as [|c r]; [congruence|]. clear Hne.
  assert (Hc : is_lhex c = true) by (cbn in Hf; now apply andb_true_iff in Hf as [? _]).
  apply lhex_iff in Hc. destruct (N.eqb_spec c 45); [lia|]. destruct (N.eqb_spec c 43); [lia|].
  assert (Hb : int_body nd (c :: r) = Some (Z.of_N (hex_value (c :: r)))).
  { unfold int_body. destruct (N.eqb_spec c 95); [lia|].
    rewrite int_digits_lhex by assumption. f_equal. exact (fold_hex_Z (c :: r) 0). }
  unfold int_prefixed. destruct r as [|x r]; [exact Hb|].
  destruct (N.eqb c 48 && (N.eqb x 120 || N.eqb x 88)) eqn:E; [|exact Hb].
  exfalso. cbn in Hf. apply andb_true_iff in Hf as [_ Hf]. apply andb_true_iff in Hf as [Hx _].
  apply lhex_iff in Hx. lia.
Qed.

Lemma lhex_no_colon s : forallb is_lhex s = true -> ~ In 58%N s.
Proof. intros Hf. eapply forallb_notin; [exact Hf|reflexivity]. Qed.

(** The baggage part of extraction. *)
Lemma jaeger_baggage_frame g ks ctx ctx' : jaeger_baggage g ks ctx = Some ctx' ->
  forall k, k <> BAGGAGE_KEY -> get_value k ctx' = get_value k ctx.
Proof.
  revert ctx. induction ks as [|k ks IH]; intros ctx E k' Hk'; cbn [jaeger_baggage] in E.
  - now injection E as <-.
  - destruct (starts_with UBERCTX k); [|now apply (IH ctx E)].
    destruct (first_element (g_get g k)) as [v|]; [|discriminate].
    rewrite (IH _ E k' Hk'). now apply get_value_set_baggage.
Qed.

Definition jaeger_header (sc : span_context) (parent : Z) : str :=
  let flags := if flags_sampled (sc_flags sc) then Z.lor (sc_flags sc) 2 else sc_flags sc in
  format_trace_id (sc_trace_id sc) ++ lit ":" ++ format_span_id (sc_span_id sc)
  ++ lit ":" ++ format_span_id parent ++ lit ":" ++ format_hex 2 flags.

Lemma format_hex_lhex w z : (0 <= z)%Z -> forallb is_lhex (format_hex w z) = true.
Proof. intros Hz. rewrite format_hex_nonneg by assumption. apply hex_pad_lhex. Qed.
Lemma format_hex_value w z : (0 <= z)%Z -> Z.of_N (hex_value (format_hex w z)) = z.
Proof. intros Hz. rewrite format_hex_nonneg by assumption. rewrite hex_value_hex_pad. lia. Qed.
Lemma format_hex_nonnil w z : (0 <= z)%Z -> format_hex w z <> [].
Proof.
  intros Hz. rewrite format_hex_nonneg by assumption. unfold hex_pad, hex. intros E.
  apply app_eq_nil in E as [_ E]. now apply hex_digits_nonempty in E.
Qed.

Lemma land_flags f : (0 <= f)%Z ->
  Z.land (if flags_sampled f then Z.lor f 2 else f) 1 = if flags_sampled f then 1%Z else 0%Z.
Proof.
  intros Hf. unfold flags_sampled.
  assert (H1 : forall x, (Z.land x 1 = if Z.testbit x 0 then 1 else 0)%Z).
  { intros x. change 1%Z with (Z.ones 1) at 1. rewrite Z.land_ones by lia.
    change (2 ^ 1)%Z with 2%Z. rewrite Zmod_odd, Z.bit0_odd. reflexivity. }
  rewrite H1. destruct (Z.testbit f 0) eqn:E; [|now rewrite E].
  rewrite Z.lor_spec, E. reflexivity.
Qed.

Lemma jaeger_parse_header sc parent rest :
  sc_is_valid sc = true -> (0 <= sc_flags sc)%Z -> (0 <= parent)%Z ->
  exists f, jaeger_parse nd (jaeger_header sc parent :: rest) = (sc_trace_id sc, sc_span_id sc, f)
            /\ Z.land f 1 = sampled_flag sc.
Proof.
  intros Hv Hf Hp. apply valid_bounds in Hv as [Ht Hs]. unfold jaeger_header.
  set (flags := if flags_sampled (sc_flags sc) then _ else _). cbv zeta.
  exists flags. split.
  2:{ unfold flags, sampled_flag. now apply land_flags. }
  assert (Hfl : (0 <= flags)%Z).
  { unfold flags. destruct (flags_sampled _); [apply Z.lor_nonneg; lia|lia]. }
  unfold jaeger_parse. change (lit ":") with [58%N]. cbn [app].
  rewrite split_on_app by (apply lhex_no_colon, format_hex_lhex; lia).
  rewrite split_on_app by (apply lhex_no_colon, format_hex_lhex; lia).
  rewrite split_on_app by (apply lhex_no_colon, format_hex_lhex; lia).
  rewrite split_on_notin by (apply lhex_no_colon, format_hex_lhex; lia).
  rewrite !int16_lhex by (try (apply format_hex_nonnil; lia); apply format_hex_lhex; lia).
  unfold format_trace_id, format_span_id. rewrite !format_hex_value by lia. reflexivity.
Qed.

Definition has_uberctx (c : carrier) : Prop :=
  forall k l, dget k c = Some (CList l) -> (exists r, k = UBERCTX ++ r) -> l <> [].

Lemma starts_with_spec p s : starts_with p s = true <-> exists r, s = p ++ r.
Proof.
  unfold starts_with. revert s. induction p as [|a p IH]; intros s; cbn [strip_prefix].
  - split; [intros _; now exists s|reflexivity].
  - destruct s as [|b s].
    + split; [discriminate|]. intros (r & E). discriminate.
    + destruct (N.eqb_spec a b) as [->|Hn].
      * rewrite IH. split; intros (r & E).
        -- exists r. now rewrite E.
        -- exists r. cbn in E. now injection E.
      * split; [discriminate|]. intros (r & E). cbn in E. injection E as E _. congruence.
Qed.

Lemma jaeger_baggage_total c ks ctx : has_uberctx c -> (forall k, In k ks -> In k (keys c)) ->
  exists ctx', jaeger_baggage (default_getter c) ks ctx = Some ctx'.
Proof.
  intros Hc. revert ctx. induction ks as [|k ks IH]; intros ctx Hin; [eexists; reflexivity|].
  cbn [jaeger_baggage]. destruct (starts_with UBERCTX k) eqn:Es.
  - cbn [g_get default_getter].
    destruct (keys_dget c k) as (v & Ev); [apply Hin; now left|]. rewrite Ev.
    destruct v as [s|l]; cbn [first_element].
    + apply IH. intros; apply Hin; now right.
    + destruct l as [|x l]; [|apply IH; intros; apply Hin; now right].
      exfalso. apply (Hc _ _ Ev); [|reflexivity]. now apply starts_with_spec.
  - apply IH. intros; apply Hin; now right.
Qed.
End Nd.

Section J.
Variable py_str : obj -> str.
Variable nd : N -> option N.

Definition jwrite (q kv : str * str) : Prop :=
  fst q = UBERCTX ++ fst kv /\ unquote (snd q) = snd kv.

Lemma jaeger_writes_ok d : Forall (fun kv => unicode_text (snd kv)) d ->
  exists qs, jaeger_baggage_writes py_str (as_objs d) = Injected qs false
    /\ Forall2 jwrite qs d.
Proof.
  induction 1 as [|[k v] d Hv _ IH].
  - exists []. split; [reflexivity|constructor].
  - destruct IH as (qs & E & Hf). cbn [as_objs map jaeger_baggage_writes to_str fst snd] in *.
    destruct (quote_round_trip v Hv) as (q & Eq & _ & Rq). rewrite Eq.
    unfold as_objs in E. rewrite E. cbn [inj_writes inj_raised].
    eexists. split; [reflexivity|]. constructor; [|exact Hf]. split; auto.
Qed.

(** Removing the prefix. *)
Lemma remove_all_skip p n s : n <= length s -> remove_all p n s = remove_all p 0 (skipn n s).
Proof.
  revert s. induction n as [|n IH]; intros s Hn; [reflexivity|].
  destruct s as [|c s]; [cbn in Hn; lia|]. cbn [remove_all skipn]. apply IH. cbn in Hn. lia.
Qed.
Lemma remove_all_free p s : p <> [] -> free_of p s -> remove_all p 0 s = s.
Proof.
  intros Hp. induction s as [|c s IH]; intros Hfr; [reflexivity|]. cbn [remove_all].
  destruct (strip_prefix p (c :: s)) as [r|] eqn:E.
  - exfalso. assert (Hs : starts_with p (c :: s) = true) by (unfold starts_with; now rewrite E).
    apply starts_with_spec in Hs as (r' & Er). apply (Hfr [] r'). exact Er.
  - f_equal. apply IH. intros a b Es. apply (Hfr (c :: a) b). cbn. now rewrite <- Es.
Qed.
Lemma remove_prefix k : free_of UBERCTX k -> remove_all UBERCTX 0 (UBERCTX ++ k) = k.
Proof.
  intros Hk. change (UBERCTX ++ k) with (117%N :: (lit "berctx-" ++ k)). cbn [remove_all].
  assert (E : strip_prefix UBERCTX (117%N :: (lit "berctx-" ++ k)) = Some k) by reflexivity.
  rewrite E. rewrite remove_all_skip.
  - change (skipn (length UBERCTX - 1) (lit "berctx-" ++ k)) with k.
    apply remove_all_free; [discriminate|exact Hk].
  - rewrite app_length. cbn. lia.
Qed.

Lemma jaeger_baggage_app g ks1 ks2 ctx :
  jaeger_baggage g (ks1 ++ ks2) ctx =
  match jaeger_baggage g ks1 ctx with None => None | Some c => jaeger_baggage g ks2 c end.
Proof.
  revert ctx. induction ks1 as [|k ks1 IH]; intros ctx; [reflexivity|]. cbn [app jaeger_baggage].
  destruct (starts_with UBERCTX k); [|apply IH].
  destruct (first_element (g_get g k)); [apply IH|reflexivity].
Qed.

Lemma jaeger_baggage_idle g ks ctx : Forall (fun k => forall r, k <> UBERCTX ++ r) ks ->
  jaeger_baggage g ks ctx = Some ctx.
Proof.
  induction 1 as [|k ks Hk _ IH]; [reflexivity|]. cbn [jaeger_baggage].
  destruct (starts_with UBERCTX k) eqn:E; [|exact IH].
  apply starts_with_spec in E as (r & E). now apply Hk in E.
Qed.

Lemma jaeger_baggage_own (c : carrier) (qs d : list (str * str)) ctx :
  Forall2 jwrite qs d ->
  Forall (fun kv => free_of UBERCTX (fst kv) /\ trimmed (snd kv)) d ->
  (forall q, In q qs -> dget (fst q) c = Some (CStr (snd q))) ->
  jaeger_baggage (default_getter c) (map fst qs) ctx
  = Some (fold_left (fun x kv => set_baggage (fst kv) (OStr (snd kv)) x) d ctx).
Proof.
  intros Hf. revert ctx. induction Hf as [|[qk qv] [k v] qs d [E1 E2] Hf IH]; intros ctx Hd Hc; [reflexivity|].
  cbn [fst snd] in *. assert (Hfr := Forall_inv Hd). assert (Hd' := Forall_inv_tail Hd).
  cbn [fst snd] in Hfr. destruct Hfr as [Hfr Ht].
  cbn [map fst jaeger_baggage].
  assert (Es : starts_with UBERCTX qk = true) by (apply starts_with_spec; eauto).
  assert (Eg : @dget str carrier_val EqDec_str qk c = Some (CStr qv)) by (apply (Hc (qk, qv)); now left).
  rewrite Es. cbn [g_get default_getter]. rewrite Eg. cbn [first_element].
  rewrite E1, remove_prefix by assumption. rewrite E2, strip_trimmed by assumption.
  cbn [fold_left fst snd]. apply IH; [assumption|]. intros q Hq. apply Hc. now right.
Qed.

Lemma uberctx_inj a b : UBERCTX ++ a = UBERCTX ++ b -> a = b.
Proof. apply app_inv_head. Qed.

Lemma writes_nodup (qs d : list (str * str)) h :
  Forall2 jwrite qs d ->
  NoDup (map fst d) -> NoDup (map fst ((UBER_TRACE_ID, h) :: qs)).
Proof.
  intros Hf Hnd. cbn [map fst].
  assert (Em : map fst qs = map (fun kv => UBERCTX ++ fst kv) d).
  { clear Hnd. induction Hf as [|q kv qs d [E _] Hf IH]; [reflexivity|]. cbn. now rewrite E, IH. }
  rewrite Em. constructor.
  - rewrite in_map_iff. intros (kv & E & _). discriminate E.
  - clear -Hnd. induction d as [|kv d IH]; [constructor|]. cbn in *.
    inversion Hnd as [|? ? Hni Hnd']; subst. constructor; [|now apply IH].
    rewrite in_map_iff. intros (kv' & E & Hin). apply uberctx_inj in E. apply Hni.
    apply in_map_iff. exists kv'. auto.
Qed.

Definition parent_of (span : obj) : Z :=
  match span with OSpan _ true (Some p) => p | _ => 0%Z end.

Lemma parent_nonneg ctx : (forall x p, get_current_span ctx = OSpan x true (Some p) -> (0 <= p)%Z) -> (0 <= parent_of (get_current_span ctx))%Z.
Proof.
  intros H. unfold parent_of. destruct (get_current_span ctx) as [| | |x [|] [p|]| |]; try apply Z.le_refl. now apply (H x p).
Qed.

Lemma jaeger_inject_ok ctx sc d :
  current_span_context ctx = sc -> sc_is_valid sc = true ->
  get_all ctx = as_objs d -> Forall (fun kv => unicode_text (snd kv)) d ->
  exists qs, jaeger_inject py_str ctx
    = Injected ((UBER_TRACE_ID, jaeger_header sc (parent_of (get_current_span ctx))) :: qs) false
    /\ Forall2 jwrite qs d.
Proof.
  intros Hcur Hv Hg Hu. destruct (jaeger_writes_ok d Hu) as (qs & E & Hf).
  exists qs. split; [|exact Hf]. unfold jaeger_inject. unfold current_span_context in Hcur.
  rewrite Hcur, valid_not_invalid by assumption. rewrite Hg, E. cbn [inj_writes inj_raised].
  reflexivity.
Qed.

Lemma jaeger_baggage_filter g ks ctx :
  jaeger_baggage g ks ctx = jaeger_baggage g (filter (starts_with UBERCTX) ks) ctx.
Proof.
  revert ctx. induction ks as [|k ks IH]; intros ctx; [reflexivity|]. cbn [filter jaeger_baggage].
  destruct (starts_with UBERCTX k) eqn:E; [|apply IH]. cbn [jaeger_baggage]. rewrite E.
  destruct (first_element (g_get g k)); [apply IH|reflexivity].
Qed.

Lemma filter_keys_dupdate (p : str -> bool) (w : carrier) (c : carrier) :
  NoDup (keys w) -> (forall k, In k (keys w) -> p k = true -> ~ In k (keys c)) ->
  filter p (keys (dupdate c w)) = filter p (keys c) ++ filter p (keys w).
Proof.
  revert c. induction w as [|[k v] w IH]; intros c Hnd Hdis; [cbn; now rewrite app_nil_r|].
  change (dupdate c ((k, v) :: w)) with (dupdate (dset k v c) w). cbn [keys map fst] in *.
  fold (keys w) in *. inversion Hnd as [|? ? Hni Hnd']; subst.
  rewrite IH; [|assumption|].
  - destruct (in_dec eq_dec k (keys c)) as [Hin|Hnin].
    + rewrite keys_dset_in by assumption. f_equal. cbn [filter].
      destruct (p k) eqn:Ek; [|reflexivity]. exfalso. apply (Hdis k); auto. now left.
    + rewrite keys_dset_new by assumption. unfold keys at 1. rewrite map_app. cbn [map fst].
      fold (keys c). rewrite filter_app, <- app_assoc. f_equal. cbn [filter].
      destruct (p k); reflexivity.
  - intros k' Hin Hp. rewrite In_keys_dset. intros [->|Hc]; [contradiction|].
    eapply Hdis; eauto. now right.
Qed.

Lemma jaeger_round_trip ctx sc d base (c0 : carrier) :
  current_span_context ctx = sc -> sc_is_valid sc = true -> (0 <= sc_flags sc)%Z ->
  (0 <= parent_of (get_current_span ctx))%Z ->
  get_all ctx = as_objs d -> NoDup (map fst d) ->
  Forall (fun kv => unicode_text (snd kv) /\ trimmed (snd kv) /\ free_of UBERCTX (fst kv)) d ->
  (forall k, In k (keys c0) -> forall r, k <> UBERCTX ++ r) ->
  exists w, jaeger_inject py_str ctx = Injected w false /\
  jaeger_extract nd (default_getter (default_set w c0)) base =
  Some (set_span_in_context
    (OSpan (SC (sc_trace_id sc) (sc_span_id sc) true (sampled_flag sc) []) false None)
    (fold_left (fun x kv => set_baggage (fst kv) (OStr (snd kv)) x) d base)).
Proof.
  intros Hcur Hv Hfl Hp Hg Hnd Hd Hc0.
  destruct (jaeger_inject_ok ctx sc d Hcur Hv Hg) as (qs & E & Hf).
  { eapply Forall_impl; [|exact Hd]. cbn. tauto. }
  eexists. split; [exact E|].
  set (h := jaeger_header sc _) in *. set (w := (UBER_TRACE_ID, h) :: qs).
  assert (Hwnd : NoDup (map fst w)) by now apply (writes_nodup qs d).
  assert (Hgt : forall k, dget k (default_set w c0)
            = match dget k w with Some v => Some (CStr v) | None => dget k c0 end)
    by (intros; now apply dget_default_set).
  unfold jaeger_extract. cbn [g_get default_getter]. rewrite Hgt.
  replace (dget UBER_TRACE_ID w) with (Some h) by reflexivity.
  assert (Hq : forall q, In q qs -> starts_with UBERCTX (fst q) = true).
  { intros q Hq. apply starts_with_spec. clear -Hf Hq. induction Hf as [|q' kv qs d [E _] Hf IH]; [contradiction|].
    destruct Hq as [->|Hq]; [eauto|now apply IH]. }
  assert (Hks : filter (starts_with UBERCTX) (g_keys (default_getter (default_set w c0))) = map fst qs).
  { cbn [g_keys default_getter]. unfold default_set.
    set (l := map (fun kv => (fst kv, CStr (snd kv))) w).
    assert (Ek : keys l = map fst w) by (unfold l, keys; now rewrite map_map).
    rewrite filter_keys_dupdate.
    - assert (E0 : filter (starts_with UBERCTX) (keys c0) = []).
      { clear -Hc0. revert Hc0. generalize (keys c0) as ks. induction ks as [|k ks IH]; intros Hc0; [reflexivity|].
        cbn [filter]. destruct (starts_with UBERCTX k) eqn:E.
        - apply starts_with_spec in E as (r & ->). exfalso. eapply Hc0; [now left|reflexivity].
        - apply IH. intros k' Hin. apply Hc0. now right. }
      rewrite E0, Ek. cbn [app]. unfold w. cbn [map fst filter].
      replace (starts_with UBERCTX UBER_TRACE_ID) with false by reflexivity.
      clear -Hq. induction qs as [|q qs IH]; [reflexivity|]. cbn [map filter].
      rewrite Hq by now left. f_equal. apply IH. intros; apply Hq; now right.
    - now rewrite Ek.
    - intros k _ Hk Hin. apply starts_with_spec in Hk as (r & Hr). now apply (Hc0 k Hin r). }
  rewrite jaeger_baggage_filter, Hks.
  rewrite (jaeger_baggage_own _ qs d).
  - destruct (jaeger_parse_header nd sc (parent_of (get_current_span ctx)) [] Hv Hfl Hp) as (f & Ep & Hfz).
    fold h in Ep. rewrite Ep. apply valid_bounds in Hv as [Ht Hs].
    destruct (Z.eqb_spec (sc_trace_id sc) 0); [lia|]. destruct (Z.eqb_spec (sc_span_id sc) 0); [lia|].
    cbn [orb]. rewrite Hfz. reflexivity.
  - exact Hf.
  - eapply Forall_impl; [|exact Hd]. cbn. tauto.
  - intros q Hin. rewrite Hgt.
    assert (Ew : dget (fst q) w = Some (snd q)).
    { apply In_dget; [exact Hwnd|]. right. now destruct q. }
    now rewrite Ew.
Qed.
End J.

(** ** Validity *)
Lemma b3_zero_installed : exists nd g ctx,
  decimal nd /\ b3_extract nd g ctx <> ctx
  /\ sc_is_valid (current_span_context (b3_extract nd g ctx)) = false
  /\ sc_is_valid (current_span_context ctx) = true.
Proof.
  exists (fun _ => None), (default_getter [(B3, CStr (lit "0000000000000000-0000000000000000-1"))]),
         [(SPAN_KEY, OSpan (SC 1 1 false 1 []) true None)].
  split; [discriminate|]. vm_compute. repeat split. discriminate.
Qed.

Lemma b3_extract_nonzero nd g ctx : decimal nd ->
  (forall k, k <> SPAN_KEY -> get_value k (b3_extract nd g ctx) = get_value k ctx) /\
  (b3_extract nd g ctx = ctx \/
   (sc_is_remote (current_span_context (b3_extract nd g ctx)) = true
    /\ (sc_trace_id (current_span_context (b3_extract nd g ctx)) <> 0%Z ->
        sc_span_id (current_span_context (b3_extract nd g ctx)) <> 0%Z ->
        sc_is_valid (current_span_context (b3_extract nd g ctx)) = true))).
Proof.
  intros Hdec. destruct (b3_extract_cases nd g ctx) as [[-> _]|H]; [auto|].
  destruct H as (t & s & sm & fl & n & tid & sid & _ & Hn & Ht & Hs & ->). split.
  - intros k Hk. now apply get_value_set_ne.
  - right. rewrite current_set_span. split; [reflexivity|]. intros Htz Hsz.
    apply (hex_number_bound nd _ _ _ Hdec) in Ht, Hs. cbn [sc_trace_id sc_span_id] in *.
    unfold sc_is_valid, TRACE_ID_MAX, SPAN_ID_MAX. cbn [sc_trace_id sc_span_id].
    change (4 * Z.of_nat 16)%Z with 64%Z in Hs.
    assert (0 <= tid < 2 ^ 128)%Z by (destruct Hn as [-> | ->]; cbn in Ht; lia). lia.
Qed.

Lemma jaeger_invalid_installed : exists nd g ctx ctx',
  decimal nd /\ jaeger_extract nd g ctx = Some ctx'
  /\ sc_is_valid (current_span_context ctx') = false
  /\ sc_is_valid (current_span_context ctx) = true.
Proof.
  exists (fun _ => None), (default_getter [(UBER_TRACE_ID, CStr (lit "-1:-1:0:1"))]),
         [(SPAN_KEY, OSpan (SC 1 1 false 1 []) true None)],
         [(SPAN_KEY, OSpan (SC (-1) (-1) true 1 []) false None)].
  split; [discriminate|]. vm_compute. repeat split.
Qed.

Lemma jaeger_raises : exists nd g ctx, jaeger_extract nd g ctx = None.
Proof.
  exists (fun _ => None),
    (default_getter [(UBER_TRACE_ID, CStr (lit "1:1:0:1")); (lit "uberctx-k", CList [])]), [].
  vm_compute. reflexivity.
Qed.

Lemma jaeger_name_mangled : exists py_str nd ctx w got,
  jaeger_inject py_str ctx = Injected w false
  /\ jaeger_extract nd (default_getter (default_set w [])) [] = Some got
  /\ get_all got <> get_all ctx.
Proof.
  exists (fun _ => []), (fun _ => None),
    [(SPAN_KEY, OSpan (SC 1 1 false 1 []) true None);
     (BAGGAGE_KEY, ODict [(lit "a-uberctx-b", OStr (lit "v"))])],
    [(UBER_TRACE_ID, lit "00000000000000000000000000000001:0000000000000001:0000000000000000:03");
     (lit "uberctx-a-uberctx-b", lit "v")],
    [(BAGGAGE_KEY, ODict [(lit "a-b", OStr (lit "v"))]);
     (SPAN_KEY, OSpan (SC 1 1 true 1 []) false None)].
  vm_compute. split; [reflexivity|]. split; [reflexivity|discriminate].
Qed.

(** Headers of in-range non-zero plain numbers are valid. *)
Lemma jaeger_extract_cases nd g ctx ctx' : jaeger_extract nd g ctx = Some ctx' ->
  (forall k, k <> SPAN_KEY -> k <> BAGGAGE_KEY -> get_value k ctx' = get_value k ctx) /\
  (get_value SPAN_KEY ctx' = get_value SPAN_KEY ctx \/
   exists h rest t s p f tid sid fl,
     g_get g UBER_TRACE_ID = Some (h :: rest)
     /\ split_on 58 h = [t; s; p; f]
     /\ int16 nd t = Some tid /\ int16 nd s = Some sid /\ int16 nd f = Some fl
     /\ tid <> 0%Z /\ sid <> 0%Z
     /\ current_span_context ctx' = SC tid sid true (Z.land fl 1) []).
Proof.
  unfold jaeger_extract. destruct (g_get g UBER_TRACE_ID) as [[|h rest]|] eqn:Hg;
    [intros E; injection E as <-; auto| |intros E; injection E as <-; auto].
  destruct (jaeger_baggage g (g_keys g) ctx) as [ctx1|] eqn:Eb; [|discriminate].
  pose proof (jaeger_baggage_frame g _ _ _ Eb) as Hfr.
  assert (Hsp : get_value SPAN_KEY ctx1 = get_value SPAN_KEY ctx) by (apply Hfr; discriminate).
  destruct (jaeger_parse nd (h :: rest)) as [[t s] f] eqn:Ep.
  destruct (Z.eqb_spec t 0) as [|Ht].
  { intros E. injection E as <-. split; [intros; now apply Hfr|now left]. }
  destruct (Z.eqb_spec s 0) as [|Hs].
  { intros E. injection E as <-. split; [intros; now apply Hfr|now left]. }
  cbn [orb]. intros E. injection E as <-. split.
  - intros k H1 H2. unfold set_span_in_context. rewrite get_value_set_ne by assumption. now apply Hfr.
  - right. unfold jaeger_parse in Ep.
    destruct (split_on 58 h) as [|f1 [|f2 [|f3 [|f4 [|f5 l]]]]] eqn:Es;
      try (injection Ep as <- <- <-; lia).
    destruct (int16 nd f4) as [fl|] eqn:E4; [|injection Ep as <- <- <-; lia].
    destruct (int16 nd f1) as [tid|] eqn:E1; [|injection Ep as <- <- <-; lia].
    destruct (int16 nd f2) as [sid|] eqn:E2; [|injection Ep as <- <- <-; lia].
    injection Ep as <- <- <-.
    exists h, rest, f1, f2, f3, f4, tid, sid, fl. rewrite current_set_span.
    repeat (split; [assumption || reflexivity|]). reflexivity.
Qed.
