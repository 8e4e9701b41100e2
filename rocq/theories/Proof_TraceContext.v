From Verif Require Export Model_Context Spec_Context Proof_Trace.

Lemma lhex_iff c : is_lhex c = true <-> (48 <= c <= 57)%N \/ (97 <= c <= 102)%N.
Proof. unfold is_lhex, is_digit, in_range. lia. Qed.

Lemma lhex_digits_iff n s : lhex_digits n s <-> length s = n /\ forallb is_lhex s = true.
Proof.
  unfold lhex_digits. rewrite (forallb_Forall _ _ s lhex_iff). reflexivity.
Qed.

Lemma take_cls_spec p n s a r :
  take_cls p n s = Some (a, r) <-> s = a ++ r /\ length a = n /\ forallb p a = true.
Proof.
  revert s a r. induction n as [|n IH]; intros s a r; cbn [take_cls].
  - split.
    + intros E. injection E as <- <-. auto.
    + intros (-> & Hl & _). destruct a; [reflexivity|discriminate].
  - destruct s as [|c s].
    + split; [discriminate|]. intros (E & Hl & _). destruct a; discriminate.
    + split.
      * destruct (p c) eqn:Hc; [|discriminate].
        destruct (take_cls p n s) as [[a' r']|] eqn:Et; [|discriminate].
        intros E. injection E as <- <-. apply IH in Et as (-> & Hl & Hf).
        cbn. rewrite Hc, Hf. auto.
      * intros (E & Hl & Hf). destruct a as [|c' a]; [discriminate|].
        cbn in E, Hl, Hf. injection E as <- ->. injection Hl as Hl.
        apply andb_true_iff in Hf as [Hc Hf]. rewrite Hc.
        assert (Et : take_cls p n (a ++ r) = Some (a, r)) by (apply IH; auto).
        now rewrite Et.
Qed.

Lemma take_chr_spec c s r : take_chr c s = Some r <-> s = c :: r.
Proof.
  destruct s as [|x s]; cbn; [split; discriminate|].
  destruct (N.eqb_spec x c) as [->|Hx]; split; intros E.
  - injection E as ->. reflexivity.
  - injection E as ->. reflexivity.
  - discriminate.
  - injection E as E _. contradiction.
Qed.

Lemma drop_newline_spec s :
  (exists t, s = t ++ [10%N] /\ drop_final_newline s = t)
  \/ (drop_final_newline s = s /\ forall t, s <> t ++ [10%N]).
Proof.
  unfold drop_final_newline. destruct s as [|c s _] using rev_ind.
  - right. split; [reflexivity|]. intros t E. destruct t; discriminate.
  - rewrite rev_app_distr. cbn. destruct (N.eqb_spec c 10) as [->|Hc].
    + left. exists s. now rewrite rev_involutive.
    + right. split; [reflexivity|]. intros t E. apply app_inj_tail in E as [_ E]. congruence.
Qed.

Lemma drop_newline_snoc t : drop_final_newline (t ++ [10%N]) = t.
Proof. unfold drop_final_newline. rewrite rev_app_distr. cbn. apply rev_involutive. Qed.

Lemma drop_newline_id s : ~ In 10%N s -> drop_final_newline s = s.
Proof.
  intros Hni. destruct (drop_newline_spec s) as [(t & -> & _)|[E _]]; [|exact E].
  exfalso. apply Hni, in_app_iff. right. now left.
Qed.

Definition tail_text (r ext : str) : Prop :=
  (ext = [] \/ exists e, ext = 45%N :: e /\ ~ In 10%N e)
  /\ exists w2 nl, blanks w2 /\ (nl = [] \/ nl = [10%N]) /\ r = ext ++ w2 ++ nl.

Lemma forallb_no_nl t : forallb (fun x => negb (N.eqb x 10)) t = true <-> ~ In 10%N t.
Proof.
  rewrite forallb_forall. split.
  - intros Hf Hin. apply Hf in Hin. discriminate.
  - intros Hni x Hx. destruct (N.eqb_spec x 10) as [->|]; [contradiction|reflexivity].
Qed.

Lemma match_tail_sound r b : match_tail r = Some b ->
  exists ext, tail_text r ext /\ (b = false <-> ext = []).
Proof.
  unfold match_tail. intros Hm.
  assert (Hr : exists nl, (nl = [] \/ nl = [10%N]) /\ r = drop_final_newline r ++ nl).
  { destruct (drop_newline_spec r) as [(t & E & E')|[E' _]].
    - exists [10%N]. rewrite E'. auto.
    - exists []. rewrite E', app_nil_r. auto. }
  destruct Hr as (nl & Hnl & Hr). remember (drop_final_newline r) as t eqn:Et. clear Et.
  destruct t as [|c t].
  - injection Hm as <-. exists []. split; [|tauto]. split; [now left|].
    exists [], nl. repeat split; auto. constructor.
  - destruct (N.eqb_spec c 45) as [->|Hc].
    + destruct (forallb _ t) eqn:Hf; [|discriminate]. injection Hm as <-.
      apply forallb_no_nl in Hf. exists (45%N :: t). split; [|split; discriminate].
      split; [right; eauto|]. exists [], nl. repeat split; auto. constructor.
    + destruct (forallb is_ows (c :: t)) eqn:Hf; [|discriminate]. injection Hm as <-.
      exists []. split; [|tauto]. split; [now left|]. exists (c :: t), nl.
      repeat split; auto. now apply forallb_ows.
Qed.

Lemma blanks_no_nl w : blanks w -> ~ In 10%N w.
Proof.
  intros Hw Hin. unfold blanks in Hw. rewrite Forall_forall in Hw. apply Hw in Hin.
  unfold blank in Hin. lia.
Qed.

Lemma match_tail_complete r ext : tail_text r ext ->
  match_tail r = Some (match ext with [] => false | _ => true end).
Proof.
  intros [He (w2 & nl & Hw & Hnl & ->)].
  assert (Hd : drop_final_newline (ext ++ w2 ++ nl) = ext ++ w2).
  { destruct Hnl as [->| ->].
    - rewrite app_nil_r. apply drop_newline_id. rewrite in_app_iff.
      intros [Hin|Hin]; [|now apply blanks_no_nl in Hin].
      destruct He as [->|(e & -> & Hni)]; [contradiction|].
      destruct Hin as [Hin|Hin]; [discriminate|contradiction].
    - rewrite app_assoc. apply drop_newline_snoc. }
  unfold match_tail. rewrite Hd. destruct He as [->|(e & -> & Hni)]; cbn [app].
  - destruct w2 as [|c w2]; [reflexivity|].
    assert (Hc : c <> 45%N). { inversion Hw as [|? ? Hc _]; subst. unfold blank in Hc. lia. }
    apply N.eqb_neq in Hc. rewrite Hc. apply forallb_ows in Hw. now rewrite Hw.
  - rewrite N.eqb_refl. assert (Hf : forallb (fun x => negb (N.eqb x 10)) (e ++ w2) = true).
    { apply forallb_no_nl. rewrite in_app_iff. intros [Hin|Hin]; [contradiction|].
      now apply blanks_no_nl in Hin. }
    now rewrite Hf.
Qed.

Lemma lhex_not_blank c : is_lhex c = true -> is_ows c = false.
Proof. rewrite lhex_iff. unfold is_ows. lia. Qed.

Lemma match_traceparent_sound h tp : match_traceparent h = Some tp ->
  exists ext, traceparent_text h (tp_version tp) (tp_trace_id tp) (tp_span_id tp) (tp_flags tp) ext
              /\ (tp_group5 tp = false <-> ext = []).
Proof.
  unfold match_traceparent.
  destruct (take_cls is_lhex 2 _) as [[v r1]|] eqn:E1; [|discriminate].
  destruct (take_chr 45 r1) as [r2|] eqn:E2; [|discriminate].
  destruct (take_cls is_lhex 32 r2) as [[t r3]|] eqn:E3; [|discriminate].
  destruct (take_chr 45 r3) as [r4|] eqn:E4; [|discriminate].
  destruct (take_cls is_lhex 16 r4) as [[s r5]|] eqn:E5; [|discriminate].
  destruct (take_chr 45 r5) as [r6|] eqn:E6; [|discriminate].
  destruct (take_cls is_lhex 2 r6) as [[f r7]|] eqn:E7; [|discriminate].
  destruct (match_tail r7) as [g5|] eqn:E8; [|discriminate].
  intros E. injection E as <-. cbn [tp_version tp_trace_id tp_span_id tp_flags tp_group5].
  apply take_cls_spec in E1 as (H1 & L1 & F1). apply take_chr_spec in E2 as ->.
  apply take_cls_spec in E3 as (-> & L3 & F3). apply take_chr_spec in E4 as ->.
  apply take_cls_spec in E5 as (-> & L5 & F5). apply take_chr_spec in E6 as ->.
  apply take_cls_spec in E7 as (-> & L7 & F7).
  apply match_tail_sound in E8 as (ext & [He (w2 & nl & Hw2 & Hnl & ->)] & Hg).
  exists ext. split; [|exact Hg].
  destruct (lstrip_decomp is_ows h) as (w1 & Eh & Hw1). apply forallb_ows in Hw1.
  repeat (split; [apply lhex_digits_iff; auto|]). split; [exact He|].
  exists w1, w2, nl. repeat (split; [assumption|]). rewrite Eh at 1. rewrite H1. reflexivity.
Qed.

Lemma match_traceparent_complete h v t s f ext : traceparent_text h v t s f ext ->
  match_traceparent h = Some (TP v t s f (match ext with [] => false | _ => true end)).
Proof.
  intros (Hv & Ht & Hs & Hf & He & w1 & w2 & nl & Hw1 & Hw2 & Hnl & ->).
  apply lhex_digits_iff in Hv as [Lv Fv], Ht as [Lt Ft], Hs as [Ls Fs], Hf as [Lf Ff].
  unfold match_traceparent.
  assert (Hstrip : forall r, lstrip is_ows (w1 ++ v ++ r) = v ++ r).
  { intros r. rewrite lstrip_app by now apply forallb_ows.
    destruct v as [|c v]; [discriminate|]. cbn [app]. apply lstrip_hd, lhex_not_blank.
    cbn in Fv. now apply andb_true_iff in Fv as [? _]. }
  rewrite Hstrip. cbn [app].
  assert (Htake : forall p n a r, length a = n -> forallb p a = true ->
            take_cls p n (a ++ r) = Some (a, r)) by (intros; apply take_cls_spec; auto).
  rewrite Htake by assumption. cbn [take_chr]. rewrite N.eqb_refl.
  rewrite Htake by assumption. cbn [take_chr]. rewrite N.eqb_refl.
  rewrite Htake by assumption. cbn [take_chr]. rewrite N.eqb_refl.
  rewrite Htake by assumption.
  rewrite (match_tail_complete _ ext); [reflexivity|].
  split; [exact He|]. exists w2, nl. auto.
Qed.

(** The span context a well-formed header stands for. *)
Definition header_context (g : getter) (t s f : str) : span_context :=
  SC (Z.of_N (hex_value t)) (Z.of_N (hex_value s)) true (Z.of_N (hex_value f))
     (match g_get g TRACESTATE with None => [] | Some hs => ts_from_header hs end).

Lemma lhex_nonzero n s : lhex_digits n s -> s <> repeat 48%N n ->
  (0 < Z.of_N (hex_value s) < 2 ^ (4 * Z.of_nat n))%Z.
Proof.
  intros Hs Hne. apply lhex_digits_iff in Hs as [Hl Hf].
  assert (Hlt := hex_value_lt s (forallb_impl _ _ _ is_lhex_is_hex Hf)). rewrite Hl in Hlt.
  pose proof (pow16 n). split; [|lia].
  destruct (N.eq_dec (hex_value s) 0) as [E|E]; [|lia].
  apply hex_value_zero in E; [|assumption]. rewrite Hl in E. contradiction.
Qed.

Lemma header_context_valid g t s f :
  lhex_digits 32 t -> lhex_digits 16 s -> t <> repeat 48%N 32 -> s <> repeat 48%N 16 ->
  sc_is_valid (header_context g t s f) = true /\ sc_is_remote (header_context g t s f) = true.
Proof.
  intros Ht Hs Htn Hsn. split; [|reflexivity].
  apply lhex_nonzero in Ht; [|assumption]. apply lhex_nonzero in Hs; [|assumption].
  unfold sc_is_valid, header_context, TRACE_ID_MAX, SPAN_ID_MAX. cbn [sc_trace_id sc_span_id].
  change (4 * Z.of_nat 32)%Z with 128%Z in Ht. change (4 * Z.of_nat 16)%Z with 64%Z in Hs.
  lia.
Qed.

Lemma traceparent_unique h v t s f ext v' t' s' f' ext' :
  traceparent_text h v t s f ext -> traceparent_text h v' t' s' f' ext' ->
  v = v' /\ t = t' /\ s = s' /\ f = f' /\ (ext = [] <-> ext' = []).
Proof.
  intros H1 H2. apply match_traceparent_complete in H1. apply match_traceparent_complete in H2.
  rewrite H1 in H2. injection H2 as -> -> -> -> Hg. repeat split; auto;
    destruct ext, ext'; congruence.
Qed.

Lemma tc_extract_accept g ctx h rest v t s f ext :
  g_get g TRACEPARENT = Some (h :: rest) ->
  traceparent_text h v t s f ext -> traceparent_acceptable v t s ext ->
  tc_extract g ctx = set_span_in_context (OSpan (header_context g t s f) false None) ctx.
Proof.
  intros Hg Htp (Hff & H00 & Ht & Hs). unfold tc_extract. rewrite Hg.
  rewrite (match_traceparent_complete _ _ _ _ _ _ Htp). cbn [tp_version tp_trace_id tp_span_id tp_flags tp_group5].
  apply str_eqb_neq in Ht, Hs, Hff. rewrite Ht, Hs, Hff. cbn [orb].
  assert (E : str_eqb v (lit "00") && match ext with [] => false | _ :: _ => true end = false).
  { destruct (str_eqb v (lit "00")) eqn:E; [|reflexivity]. apply str_eqb_eq in E.
    rewrite H00 by assumption. reflexivity. }
  rewrite E. reflexivity.
Qed.

Lemma tc_extract_reject g ctx :
  (forall h rest v t s f ext, g_get g TRACEPARENT = Some (h :: rest) ->
     traceparent_text h v t s f ext -> ~ traceparent_acceptable v t s ext) ->
  tc_extract g ctx = ctx.
Proof.
  intros Hr. unfold tc_extract. destruct (g_get g TRACEPARENT) as [[|h rest]|] eqn:Hg; try reflexivity.
  destruct (match_traceparent h) as [tp|] eqn:Em; [|reflexivity].
  apply match_traceparent_sound in Em as (ext & Htp & Hg5).
  specialize (Hr h rest _ _ _ _ ext eq_refl Htp).
  destruct (str_eqb (tp_trace_id tp) _) eqn:Et; [reflexivity|].
  destruct (str_eqb (tp_span_id tp) _) eqn:Es; [reflexivity|]. cbn [orb].
  destruct (str_eqb (tp_version tp) (lit "00") && tp_group5 tp) eqn:E0; [reflexivity|].
  destruct (str_eqb (tp_version tp) (lit "ff")) eqn:Ef; [reflexivity|].
  exfalso. apply Hr. apply str_eqb_neq in Et, Es, Ef. repeat split; auto.
  intros Ev. apply str_eqb_eq in Ev. rewrite Ev in E0. cbn in E0. now apply Hg5.
Qed.

(** Observations of a context. *)
Lemma get_value_set_eq k v ctx : get_value k (set_value k v ctx) = v.
Proof. unfold get_value, set_value. now rewrite dget_dset_eq. Qed.
Lemma get_value_set_ne k k' v ctx : k' <> k -> get_value k' (set_value k v ctx) = get_value k' ctx.
Proof. intros Hk. unfold get_value, set_value. now rewrite dget_dset_ne. Qed.

Lemma current_set_span sc r p ctx :
  current_span_context (set_span_in_context (OSpan sc r p) ctx) = sc.
Proof.
  unfold current_span_context, get_current_span, set_span_in_context.
  now rewrite get_value_set_eq.
Qed.

Lemma tc_extract_cases g ctx :
  (tc_extract g ctx = ctx /\
   ~ exists h rest v t s f ext, g_get g TRACEPARENT = Some (h :: rest)
       /\ traceparent_text h v t s f ext /\ traceparent_acceptable v t s ext)
  \/ (exists h rest v t s f ext, g_get g TRACEPARENT = Some (h :: rest)
       /\ traceparent_text h v t s f ext /\ traceparent_acceptable v t s ext
       /\ tc_extract g ctx = set_span_in_context (OSpan (header_context g t s f) false None) ctx
       /\ sc_is_valid (header_context g t s f) = true).
Proof.
  destruct (g_get g TRACEPARENT) as [[|h rest]|] eqn:Hg.
  - left. split; [unfold tc_extract; now rewrite Hg|].
    intros (h & rest & v & t & s & f & ext & E & _). discriminate.
  - destruct (match_traceparent h) as [tp|] eqn:Em.
    + apply match_traceparent_sound in Em as (ext & Htp & Hg5).
      assert (Hdec : traceparent_acceptable (tp_version tp) (tp_trace_id tp) (tp_span_id tp) ext
              \/ ~ traceparent_acceptable (tp_version tp) (tp_trace_id tp) (tp_span_id tp) ext).
      { unfold traceparent_acceptable.
        destruct (str_eq_dec (tp_version tp) (lit "ff")); [right; tauto|].
        destruct (str_eq_dec (tp_trace_id tp) (repeat 48%N 32)); [right; tauto|].
        destruct (str_eq_dec (tp_span_id tp) (repeat 48%N 16)); [right; tauto|].
        destruct (str_eq_dec (tp_version tp) (lit "00")); [|left; tauto].
        destruct (str_eq_dec ext []); [left; tauto|right; tauto]. }
      destruct Hdec as [Ha|Ha].
      * right. exists h, rest, (tp_version tp), (tp_trace_id tp), (tp_span_id tp), (tp_flags tp), ext.
        repeat (split; [assumption || reflexivity|]). split.
        -- eapply tc_extract_accept; eauto.
        -- destruct Htp as (_ & Ht & Hs & _). destruct Ha as (_ & _ & Htn & Hsn).
           now apply header_context_valid.
      * left. assert (Hn : forall h' rest' v t s f ext', Some (h :: rest) = Some (h' :: rest') ->
                traceparent_text h' v t s f ext' -> ~ traceparent_acceptable v t s ext').
        { intros h' rest' v t s f ext' E Htp'. injection E as <- <-.
          destruct (traceparent_unique _ _ _ _ _ _ _ _ _ _ _ Htp Htp') as (<- & <- & <- & <- & Hx).
          unfold traceparent_acceptable in *. tauto. }
        split.
        -- apply tc_extract_reject. rewrite Hg. exact Hn.
        -- intros (h' & rest' & v & t & s & f & ext' & E & Htp' & Ha'). eapply Hn; eauto.
    + left. split; [unfold tc_extract; now rewrite Hg, Em|].
      intros (h' & rest' & v & t & s & f & ext' & E & Htp' & _). injection E as <- <-.
      apply match_traceparent_complete in Htp'. congruence.
  - left. split; [unfold tc_extract; now rewrite Hg|].
    intros (h & rest & v & t & s & f & ext & E & _). discriminate.
Qed.

(** ** Round trip *)
Lemma valid_bounds sc : sc_is_valid sc = true ->
  (0 < sc_trace_id sc < 2 ^ 128)%Z /\ (0 < sc_span_id sc < 2 ^ 64)%Z.
Proof. unfold sc_is_valid, TRACE_ID_MAX, SPAN_ID_MAX. lia. Qed.

Lemma valid_not_invalid sc : sc_is_valid sc = true -> is_invalid_context sc = false.
Proof.
  intros Hv. apply valid_bounds in Hv. unfold is_invalid_context.
  destruct (Z.eqb_spec (sc_trace_id sc) 0); [lia|reflexivity].
Qed.

Lemma dget_default_set w c k :
  NoDup (map fst w) ->
  dget k (default_set w c) = match dget k w with Some v => Some (CStr v) | None => dget k c end.
Proof.
  intros Hnd. unfold default_set. rewrite dget_dupdate.
  - assert (E : dget k (map (fun kv => (fst kv, CStr (snd kv))) w) = option_map CStr (dget k w)).
    { clear Hnd. induction w as [|[k' v'] w IH]; cbn; [reflexivity|].
      destruct (eq_dec k k'); [reflexivity|exact IH]. }
    rewrite E. destruct (dget k w); reflexivity.
  - unfold keys. rewrite map_map. exact Hnd.
Qed.

Lemma traceparent_of_valid sc :
  sc_is_valid sc = true -> (0 <= sc_flags sc < 256)%Z ->
  traceparent_text
    (lit "00-" ++ format_trace_id (sc_trace_id sc) ++ lit "-"
     ++ format_span_id (sc_span_id sc) ++ lit "-" ++ format_hex 2 (sc_flags sc))
    (lit "00") (format_trace_id (sc_trace_id sc)) (format_span_id (sc_span_id sc))
    (format_hex 2 (sc_flags sc)) []
  /\ traceparent_acceptable (lit "00") (format_trace_id (sc_trace_id sc))
       (format_span_id (sc_span_id sc)) [].
Proof.
  intros Hv Hf. apply valid_bounds in Hv as [Ht Hs].
  destruct (format_trace_id_ok (sc_trace_id sc)) as (Lt & Ft & Vt); [lia|].
  destruct (format_span_id_ok (sc_span_id sc)) as (Ls & Fs & Vs); [lia|].
  destruct (format_hex_ok 2 (sc_flags sc)) as (Lf & Ff & Vf); [lia| |].
  { change (4 * Z.of_nat 2)%Z with 8%Z. lia. }
  split.
  - repeat (split; [apply lhex_digits_iff; auto|]).
    split; [now left|]. exists [], [], []. split; [constructor|]. split; [constructor|].
    split; [now left|]. rewrite !app_nil_r. reflexivity.
  - split; [discriminate|]. split; [reflexivity|]. split; intros E.
    + rewrite <- Lt in E. apply (hex_value_zero _ Ft) in E. lia.
    + rewrite <- Ls in E. apply (hex_value_zero _ Fs) in E. lia.
Qed.

Definition with_span (sc : span_context) (r : bool) (p : option Z) (ctx : context) : context :=
  set_span_in_context (OSpan sc r p) ctx.

Lemma tc_round_trip ctx sc base c0 :
  current_span_context ctx = sc ->
  sc_is_valid sc = true -> (0 <= sc_flags sc < 256)%Z -> ts_wf (sc_state sc) ->
  dget TRACESTATE c0 = None ->
  let sent := default_set (inj_writes (tc_inject ctx)) c0 in
  tc_extract (default_getter sent) base =
  set_span_in_context
    (OSpan (SC (sc_trace_id sc) (sc_span_id sc) true (sc_flags sc) (sc_state sc)) false None) base.
Proof.
  intros Hcur Hv Hf Hwf Hc0. cbn zeta. unfold tc_inject. rewrite Hcur.
  rewrite valid_not_invalid by assumption. cbn [inj_writes].
  destruct (traceparent_of_valid sc Hv Hf) as [Htp Hacc].
  set (tp := lit "00-" ++ _) in *.
  set (ws := (TRACEPARENT, tp) :: _).
  assert (Hnd : NoDup (map fst ws)).
  { unfold ws. destruct (sc_state sc); cbn [map fst].
    - repeat constructor. cbn. tauto.
    - constructor; [|repeat constructor; cbn; tauto].
      cbn [In]. intros [E|[]]. discriminate. }
  assert (Hgp : g_get (default_getter (default_set ws c0)) TRACEPARENT = Some [tp]).
  { cbn [g_get default_getter]. rewrite dget_default_set by assumption. reflexivity. }
  rewrite (tc_extract_accept _ _ _ _ _ _ _ _ _ Hgp Htp Hacc).
  f_equal. f_equal. unfold header_context. apply valid_bounds in Hv as [Ht Hs].
  rewrite (proj2 (proj2 (format_trace_id_ok (sc_trace_id sc) ltac:(lia)))).
  rewrite (proj2 (proj2 (format_span_id_ok (sc_span_id sc) ltac:(lia)))).
  destruct (format_hex_ok 2 (sc_flags sc)) as (_ & _ & Vf); [lia| |].
  { change (4 * Z.of_nat 2)%Z with 8%Z. lia. }
  rewrite Vf. f_equal. cbn [g_get default_getter]. rewrite dget_default_set by assumption.
  unfold ws. destruct (sc_state sc) as [|kv st] eqn:Est.
  - cbn [dget]. destruct (eq_dec TRACESTATE TRACEPARENT) as [E|]; [discriminate|]. now rewrite Hc0.
  - cbn [dget]. destruct (eq_dec TRACESTATE TRACEPARENT) as [E|]; [discriminate|].
    destruct (eq_dec TRACESTATE TRACESTATE); [|congruence]. now apply header_roundtrip.
Qed.

Lemma tc_round_trip_obs ctx sc base c0 :
  current_span_context ctx = sc ->
  sc_is_valid sc = true -> (0 <= sc_flags sc < 256)%Z -> ts_wf (sc_state sc) ->
  dget TRACESTATE c0 = None ->
  let sent := default_set (inj_writes (tc_inject ctx)) c0 in
  let got := tc_extract (default_getter sent) base in
  current_span_context got
    = SC (sc_trace_id sc) (sc_span_id sc) true (sc_flags sc) (sc_state sc)
  /\ (forall k, k <> SPAN_KEY -> get_value k got = get_value k base)
  /\ (forall k, ~ In k tc_fields -> dget k sent = dget k c0).
Proof.
  intros Hcur Hv Hf Hwf Hc0 sent got. unfold got, sent.
  rewrite (tc_round_trip ctx sc base c0) by assumption. split; [|split].
  - apply current_set_span.
  - intros k Hk. now apply get_value_set_ne.
  - intros k Hk. unfold tc_inject. rewrite Hcur, valid_not_invalid by assumption. cbn [inj_writes].
    cbn [tc_fields In] in Hk. rewrite dget_default_set.
    + destruct (sc_state sc); cbn [dget].
      * destruct (eq_dec k TRACEPARENT) as [->|]; [tauto|reflexivity].
      * destruct (eq_dec k TRACEPARENT) as [->|]; [tauto|].
        destruct (eq_dec k TRACESTATE) as [->|]; [tauto|reflexivity].
    + destruct (sc_state sc); cbn [map fst].
      * repeat constructor. cbn. tauto.
      * constructor; [|repeat constructor; cbn; tauto].
        cbn [In]. intros [E|[]]. discriminate.
Qed.

Lemma tc_stale_tracestate :
  exists ctx c0, sc_is_valid (current_span_context ctx) = true
    /\ sc_state (current_span_context ctx) = []
    /\ sc_state (current_span_context
         (tc_extract (default_getter (default_set (inj_writes (tc_inject ctx)) c0)) [])) <> [].
Proof.
  exists [(SPAN_KEY, OSpan (SC 1 1 false 1 []) true None)], [(TRACESTATE, CStr (lit "a=1"))].
  vm_compute. split; [reflexivity|]. split; [reflexivity|discriminate].
Qed.

Lemma tc_extract_observed (g : getter) (ctx : context) :
  let got := tc_extract g ctx in
  (got = ctx /\
   ~ exists h rest v t s f ext, g_get g TRACEPARENT = Some (h :: rest)
       /\ traceparent_text h v t s f ext /\ traceparent_acceptable v t s ext)
  \/ (exists h rest v t s f ext, g_get g TRACEPARENT = Some (h :: rest)
       /\ traceparent_text h v t s f ext /\ traceparent_acceptable v t s ext
       /\ sc_is_valid (current_span_context got) = true
       /\ sc_is_remote (current_span_context got) = true
       /\ sc_trace_id (current_span_context got) = Z.of_N (hex_value t)
       /\ sc_span_id (current_span_context got) = Z.of_N (hex_value s)
       /\ sc_flags (current_span_context got) = Z.of_N (hex_value f)
       /\ sc_state (current_span_context got)
          = match g_get g TRACESTATE with None => [] | Some hs => ts_from_header hs end
       /\ (forall k, k <> SPAN_KEY -> get_value k got = get_value k ctx)).
Proof.
  intros got. unfold got.
  destruct (tc_extract_cases g ctx) as [H|(h & rest & v & t & s & f & ext & Hg & Ht & Ha & E & Hv)].
  - now left.
  - right. exists h, rest, v, t, s, f, ext. rewrite E, current_set_span.
    repeat (split; [assumption || reflexivity|]).
    intros k Hk. now apply get_value_set_ne.
Qed.

Lemma tc_extract_special g ctx h rest v t s f ext :
  g_get g TRACEPARENT = Some (h :: rest) -> traceparent_text h v t s f ext ->
  v = lit "ff" \/ (v = lit "00" /\ ext <> []) \/ t = repeat 48%N 32 \/ s = repeat 48%N 16 ->
  tc_extract g ctx = ctx.
Proof.
  intros Hg Ht Hs. apply tc_extract_reject. rewrite Hg.
  intros h' rest' v' t' s' f' ext' E Ht' (Ha1 & Ha2 & Ha3 & Ha4). injection E as <- <-.
  destruct (traceparent_unique _ _ _ _ _ _ _ _ _ _ _ Ht Ht') as (<- & <- & <- & <- & Hx).
  destruct Hs as [->|[[-> He]|[->| ->]]]; tauto.
Qed.

Lemma tc_extract_malformed g ctx h rest :
  g_get g TRACEPARENT = Some (h :: rest) ->
  (forall v t s f ext, ~ traceparent_text h v t s f ext) ->
  tc_extract g ctx = ctx.
Proof.
  intros Hg Hn. apply tc_extract_reject. rewrite Hg.
  intros h' rest' v t s f ext E Ht. injection E as <- <-. now apply Hn in Ht.
Qed.
