From Verif Require Import Spec_Sampling Proof_Span Proof_TraceContext.
Local Open Scope nat_scope.

Lemma pow2_pos e : (e < 0 -> 0 < 2 ^ (- e))%Z.
Proof. intros. apply Z.pow_pos_nonneg; lia. Qed.

Lemma round_spec m e : nearest_even (value m e) (round_half_even m e).
Proof.
  unfold nearest_even, value, round_half_even. destruct (Z.leb_spec 0 e) as [He|He].
  - set (x := (m * 2 ^ e)%Z). clearbody x. unfold Qle, Qeq, inject_Z. cbn. repeat split; try lia.
  - set (d := (2 ^ (- e))%Z). assert (Hd : (0 < d)%Z) by (apply pow2_pos; lia).
    assert (Hp : Z.pos (Z.to_pos d) = d) by (apply Z2Pos.id; lia).
    assert (Hm : m = (d * (m / d) + m mod d)%Z) by (apply Z.div_mod; lia).
    assert (Hr : (0 <= m mod d < d)%Z) by (apply Z.mod_pos_bound; lia).
    set (q := (m / d)%Z) in *. set (r := (m mod d)%Z) in *. clearbody q r.
    unfold Qle, Qeq, Qminus, Qplus, Qopp, inject_Z. cbn [Qnum Qden].
    rewrite ?Pos2Z.inj_mul, ?Hp.
    assert (He' : forall x, Z.even (x + 1) = negb (Z.even x)) by (intros; rewrite Z.even_add; destruct (Z.even x); reflexivity).
    destruct (Z.ltb_spec (2 * r) d); [|destruct (Z.ltb_spec d (2 * r))].
    + repeat split; try nia. 
    + repeat split; try nia.
    + destruct (Z.even q) eqn:Eq.
      * repeat split; try nia. 
      * rewrite He', Eq. repeat split; nia.
Qed.

Lemma nearest_even_mono v w b c : (v <= w)%Q -> nearest_even v b -> nearest_even w c -> (b <= c)%Z.
Proof.
  intros Hvw (B1 & B2 & B3) (C1 & C2 & C3).
  destruct (Z.le_gt_cases b c) as [|Hgt]; [assumption|exfalso].
  destruct v as [vn vd], w as [wn wd].
  unfold Qle, Qeq, Qminus, Qplus, Qopp, inject_Z in *. cbn [Qnum Qden] in *.
  rewrite ?Pos2Z.inj_mul in *.
  set (d := Z.pos vd) in *. set (f := Z.pos wd) in *.
  assert (0 < d)%Z by (subst d; lia). assert (0 < f)%Z by (subst f; lia). clearbody d f.
  (* 2 b d <= 2 vn + d ; 2 wn - f <= 2 c f ; vn f <= wn d *)
  assert (K1 : (2 * b * d <= 2 * vn + d)%Z) by lia.
  assert (K2 : (2 * wn - f <= 2 * c * f)%Z) by lia.
  assert (K3 : (2 * b * d * f <= 2 * c * f * d + 2 * d * f)%Z) by nia.
  assert (Hb : b = (c + 1)%Z) by nia. subst b.
  assert (T1 : (2 * (c + 1) * d = 2 * vn + d)%Z) by nia.
  assert (T2 : (2 * wn - f = 2 * c * f)%Z) by nia.
  assert (E1 : Z.even (c + 1) = true) by (apply B3; right; nia).
  assert (E2 : Z.even c = true) by (apply C3; left; nia).
  rewrite Z.even_add, E2 in E1. discriminate.
Qed.

Lemma dy_leb_value m e n f : dy_leb m e n f = true <-> (value m e <= value n f)%Q.
Proof.
  unfold dy_leb. set (k := Z.min e f).
  assert (V : forall x y, (k <= y)%Z -> (value x y == if Z.leb 0 k then inject_Z (x * 2 ^ (y - k) * 2 ^ k)
     else (x * 2 ^ (y - k)) # Z.to_pos (2 ^ (- k)))%Q).
  { intros x y Hk. unfold value. destruct (Z.leb_spec 0 k) as [K|K].
    - destruct (Z.leb_spec 0 y) as [Y|Y]; [|lia]. 
      replace (x * 2 ^ (y - k) * 2 ^ k)%Z with (x * 2 ^ y)%Z; [reflexivity|].
      rewrite <- Z.mul_assoc, <- Z.pow_add_r by lia. f_equal. f_equal. lia.
    - assert (Hp : Z.pos (Z.to_pos (2 ^ (- k))) = (2 ^ (- k))%Z) by (apply Z2Pos.id, pow2_pos; lia).
      destruct (Z.leb_spec 0 y) as [Y|Y].
      + unfold Qeq, inject_Z. cbn [Qnum Qden]. rewrite Hp.
        replace (y - k)%Z with (y + - k)%Z by lia. rewrite Z.pow_add_r by lia. ring.
      + assert (Hq : Z.pos (Z.to_pos (2 ^ (- y))) = (2 ^ (- y))%Z) by (apply Z2Pos.id, pow2_pos; lia).
        unfold Qeq. cbn [Qnum Qden]. rewrite Hp, Hq.
        replace (- k)%Z with ((y - k) + - y)%Z by lia. rewrite Z.pow_add_r by lia. ring. }
  rewrite (V m e), (V n f) by (subst k; lia). rewrite Z.leb_le.
  destruct (Z.leb_spec 0 k) as [K|K].
  - assert (0 < 2 ^ k)%Z by (apply Z.pow_pos_nonneg; lia). unfold Qle, inject_Z. cbn [Qnum Qden]. nia.
  - unfold Qle. cbn [Qnum Qden]. nia.
Qed.

Lemma value_scale m e : (value m (e + 64) == value m e * inject_Z (2 ^ 64))%Q.
Proof.
  unfold value. destruct (Z.leb_spec 0 e) as [E|E].
  - destruct (Z.leb_spec 0 (e + 64)) as [F|F]; [|lia]. rewrite Z.pow_add_r by lia. unfold Qeq, inject_Z, Qmult. cbn [Qnum Qden]. rewrite Pos2Z.inj_mul. ring.
  - assert (Hp : Z.pos (Z.to_pos (2 ^ (- e))) = (2 ^ (- e))%Z) by (apply Z2Pos.id, pow2_pos; lia).
    destruct (Z.leb_spec 0 (e + 64)) as [F|F].
    + unfold Qeq, inject_Z, Qmult. cbn [Qnum Qden]. rewrite Pos2Z.inj_mul, Hp.
      replace (2 ^ 64)%Z with (2 ^ (e + 64) * 2 ^ (- e))%Z by (rewrite <- Z.pow_add_r by lia; f_equal; lia). ring.
    + assert (Hq : Z.pos (Z.to_pos (2 ^ (- (e + 64)))) = (2 ^ (- (e + 64)))%Z) by (apply Z2Pos.id, pow2_pos; lia).
      unfold Qeq, inject_Z, Qmult. cbn [Qnum Qden]. rewrite Pos2Z.inj_mul, Hp, Hq.
      replace (2 ^ (- e))%Z with (2 ^ (- (e + 64)) * 2 ^ 64)%Z by (rewrite <- Z.pow_add_r by lia; f_equal; lia). ring.
Qed.

Lemma nearest_even_ext v w b : (v == w)%Q -> nearest_even v b -> nearest_even w b.
Proof. intros E (A & B & C). unfold nearest_even. rewrite <- E. auto. Qed.

Lemma value_0 : (value 0 0 == 0)%Q. Proof. reflexivity. Qed.
Lemma value_1 : (value 1 0 == 1)%Q. Proof. reflexivity. Qed.

Lemma ratio_bound_spec rate :
  (forall m e, rate = DFin m e -> (0 <= value m e <= 1)%Q ->
     exists b, ratio_bound rate = Ok b /\ nearest_even (value m e * inject_Z (2 ^ 64)) b)
  /\ ((forall m e, rate = DFin m e -> ~ (0 <= value m e <= 1)%Q) -> ratio_bound rate = Raises "ValueError").
Proof.
  split.
  - intros m e -> [H0 H1]. unfold ratio_bound, dlt, dzero, done_.
    assert (A : dy_leb 0 0 m e = true) by (apply dy_leb_value; exact H0).
    assert (B : dy_leb m e 1 0 = true) by (apply dy_leb_value; exact H1).
    rewrite A, B. cbn [negb orb]. eexists. split; [reflexivity|].
    eapply nearest_even_ext; [apply value_scale|]. apply round_spec.
  - intros H. unfold ratio_bound. destruct rate as [m e| |]; [|destruct neg; reflexivity|reflexivity].
    unfold dlt, dzero, done_.
    destruct (dy_leb 0 0 m e) eqn:A; [|reflexivity]. destruct (dy_leb m e 1 0) eqn:B; [|reflexivity].
    exfalso. apply (H m e eq_refl). split; [apply (proj1 (dy_leb_value 0 0 m e)) in A|apply (proj1 (dy_leb_value m e 1 0)) in B]; assumption.
Qed.

Lemma ratio_bound_ok rate b : ratio_bound rate = Ok b ->
  exists m e, rate = DFin m e /\ (0 <= value m e <= 1)%Q /\ nearest_even (value m e * inject_Z (2 ^ 64)) b.
Proof.
  intros H. destruct (ratio_bound_spec rate) as [H1 H2].
  destruct rate as [m e| |]; [|rewrite H2 in H by discriminate; discriminate|rewrite H2 in H by discriminate; discriminate].
  assert (D : (0 <= value m e <= 1)%Q).
  { destruct (Qlt_le_dec (value m e) 0) as [L|L]; [|destruct (Qlt_le_dec 1 (value m e)) as [R|R]]; [| |auto];
      rewrite H2 in H; try discriminate; intros m' e' [= <- <-] [A B].
    - exact (Qlt_not_le _ _ L A). - exact (Qlt_not_le _ _ R B). }
  destruct (H1 m e eq_refl D) as (b' & E & N). rewrite E in H. injection H as <-. eauto 6.
Qed.

Lemma bound_range rate b : ratio_bound rate = Ok b -> (0 <= b <= 2 ^ 64)%Z.
Proof.
  intros H. apply ratio_bound_ok in H as (m & e & -> & [L R] & N).
  assert (N0 : nearest_even 0 0) by (repeat split; unfold Qle; cbn; lia).
  assert (N1 : nearest_even (inject_Z (2 ^ 64)) (2 ^ 64)).
  { unfold nearest_even, Qle, Qeq, Qminus, Qplus, Qopp, inject_Z. cbn [Qnum Qden]. repeat split; lia. }
  split.
  - eapply nearest_even_mono; [|exact N0|exact N]. rewrite <- (Qmult_0_l (inject_Z (2 ^ 64))).
    apply Qmult_le_compat_r; [exact L|discriminate].
  - eapply nearest_even_mono; [|exact N|exact N1]. 
    eapply Qle_trans; [apply Qmult_le_compat_r; [exact R|discriminate]|]. rewrite Qmult_1_l. apply Qle_refl.
Qed.

Lemma land_low t : Z.land t (2 ^ 64 - 1) = (t mod 2 ^ 64)%Z.
Proof. replace (2 ^ 64 - 1)%Z with (Z.ones 64) by reflexivity. apply Z.land_ones. lia. Qed.

Lemma ratio_sampled b cur c t n k a l : sampled (ratio_sampler b cur c t n k a l) <-> (t mod 2 ^ 64 < b)%Z.
Proof.
  unfold sampled, ratio_sampler. rewrite land_low. destruct (Z.ltb_spec (t mod 2 ^ 64) b); cbn; split; intros; (lia || congruence || discriminate).
Qed.

Lemma ratio_mono m e n f b1 b2 cur c t nm k a l cur' c' t' nm' k' a' l' :
  (value m e <= value n f)%Q -> ratio_bound (DFin m e) = Ok b1 -> ratio_bound (DFin n f) = Ok b2 ->
  (t mod 2 ^ 64 = t' mod 2 ^ 64)%Z ->
  sampled (ratio_sampler b1 cur c t nm k a l) -> sampled (ratio_sampler b2 cur' c' t' nm' k' a' l').
Proof.
  intros Hle H1 H2 Ht Hs. apply ratio_sampled in Hs. apply ratio_sampled.
  apply ratio_bound_ok in H1 as (m1 & e1 & [= <- <-] & _ & N1). apply ratio_bound_ok in H2 as (n1 & f1 & [= <- <-] & _ & N2).
  assert (b1 <= b2)%Z; [|lia]. eapply nearest_even_mono; [|exact N1|exact N2].
  apply Qmult_le_compat_r; [exact Hle|discriminate].
Qed.

Lemma ratio_extremes m e b cur c t n k a l : ratio_bound (DFin m e) = Ok b ->
  ((value m e == 0)%Q -> ~ sampled (ratio_sampler b cur c t n k a l))
  /\ ((value m e == 1)%Q -> sampled (ratio_sampler b cur c t n k a l)).
Proof.
  intros H. pose proof (bound_range _ _ H) as Hr. apply ratio_bound_ok in H as (m1 & e1 & [= <- <-] & _ & N).
  split; intros E; rewrite ratio_sampled.
  - assert (b <= 0)%Z; [|pose proof (Z.mod_pos_bound t (2 ^ 64)); lia].
    eapply nearest_even_mono; [|exact N|instantiate (1 := 0%Q); repeat split; unfold Qle; cbn; lia].
    rewrite E, Qmult_0_l. apply Qle_refl.
  - assert (2 ^ 64 <= b)%Z; [|pose proof (Z.mod_pos_bound t (2 ^ 64)); lia].
    eapply nearest_even_mono; [|instantiate (1 := inject_Z (2 ^ 64))|exact N].
    + rewrite E, Qmult_1_l. apply Qle_refl.
    + unfold nearest_even, Qle, Qeq, Qminus, Qplus, Qopp, inject_Z. cbn [Qnum Qden]. repeat split; lia.
Qed.

(** ** ParentBased *)

Lemma parent_based_spec root d cur c t n k a l :
  let p := current_span_context (resolve cur c) in
  (sc_is_valid p = false -> parent_based root d cur c t n k a l = root cur c t n k a l)
  /\ (sc_is_valid p = true -> parent_based root d cur c t n k a l =
        match sc_is_remote p, flags_sampled (sc_flags p) with
        | true, true => remote_sampled d | true, false => remote_not_sampled d
        | false, true => local_sampled d | false, false => local_not_sampled d
        end cur c t n k a l).
Proof.
  cbn zeta. unfold parent_based. split; intros ->; [reflexivity|].
  destruct (sc_is_remote _), (flags_sampled _); reflexivity.
Qed.

Lemma parent_based_default root cur c t n k a l :
  let p := current_span_context (resolve cur c) in
  sc_is_valid p = true ->
  let r := parent_based root default_delegates cur c t n k a l in
  (sampled r <-> flags_sampled (sc_flags p) = true)
  /\ sr_state r = Some (sc_state p)
  /\ (sr_decision r = RECORD_AND_SAMPLE \/ sr_decision r = DROP).
Proof.
  cbn zeta. intros V. destruct (parent_based_spec root default_delegates cur c t n k a l) as [_ H].
  cbn zeta in H. rewrite (H V). unfold sampled, default_delegates, ALWAYS_ON, ALWAYS_OFF, static_sampler, parent_trace_state.
  destruct (sc_is_remote _), (flags_sampled _); cbn [remote_sampled remote_not_sampled local_sampled local_not_sampled sr_decision sr_state]; rewrite V; repeat split; auto; discriminate.
Qed.

(** ** start_span *)
Lemma bl_make_some {A} m : not_negative m -> exists b : blist A, bl_make m = Ok b.
Proof. intros H. unfold bl_make. destruct m as [z|]; [|eauto]. destruct (Z.ltb_spec z 0); [specialize (H z eq_refl); lia|eauto]. Qed.

Lemma valid_links_ok lim ls : limits_ok lim -> exists l, valid_links lim ls = Ok l.
Proof.
  intros Hl. induction ls as [|[[[sc|] l]|] ls [r IH]]; cbn [valid_links]; [eauto| | |]; try (rewrite IH; eauto; fail).
  destruct (is_valid_link (Some sc) l); [|eauto]. destruct (make_link_of lim sc l Hl) as (k & E & _). rewrite E, IH. cbn. eauto.
Qed.

Lemma new_span_ok lim name ctx parent kind attrs links : limits_ok lim ->
  exists s, new_span lim name ctx parent kind attrs links = Ok s.
Proof.
  intros Hl. pose proof Hl as (_ & He & Hk & Ha & _). unfold new_span.
  destruct (ba_new_ok _ attrs false (max_span_attribute_length lim) Ha) as (a & ->). cbn [bind_out].
  destruct (bl_make_some (A := event) _ He) as (b & ->). cbn [bind_out].
  unfold new_links. destruct (valid_links_ok lim links Hl) as (l & ->). cbn [bind_out].
  destruct (bl_make_some (A := link) _ Hk) as (b' & ->). cbn. eauto.
Qed.

Section StartSpan.
Context {G : Type}.
Variable gen_trace_id gen_span_id : G -> Z * G.
Notation start := (start_span gen_trace_id gen_span_id).

Lemma start_span_spec tr cur c name kind attrs links st now g : limits_ok (t_limits tr) ->
  let p := current_span_context (resolve cur c) in
  let '(tid, g1) := if sc_is_valid p then (sc_trace_id p, g) else gen_trace_id g in
  let r := t_sampler tr cur c tid name kind attrs links in
  exists s, start tr cur c name kind attrs links st now g = (Ok s, snd (gen_span_id g1))
    /\ started_context s = SC tid (fst (gen_span_id g1)) false
         (match sr_decision r with RECORD_AND_SAMPLE => 1 | _ => 0 end)%Z
         (match sr_state r with Some x => x | None => [] end)
    /\ (sr_decision r = DROP <-> s = NonRecording (started_context s))
    /\ (sr_decision r <> DROP -> exists w, s = Recording w /\ w_log w = [POnStart (w_span w)] /\ w_pending w = 0
          /\ sp_end (w_span w) = None
          /\ carries (t_limits tr) name (started_context s) (if sc_is_valid p then Some p else None) kind
               (sr_attrs r) links (at_time st now) [] (w_span w)).
Proof.
  intros Hl p. unfold start_span. fold p.
  assert (Htg : match (if sc_is_valid p then Some p else None) with None => gen_trace_id g | Some p => (sc_trace_id p, g) end
     = if sc_is_valid p then (sc_trace_id p, g) else gen_trace_id g) by (destruct (sc_is_valid p); reflexivity).
  set (parent := if sc_is_valid p then Some p else None) in *. rewrite Htg. clear Htg. clearbody parent.
  destruct (if sc_is_valid p then (sc_trace_id p, g) else gen_trace_id g) as [tid g1].
  set (r := t_sampler tr cur c tid name kind attrs links). destruct (gen_span_id g1) as [sid g2]. cbn [fst snd].
  set (sc := SC tid sid false (if d_is_sampled (sr_decision r) then 1 else 0)%Z
               (match sr_state r with Some s => s | None => ts_empty end)).
  assert (Hsc : sc = SC tid sid false (match sr_decision r with RECORD_AND_SAMPLE => 1 | _ => 0 end)%Z
                  (match sr_state r with Some x => x | None => [] end)).
  { unfold sc. destruct (sr_decision r); reflexivity. }
  rewrite <- Hsc.
  destruct (d_is_recording (sr_decision r)) eqn:R.
  - destruct (new_span_ok (t_limits tr) name sc parent kind (sr_attrs r) links Hl) as (s & E).
    rewrite E. cbn [bind_out]. exists (Recording (sw_init s st now)). split; [reflexivity|].
    destruct (c24_once _ _ _ _ _ _ _ _ st now [] Hl E) as (Hc & He & _). cbn [fold_left] in Hc, He.
    assert (Hctx : started_context (Recording (sw_init s st now)) = sc) by (exact (ca_ctx _ _ _ _ _ _ _ _ _ _ Hc)).
    split; [exact Hctx|]. split; [split; [intros D; rewrite D in R; discriminate|discriminate]|].
    intros _. eexists. split; [reflexivity|]. split; [reflexivity|]. split; [reflexivity|]. split; [exact He|].
    rewrite Hctx. exact Hc.
  - exists (NonRecording sc). split; [reflexivity|]. split; [reflexivity|].
    split; [split; [reflexivity|intros _; destruct (sr_decision r); [reflexivity|discriminate|discriminate]]|].
    intros D; destruct (sr_decision r); [congruence|discriminate|discriminate].
Qed.

Lemma started_valid tr cur c name kind attrs links st now g : limits_ok (t_limits tr) ->
  valid_ids gen_trace_id gen_span_id ->
  exists s, fst (start tr cur c name kind attrs links st now g) = Ok s /\ sc_is_valid (started_context s) = true.
Proof.
  intros Hl [Vt Vs]. pose proof (start_span_spec tr cur c name kind attrs links st now g Hl) as H. cbn zeta in H.
  set (p := current_span_context (resolve cur c)) in *.
  set (tg := if sc_is_valid p then (sc_trace_id p, g) else gen_trace_id g) in *.
  assert (Ht : (0 < fst tg < 2 ^ 128)%Z).
  { subst tg. destruct (sc_is_valid p) eqn:V; [|apply Vt]. unfold sc_is_valid, TRACE_ID_MAX in V. cbn [fst]. lia. }
  destruct tg as [tid g1]. destruct H as (s & E & Ec & _). exists s. rewrite E. split; [reflexivity|].
  rewrite Ec. unfold sc_is_valid. cbn [sc_trace_id sc_span_id]. specialize (Vs g1). cbn [fst] in Ht.
  unfold TRACE_ID_MAX, SPAN_ID_MAX. lia.
Qed.

Lemma current_after s ctx : current_span_context (set_span_in_context (as_obj s) ctx) = started_context s.
Proof.
  unfold current_span_context, get_current_span, set_span_in_context, get_value, set_value.
  rewrite dget_dset_eq. destruct s; reflexivity.
Qed.

(** All spans of a chain below a valid current span. *)
Lemma chain_below tr calls : limits_ok (t_limits tr) -> valid_ids gen_trace_id gen_span_id ->
  forall ctx g, sc_is_valid (current_span_context ctx) = true ->
  let l := start_chain gen_trace_id gen_span_id tr ctx calls g in
  length l = length calls
  /\ Forall (fun s => sc_is_valid (started_context s) = true
       /\ sc_trace_id (started_context s) = sc_trace_id (current_span_context ctx)) l
  /\ (forall root, t_sampler tr = parent_based root default_delegates ->
      Forall (fun s => flags_sampled (sc_flags (started_context s)) = flags_sampled (sc_flags (current_span_context ctx))
        /\ sc_state (started_context s) = sc_state (current_span_context ctx)
        /\ ((exists w, s = Recording w) <-> flags_sampled (sc_flags (current_span_context ctx)) = true)) l).
Proof.
  intros Hl Hv. induction calls as [|a calls IH]; intros ctx g V; cbn [start_chain].
  { repeat split; constructor. }
  destruct (started_valid tr ctx None (a_name a) (a_kind a) (a_attrs a) (a_links a) (a_start a) (a_now a) g Hl Hv) as (s & E & Vs).
  pose proof (start_span_spec tr ctx None (a_name a) (a_kind a) (a_attrs a) (a_links a) (a_start a) (a_now a) g Hl) as H.
  cbn zeta in H. cbn [resolve] in H. rewrite V in H. destruct H as (s' & E' & Ec & Ed & Er).
  rewrite E' in E |- *. cbn [fst] in E. injection E as <-.
  set (r := t_sampler tr ctx None (sc_trace_id (current_span_context ctx)) (a_name a) (a_kind a) (a_attrs a) (a_links a)) in *.
  specialize (IH (set_span_in_context (as_obj s') ctx) (snd (gen_span_id g))). rewrite current_after in IH.
  destruct (IH Vs) as (L & F & P). clear IH.
  assert (Et : sc_trace_id (started_context s') = sc_trace_id (current_span_context ctx)) by (rewrite Ec; reflexivity).
  split; [cbn [length]; now rewrite L|]. split.
  - constructor; [auto|]. eapply Forall_impl; [|exact F]. intros x [X1 X2]. split; [assumption|congruence].
  - intros root Hr. specialize (P root Hr).
    pose proof (parent_based_default root ctx None (sc_trace_id (current_span_context ctx)) (a_name a) (a_kind a) (a_attrs a) (a_links a)) as D.
    cbn zeta in D. cbn [resolve] in D. specialize (D V). rewrite <- Hr in D. fold r in D. destruct D as (D1 & D2 & D3).
    assert (Ef : flags_sampled (sc_flags (started_context s')) = flags_sampled (sc_flags (current_span_context ctx))).
    { rewrite Ec. cbn [sc_flags]. unfold sampled in D1. destruct D3 as [D3|D3]; rewrite D3 in D1 |- *.
      - symmetry. now apply D1. - destruct (flags_sampled (sc_flags (current_span_context ctx))); [|reflexivity].
        destruct D1 as [_ D1]. specialize (D1 eq_refl). discriminate. }
    assert (Es : sc_state (started_context s') = sc_state (current_span_context ctx)) by (rewrite Ec; cbn [sc_state]; now rewrite D2).
    constructor.
    + split; [assumption|]. split; [assumption|]. split.
      * intros [w ->]. apply D1. unfold sampled. destruct D3 as [D3|D3]; [assumption|]. apply Ed in D3. discriminate.
      * intros Hs. apply D1 in Hs. unfold sampled in Hs. destruct Er as (w & -> & _); [congruence|]. eauto.
    + eapply Forall_impl; [|exact P]. intros x (X1 & X2 & X3). rewrite Ef in X1, X3. rewrite Es in X2. auto.
Qed.
End StartSpan.

(** ** Random ids *)
Lemma draw_id_spec draws fuel : forall n id, draw_id draws n fuel = Some id ->
  exists k, n <= k < n + fuel /\ id = draws k /\ id <> 0%Z /\ forall j, n <= j < k -> draws j = 0%Z.
Proof.
  induction fuel as [|f IH]; intros n id H; [discriminate|]. cbn [draw_id] in H.
  destruct (Z.eqb_spec (draws n) 0) as [E|E].
  - destruct (IH _ _ H) as (k & K1 & K2 & K3 & K4). exists k. repeat split; [lia|lia|assumption|assumption|].
    intros j J. destruct (Nat.eq_dec j n) as [->|]; [assumption|]. apply K4. lia.
  - injection H as <-. exists n. repeat split; [lia|lia|assumption|]. intros; lia.
Qed.

Lemma draw_id_stops draws k : forall n, n <= k -> draws k <> 0%Z ->
  exists fuel id, draw_id draws n fuel = Some id /\ forall more, draw_id draws n (fuel + more) = Some id.
Proof.
  intros n Hn Hk. remember (k - n) as d eqn:Ed. revert n Hn Ed. induction d as [|d IH]; intros n Hn Ed.
  - replace n with k by lia. exists 1, (draws k). cbn. destruct (Z.eqb_spec (draws k) 0); [congruence|auto].
  - destruct (Z.eqb_spec (draws n) 0) as [E|E].
    + destruct (IH (S n)) as (f & id & F1 & F2); [lia|lia|]. exists (S f), id. cbn. rewrite E. cbn. auto.
    + exists 1, (draws n). cbn. destruct (Z.eqb_spec (draws n) 0); [congruence|auto].
Qed.

(** ** The sampler of the environment *)
Lemma nearest_even_unique v b c : nearest_even v b -> nearest_even v c -> b = c.
Proof. intros B C. apply Z.le_antisymm; eapply nearest_even_mono; eauto; apply Qle_refl. Qed.

Lemma ratio_root name rate b t : ratio_bound rate = Ok b -> uses_rate name ->
  (root_sampled name rate t <-> (t mod 2 ^ 64 < b)%Z).
Proof.
  intros Hb Hu. apply ratio_bound_ok in Hb as (m & e & -> & _ & N). unfold root_sampled. split.
  - intros [_ H]. destruct (H Hu) as (m' & e' & b' & [= <- <-] & N' & L). now rewrite (nearest_even_unique _ _ _ N N').
  - intros L. split; [|intros _; eauto 8]. intros [?|?]; destruct Hu; subst; discriminate.
Qed.

Lemma parent_based_sampled root cur c t n k a l : let p := current_span_context (resolve cur c) in
  sampled (parent_based root default_delegates cur c t n k a l) <->
  (sc_is_valid p = true /\ flags_sampled (sc_flags p) = true)
  \/ (sc_is_valid p = false /\ sampled (root cur c t n k a l)).
Proof.
  intros p. destruct (sc_is_valid p) eqn:V.
  - destruct (parent_based_default root cur c t n k a l V) as [H _]. fold p in H. rewrite H. intuition congruence.
  - destruct (parent_based_spec root default_delegates cur c t n k a l) as [H _]. rewrite (H V). intuition congruence.
Qed.

Section Env.
Variable pylower : str -> str.
Variable pyfloat : str -> option double.
Variable environ : str -> option str.
Lemma known_cases name :
  (name = lit "always_on" \/ name = lit "always_off" \/ name = lit "parentbased_always_on"
   \/ name = lit "parentbased_always_off" \/ name = lit "traceidratio" \/ name = lit "parentbased_traceidratio")
  \/ dget name KNOWN_SAMPLERS = None /\ name <> lit "always_on" /\ name <> lit "always_off"
     /\ name <> lit "parentbased_always_off" /\ name <> lit "traceidratio" /\ name <> lit "parentbased_traceidratio".
Proof.
  unfold KNOWN_SAMPLERS. cbn [dget].
  repeat match goal with |- context [eq_dec name ?x] => destruct (eq_dec name x); [left; tauto|] end.
  right. repeat split; assumption.
Qed.

Lemma sampler_from_env_spec :
  let name := env_name pylower environ in let rate := env_rate pyfloat environ in
  (uses_rate name /\ ~ rate_in_range rate /\ sampler_from_env pylower pyfloat environ = Raises "ValueError")
  \/ ((uses_rate name -> rate_in_range rate)
      /\ exists s, sampler_from_env pylower pyfloat environ = Ok s
         /\ forall cur c t n k a l,
              sampled (s cur c t n k a l) <-> env_sampled name rate (current_span_context (resolve cur c)) t).
Proof.
  cbn zeta. unfold sampler_from_env, done_. fold (env_name pylower environ) (env_rate pyfloat environ).
  generalize (env_name pylower environ) as name. generalize (env_rate pyfloat environ) as rate. intros rate name.
  assert (Son : forall cur c t n k a l, sampled (ALWAYS_ON cur c t n k a l)) by reflexivity.
  assert (Soff : forall cur c t n k a l, ~ sampled (ALWAYS_OFF cur c t n k a l)) by discriminate.
  assert (Hnot : ~ rate_in_range rate -> ratio_bound rate = Raises "ValueError").
  { intros H. apply ratio_bound_spec. intros m e -> R. apply H. exists m, e. auto. }
  assert (Hin : rate_in_range rate -> exists b, ratio_bound rate = Ok b).
  { intros (m & e & -> & R). destruct (proj1 (ratio_bound_spec (DFin m e)) m e eq_refl R) as (b & E & _). eauto. }
  assert (Hdec : rate_in_range rate \/ ~ rate_in_range rate).
  { destruct (ratio_bound rate) eqn:E; [left|right].
    - apply ratio_bound_ok in E as (m & e & E & R & _). exists m, e. auto.
    - intros R. destruct (Hin R). congruence. }
  destruct (known_cases name) as [[H|[H|[H|[H|[H|H]]]]]|(H & N1 & N2 & N3 & N4 & N5)].
  - subst name. right. split; [intros [X|X]; discriminate|]. eexists. split; [reflexivity|]. intros.
    split; [|intros _; apply Son]. intros _. right. split; [left; left; reflexivity|]. 
    split; [intros [X|X]; discriminate|intros [X|X]; discriminate].
  - subst name. right. split; [intros [X|X]; discriminate|]. eexists. split; [reflexivity|]. intros.
    split; [intros X; exfalso; now apply Soff in X|]. intros [[X _]|[_ [X _]]]; exfalso; apply X; [right; left; reflexivity|left; reflexivity].
  - subst name. right. split; [intros [X|X]; discriminate|]. eexists. split; [reflexivity|]. intros.
    rewrite parent_based_sampled. unfold env_sampled. split.
    + intros [[V F]|[V _]]; [left|right].
      * split; [intros [X|[X|X]]; discriminate|auto].
      * split; [auto|]. split; [intros [X|X]; discriminate|intros [X|X]; discriminate].
    + intros [(_ & V & F)|[[X|V] _]]; [auto|destruct X as [X|[X|X]]; discriminate|right; split; [assumption|apply Son]].
  - subst name. right. split; [intros [X|X]; discriminate|]. eexists. split; [reflexivity|]. intros.
    rewrite parent_based_sampled. unfold env_sampled. split.
    + intros [[V F]|[V X]]; [left|now apply Soff in X]. split; [intros [X|[X|X]]; discriminate|auto].
    + intros [(_ & V & F)|[_ [X _]]]; [auto|]. exfalso. apply X. right; reflexivity.
  - subst name. destruct Hdec as [R|R]; [right|left].
    + split; [auto|]. destruct (Hin R) as (b & E). exists (ratio_sampler b). split; [cbn; now rewrite E|]. intros.
      rewrite ratio_sampled. rewrite <- (ratio_root (lit "traceidratio") rate b t E) by (left; reflexivity).
      unfold env_sampled. split.
      * intros X. right. split; [left; right; right; reflexivity|assumption].
      * intros [[X _]|[_ X]]; [|assumption]. exfalso. apply X. right; right; reflexivity.
    + split; [left; reflexivity|]. split; [assumption|]. cbn. now rewrite (Hnot R).
  - subst name. destruct Hdec as [R|R]; [right|left].
    + split; [auto|]. destruct (Hin R) as (b & E). exists (parent_based (ratio_sampler b) default_delegates). split; [cbn; now rewrite E|]. intros.
      rewrite parent_based_sampled, ratio_sampled. rewrite <- (ratio_root (lit "parentbased_traceidratio") rate b t E) by (right; reflexivity).
      unfold env_sampled. split.
      * intros [[V F]|[V X]]; [left; split; [intros [Y|[Y|Y]]; discriminate|auto]|right; auto].
      * intros [(_ & V & F)|[[X|V] Y]]; [auto|destruct X as [X|[X|X]]; discriminate|auto].
    + split; [right; reflexivity|]. split; [assumption|]. cbn. now rewrite (Hnot R).
  - rewrite H. right. assert (Nu : ~ uses_rate name) by (intros [X|X]; auto).
    split; [intros X; contradiction|]. eexists. split; [reflexivity|]. intros.
    rewrite parent_based_sampled. unfold env_sampled.
    assert (Ni : ~ ignores_parent name) by (intros [X|[X|X]]; auto).
    split.
    + intros [[V F]|[V _]]; [left; auto|right]. split; [auto|]. split; [|intros X; contradiction].
      intros [X|X]; auto.
    + intros [(_ & V & F)|[[X|V] _]]; [auto|contradiction|right; split; [assumption|apply Son]].
Qed.
End Env.

(** ** A trace across processes *)
Section Remote.
Context {G1 G2 : Type}.
Variable gt1 gs1 : G1 -> Z * G1.
Variable gt2 gs2 : G2 -> Z * G2.

Lemma remote_child tr1 cur1 c1 n1 k1 a1 l1 st1 now1 g1 s g1' tr2 root base c0 n2 k2 a2 l2 st2 now2 g2 :
  limits_ok (t_limits tr1) -> limits_ok (t_limits tr2) -> valid_ids gt1 gs1 -> valid_ids gt2 gs2 ->
  start_span gt1 gs1 tr1 cur1 c1 n1 k1 a1 l1 st1 now1 g1 = (Ok s, g1') ->
  ts_wf (sc_state (started_context s)) -> dget TRACESTATE c0 = None ->
  t_sampler tr2 = parent_based root default_delegates ->
  let sent := default_set (inj_writes (tc_inject (set_span_in_context (as_obj s) cur1))) c0 in
  let got := tc_extract (default_getter sent) base in
  exists s2, fst (start_span gt2 gs2 tr2 got None n2 k2 a2 l2 st2 now2 g2) = Ok s2
    /\ sc_trace_id (started_context s2) = sc_trace_id (started_context s)
    /\ sc_is_valid (started_context s2) = true
    /\ flags_sampled (sc_flags (started_context s2)) = flags_sampled (sc_flags (started_context s))
    /\ sc_state (started_context s2) = sc_state (started_context s)
    /\ (forall w, s2 = Recording w -> exists p, sp_parent (w_span w) = Some p
          /\ sc_trace_id p = sc_trace_id (started_context s) /\ sc_span_id p = sc_span_id (started_context s)
          /\ sc_is_remote p = true)
    /\ ((exists w, s2 = Recording w) <-> flags_sampled (sc_flags (started_context s)) = true).
Proof.
  intros Hl1 Hl2 Hv1 Hv2 E Hw Hc Hr sent got.
  pose proof (start_span_spec gt1 gs1 tr1 cur1 c1 n1 k1 a1 l1 st1 now1 g1 Hl1) as S1. cbn zeta in S1.
  destruct (started_valid gt1 gs1 tr1 cur1 c1 n1 k1 a1 l1 st1 now1 g1 Hl1 Hv1) as (s' & E' & V). rewrite E in E'. injection E' as <-.
  assert (Hf : (0 <= sc_flags (started_context s) < 256)%Z).
  { destruct (if sc_is_valid (current_span_context (resolve cur1 c1)) then (sc_trace_id (current_span_context (resolve cur1 c1)), g1) else gt1 g1) as [tid g].
    destruct S1 as (x & Ex & Ec & _). rewrite E in Ex. injection Ex as <- _. rewrite Ec. cbn [sc_flags]. destruct (sr_decision _); lia. }
  destruct (tc_round_trip_obs (set_span_in_context (as_obj s) cur1) (started_context s) base c0) as (Hgot & _); auto.
  { apply current_after. }
  fold sent in Hgot. fold got in Hgot.
  assert (Vg : sc_is_valid (current_span_context got) = true) by (rewrite Hgot; exact V).
  destruct (chain_below gt2 gs2 tr2 [SpanArgs n2 k2 a2 l2 st2 now2] Hl2 Hv2 got g2 Vg) as (_ & F & P).
  specialize (P root Hr). cbn [start_chain a_name a_kind a_attrs a_links a_start a_now] in F, P.
  pose proof (start_span_spec gt2 gs2 tr2 got None n2 k2 a2 l2 st2 now2 g2 Hl2) as S2. cbn zeta in S2. cbn [resolve] in S2.
  rewrite Vg in S2. destruct S2 as (s2 & E2 & _ & _ & Er). rewrite E2 in F, P |- *. exists s2. split; [reflexivity|].
  inversion F as [|? ? [F1 F2] _]; subst. inversion P as [|? ? (P1 & P2 & P3) _]; subst. rewrite Hgot in F2, P1, P2, P3, Er.
  cbn [sc_trace_id sc_flags sc_state] in F2, P1, P2, P3.
  split; [assumption|]. split; [assumption|]. split; [assumption|]. split; [assumption|]. split; [|assumption].
  intros w ->. destruct Er as (w' & [= <-] & _ & _ & _ & Hcar).
  { intros D. pose proof (start_span_spec gt2 gs2 tr2 got None n2 k2 a2 l2 st2 now2 g2 Hl2) as S2. cbn zeta in S2. cbn [resolve] in S2.
    rewrite Hgot in S2. change (sc_is_valid _) with (sc_is_valid (started_context s)) in S2 at 1. rewrite V in S2.
    destruct S2 as (y & Ey & _ & Hd & _). rewrite E2 in Ey. injection Ey as <-. apply Hd in D. discriminate. }
  eexists. split; [exact (ca_parent _ _ _ _ _ _ _ _ _ _ Hcar)|]. repeat split; reflexivity.
Qed.
End Remote.
