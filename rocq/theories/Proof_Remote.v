(** Proofs about traces that go on in another process, with B3 and Jaeger headers. *)
From Verif Require Export Spec_Remote.
From Verif Require Import Proof_Sampling Proof_B3Jaeger.
From Coq Require Import Lia.

Section Remote.
Context {G1 G2 : Type}.
Variable gt1 gs1 : G1 -> Z * G1.
Variable gt2 gs2 : G2 -> Z * G2.

Lemma child_of s got tr2 root n2 k2 a2 l2 st2 now2 g2 :
  limits_ok (t_limits tr2) -> valid_ids gt2 gs2 -> t_sampler tr2 = parent_based root default_delegates ->
  sc_is_valid (started_context s) = true ->
  current_span_context got = SC (sc_trace_id (started_context s)) (sc_span_id (started_context s)) true (sampled_flag (started_context s)) [] ->
  exists s2, fst (start_span gt2 gs2 tr2 got None n2 k2 a2 l2 st2 now2 g2) = Ok s2 /\ goes_on s s2 /\ sc_state (started_context s2) = [].
Proof.
  intros Hl2 Hv2 Hr V Hgot.
  assert (Vg : sc_is_valid (current_span_context got) = true) by (rewrite Hgot; exact V).
  assert (Fg : flags_sampled (sampled_flag (started_context s)) = flags_sampled (sc_flags (started_context s))).
  { unfold sampled_flag. destruct (flags_sampled (sc_flags (started_context s))); reflexivity. }
  destruct (chain_below gt2 gs2 tr2 [SpanArgs n2 k2 a2 l2 st2 now2] Hl2 Hv2 got g2 Vg) as (_ & F & P).
  specialize (P root Hr). cbn [start_chain a_name a_kind a_attrs a_links a_start a_now] in F, P.
  pose proof (start_span_spec gt2 gs2 tr2 got None n2 k2 a2 l2 st2 now2 g2 Hl2) as S2. cbn zeta in S2. cbn [resolve] in S2.
  rewrite Vg in S2. destruct S2 as (s2 & E2 & Ec & Hd & Er). rewrite E2 in F, P |- *. exists s2. split; [reflexivity|].
  inversion F as [|? ? [F1 F2] _]; subst. inversion P as [|? ? (P1 & P2 & P3) _]; subst. rewrite Hgot in F2, P1, P2, P3.
  cbn [sc_trace_id sc_flags sc_state] in F2, P1, P2, P3. rewrite Fg in P1, P3.
  split; [|exact P2]. split; [assumption|]. split; [assumption|]. split; [assumption|]. split; [assumption|].
  intros w ->. destruct Er as (w' & Ew & _ & _ & _ & Hcar).
  { intros D. apply Hd in D. discriminate. }
  injection Ew as <-. rewrite Hgot in Hcar.
  eexists. split; [exact (ca_parent _ _ _ _ _ _ _ _ _ _ Hcar)|]. repeat split; reflexivity.
Qed.

Variable tr1 : tracer.
Variables cur1 : context.
Lemma first_span c1 n1 k1 a1 l1 st1 now1 g1 s g1' : limits_ok (t_limits tr1) -> valid_ids gt1 gs1 ->
  start_span gt1 gs1 tr1 cur1 c1 n1 k1 a1 l1 st1 now1 g1 = (Ok s, g1') ->
  sc_is_valid (started_context s) = true /\ (0 <= sc_flags (started_context s) < 256)%Z
  /\ (forall p, as_obj s = OSpan (started_context s) true (Some p) -> (0 <= p)%Z)
  /\ (forall w, s = Recording w -> sp_end (w_span w) = None /\ sp_parent (w_span w) =
        let p := current_span_context (resolve cur1 c1) in if sc_is_valid p then Some p else None).
Proof.
  intros Hl1 Hv1 E.
  pose proof (start_span_spec gt1 gs1 tr1 cur1 c1 n1 k1 a1 l1 st1 now1 g1 Hl1) as S1. cbn zeta in S1.
  destruct (started_valid gt1 gs1 tr1 cur1 c1 n1 k1 a1 l1 st1 now1 g1 Hl1 Hv1) as (s' & E' & V). rewrite E in E'. injection E' as <-.
  set (p := current_span_context (resolve cur1 c1)) in *. split; [exact V|].
  destruct (if sc_is_valid p then (sc_trace_id p, g1) else gt1 g1) as [tid g].
  destruct S1 as (x & Ex & Ec & Ed & Er). rewrite E in Ex. injection Ex as <- _.
  assert (R : forall w, s = Recording w -> sp_end (w_span w) = None /\ sp_parent (w_span w) = if sc_is_valid p then Some p else None).
  { intros w ->. destruct Er as (w' & Ew & _ & _ & He & Hcar); [intros D; apply Ed in D; discriminate|]. injection Ew as <-.
    split; [exact He|exact (ca_parent _ _ _ _ _ _ _ _ _ _ Hcar)]. }
  split; [rewrite Ec; cbn [sc_flags]; destruct (sr_decision _); lia|]. split; [|exact R].
  intros q Q. destruct s as [w|sc]; [|discriminate]. destruct (R w eq_refl) as [_ Rp]. cbn [as_obj] in Q. rewrite Rp in Q. cbv zeta in Q.
  destruct (sc_is_valid p) eqn:Vp; [|discriminate]. cbn [option_map] in Q. injection Q as Q2 Q3. subst q. apply valid_bounds in Vp. lia.
Qed.

Lemma cur_obj s ctx : get_current_span (set_span_in_context (as_obj s) ctx) = as_obj s.
Proof.
  unfold get_current_span, set_span_in_context. rewrite get_value_set_eq. destruct s; reflexivity.
Qed.
Lemma cur_obj_sc s : span_context_of (as_obj s) = started_context s.
Proof. destruct s; reflexivity. Qed.
Lemma get_all_span o ctx : get_all (set_span_in_context o ctx) = get_all ctx.
Proof. unfold get_all, set_span_in_context. now rewrite (get_value_set_ne SPAN_KEY BAGGAGE_KEY) by discriminate. Qed.
Lemma jaeger_flags c1 n1 k1 a1 l1 st1 now1 g1 s g1' : limits_ok (t_limits tr1) ->
  start_span gt1 gs1 tr1 cur1 c1 n1 k1 a1 l1 st1 now1 g1 = (Ok s, g1') ->
  let f := sc_flags (started_context s) in
  format_hex 2 (if flags_sampled f then Z.lor f 2 else f) = if flags_sampled f then lit "03" else lit "00".
Proof.
  intros Hl1 E.
  pose proof (start_span_spec gt1 gs1 tr1 cur1 c1 n1 k1 a1 l1 st1 now1 g1 Hl1) as S1. cbn zeta in S1.
  destruct (if sc_is_valid (current_span_context (resolve cur1 c1)) then _ else _) as [tid g].
  destruct S1 as (x & Ex & Ec & _). rewrite E in Ex. injection Ex as <- _. rewrite Ec. cbn [sc_flags]. destruct (sr_decision _); vm_compute; reflexivity.
Qed.
Lemma jaeger_parent s above : (forall w, s = Recording w -> sp_end (w_span w) = None /\ sp_parent (w_span w) = if sc_is_valid above then Some above else None) ->
  match as_obj s with OSpan _ true (Some p) => p | _ => 0%Z end
  = match s with Recording _ => if sc_is_valid above then sc_span_id above else 0%Z | NonRecording _ => 0%Z end.
Proof.
  intros R. destruct s as [w|sc]; [|reflexivity]. destruct (R w eq_refl) as [R1 R2]. cbn [as_obj]. unfold is_ended. rewrite R1, R2. cbn [negb].
  destruct (sc_is_valid above); reflexivity.
Qed.
End Remote.
