(** Proofs for the OpenCensus shim. *)
From Verif Require Import Proof_Runtime Proof_Sampling Proof_Span Proof_Blocks Proof_Shim Spec_OpenCensus.
Local Open Scope nat_scope.

Lemma hex_value_snoc s c : hex_value (s ++ [c]) = (16 * hex_value s + hex_val c)%N.
Proof. unfold hex_value. now rewrite fold_left_app. Qed.
Lemma lower_snoc s c : lower (s ++ [c]) = lower s ++ [lower_char c].
Proof. unfold lower. now rewrite map_app. Qed.
Lemma hex_text_hex s z : hex_text s z -> s <> [] /\ forallb is_hex s = true /\ z = Z.of_N (hex_value (lower s)).
Proof.
  induction 1 as [c Hc|s z c H (H1 & H2 & H3) Hc].
  - split; [discriminate|]. cbn [forallb]. rewrite Hc. split; [reflexivity|]. unfold hex_value, lower. cbn [map fold_left]. now rewrite N.mul_0_r, N.add_0_l.
  - split; [now destruct s|]. rewrite forallb_app, H2. cbn [forallb]. rewrite Hc. split; [reflexivity|].
    rewrite lower_snoc, hex_value_snoc, H3. lia.
Qed.
Lemma hex_text_of s : s <> [] -> forallb is_hex s = true -> hex_text s (Z.of_N (hex_value (lower s))).
Proof.
  induction s as [|c s IH] using rev_ind; intros Hn Hf; [congruence|]. rewrite forallb_app in Hf. apply andb_true_iff in Hf.
  destruct Hf as [Hf Hc]. cbn in Hc. rewrite andb_true_r in Hc. destruct s as [|x s].
  - cbn [app]. replace (hex_value (lower [c])) with (hex_val (lower_char c)); [now constructor|].
    unfold hex_value, lower. cbn [map fold_left]. now rewrite N.mul_0_r, N.add_0_l.
  - rewrite lower_snoc, hex_value_snoc, N2Z.inj_add, N2Z.inj_mul. constructor; [|exact Hc]. apply IH; [discriminate|exact Hf].
Qed.
Lemma int16_spec s z : int_base16 s = Some z <-> hex_text s z.
Proof.
  split.
  - unfold int_base16. destruct s as [|c s]; [discriminate|]. destruct (forallb is_hex (c :: s)) eqn:E; [|discriminate].
    intros [= <-]. now apply hex_text_of.
  - intros H. apply hex_text_hex in H. destruct H as (H1 & H2 & ->). unfold int_base16. destruct s; [congruence|]. now rewrite H2.
Qed.
Lemma oc_span_spec oc sc : oc_span oc = Some (Some sc) <-> oc_same oc sc.
Proof.
  unfold oc_span. split.
  - destruct (occ_span_id oc) as [sid|] eqn:E; [|discriminate]. destruct (int_base16 (occ_trace_id oc)) as [t|] eqn:Et; [|discriminate].
    destruct (int_base16 sid) as [s|] eqn:Es; [|discriminate]. intros [= <-]. apply int16_spec in Et, Es. constructor; cbn; auto.
    + exists sid. split; [exact E|exact Es].
    + destruct (occ_state oc); reflexivity.
  - intros [H1 (s & H2 & H2') H3 H4 H5]. rewrite H2. apply int16_spec in H1, H2'. rewrite H1, H2'. destruct sc as [a b c d e]. cbn in *. subst.
    do 3 f_equal. destruct (occ_state oc); reflexivity.
Qed.
Lemma oc_span_none oc : oc_span oc = None <-> occ_span_id oc = None.
Proof. unfold oc_span. destruct (occ_span_id oc); split; congruence. Qed.

Lemma invalid_is sc : is_invalid_context sc = true <-> sc = INVALID_SPAN_CONTEXT.
Proof.
  destruct sc as [t s r f st]. unfold is_invalid_context, INVALID_SPAN_CONTEXT. cbn. rewrite !andb_true_iff, !Z.eqb_eq, negb_true_iff.
  destruct st; split; intuition congruence.
Qed.

Lemma oc_parent_spec oc cur : ids_ok oc -> exists c, oc_parent oc cur = Some c /\ oc_parent_is oc (current_span_context cur) (current_span_context c).
Proof.
  intros Hi. unfold oc_parent. destruct (is_invalid_context (current_span_context cur)) eqn:E.
  - apply invalid_is in E. destruct Hi as [Hi|[sc Hi]].
    + apply oc_span_none in Hi as Hi'. rewrite Hi'. exists cur. split; [reflexivity|]. rewrite E. now constructor.
    + pose proof Hi as Hs. apply oc_span_spec in Hi. rewrite Hi. eexists. split; [reflexivity|]. rewrite context_of_set. now constructor.
  - exists cur. split; [reflexivity|]. constructor. intros H. apply invalid_is in H. congruence.
Qed.

Lemma oc_keys_differ : OC_KEY <> SPAN_KEY.
Proof. discriminate. Qed.

Section OC.
Context {G : Type}.
Variable gen_trace_id gen_span_id : G -> Z * G.
Variable tr : tracer.
Variable describe : exc -> exc_info.
Variable to_nanos : str -> option Z.
Hypothesis Hl : limits_ok (t_limits tr).
Notation world := (oc_world (G := G)).
Notation step := (oc_step gen_trace_id gen_span_id tr describe to_nanos).
Notation run := (oc_run gen_trace_id gen_span_id tr describe to_nanos).
Notation born := (Proof_Blocks.born gen_trace_id gen_span_id tr).

Definition block_ctx (k : nat) (s : started) (cur : context) : context :=
  set_value OC_KEY (OOther (N.of_nat k)) (set_span_in_context (as_obj s) cur).

Lemma start_step w u oc name now c : oc_parent oc (get_current u (oc_rt w)) = Some c ->
  exists s g l, born (get_current u (oc_rt w)) (oc_block name c) now s
  /\ step w (CStart u oc name now)
     = OCW (fst (attach u (block_ctx (length (oc_shims w)) s (get_current u (oc_rt w))) (oc_rt w)))
           (Store g (st_spans (oc_store w) ++ [s]) (st_tick (oc_store w)) l)
           (oc_shims w ++ [OCS (length (st_spans (oc_store w))) (snd (attach u (block_ctx (length (oc_shims w)) s (get_current u (oc_rt w))) (oc_rt w)))])
           (set_oc u (Some (length (oc_shims w))) (oc_cur w)) (oc_tokens w).
Proof.
  intros E. cbn [oc_step]. unfold oc_start. rewrite E.
  destruct (Proof_Blocks.start_block_ok gen_trace_id gen_span_id tr Hl (get_current u (oc_rt w)) (oc_block name c) now
              (fun n => BEnter n (oc_block name c) now) (oc_store w)) as (s & g & Hb & ->).
  exists s, g. eexists. split; [exact Hb|]. reflexivity.
Qed.
Lemma start_bad w u oc name now : oc_parent oc (get_current u (oc_rt w)) = None -> step w (CStart u oc name now) = w.
Proof. intros E. cbn [oc_step]. unfold oc_start. now rewrite E. Qed.

(** ** Calls *)
Lemma on_pair n m l : on n (map (pair m) l) = if Nat.eqb m n then l else [].
Proof.
  unfold on. destruct (Nat.eqb m n) eqn:E; induction l as [|x l IH]; cbn; rewrite ?E; cbn; auto. now rewrite IH.
Qed.
Definition keeps (w w' : world) (l : list (nat * sop)) : Prop :=
  forall n s, nth_error (st_spans (oc_store w)) n = Some s -> nth_error (st_spans (oc_store w')) n = Some (after (on n l) s).
Lemma keeps_same w w' : st_spans (oc_store w') = st_spans (oc_store w) -> keeps w w' [].
Proof. intros E n s H. rewrite E. exact H. Qed.
Lemma keeps_call w n o : keeps w (oc_call_on n o w) [(n, o)].
Proof.
  intros m s E. unfold oc_call_on, put_store. cbn [oc_store]. rewrite (nth_on _ _ _ _ _ _ E). unfold on. cbn [filter fst].
  destruct (Nat.eqb n m); reflexivity.
Qed.
Lemma on_app n l l' : on n (l ++ l') = on n l ++ on n l'.
Proof. unfold on. now rewrite filter_app, map_app. Qed.
Lemma keeps_trans w1 w2 w3 l l' : keeps w1 w2 l -> keeps w2 w3 l' -> keeps w1 w3 (l ++ l').
Proof. intros H1 H2 n s E. rewrite on_app, after_app. now apply H2, H1. Qed.
Lemma keeps_leave u s w w' l : keeps w w' l -> keeps w (oc_leave u s w') l.
Proof. intros H. exact H. Qed.
Lemma recording_spec (w : world) n : nth_recording n (oc_store w) = true <-> recording w n.
Proof.
  unfold nth_recording, recording. destruct (nth_error (st_spans (oc_store w)) n) as [[x|sc]|] eqn:E.
  - unfold is_ended. split.
    + destruct (sp_end (w_span x)) eqn:Ex; [discriminate|]. intros _. now exists x.
    + intros (y & [= ->] & Hy). now rewrite Hy.
  - split; [discriminate|]. intros (y & [=] & _).
  - split; [discriminate|]. intros (y & [=] & _).
Qed.
Lemma keeps_exit (w : world) n out t1 t2 : keeps w (span_exit describe n out t1 t2 w)
  (map (pair n) (exiting describe (nth_recording n (oc_store w)) out t1 t2)).
Proof.
  unfold span_exit, exiting. destruct out as [|e].
  - apply keeps_call.
  - destruct (nth_recording n (oc_store w)).
    + cbn [map app]. change (keeps w ?x (?a :: ?b :: ?c)) with (keeps w x ([a] ++ [b] ++ c)).
      eapply keeps_trans; [apply keeps_call|]. eapply keeps_trans; [apply keeps_call|apply keeps_call].
    + apply keeps_call.
Qed.
Lemma method_asks c t o : oc_method to_nanos c t = Some o <-> oc_asks to_nanos c t o.
Proof.
  destruct c as [key v|d attrs|e| | |ok d|]; cbn [oc_method].
  - split; [intros [= <-]; constructor|intros H; now inversion H].
  - split; [intros [= <-]; constructor|intros H; now inversion H].
  - split.
    + destruct (dget (me_type e) MESSAGE_TYPES) as [ty|] eqn:E; [|discriminate]. destruct (to_nanos (me_time e)) as [ns|] eqn:En; [|discriminate].
      intros [= <-].
      apply (oa_message to_nanos e ty ns t); [|exact En].
      revert E. unfold MESSAGE_TYPES. cbn [dget].
      repeat match goal with |- context [if ?b then _ else _] => destruct b as [->|] end; intros [= <-]; cbn; tauto.
    + intros H. inversion H as [| |e' ty ns t' Hin Hns| | |]; subst. rewrite Hns. cbn in Hin.
      destruct Hin as [E|[E|[E|[]]]]; injection E as E1 E2; rewrite <- E1, <- E2; reflexivity.
  - split; [discriminate|intros H; inversion H].
  - split; [discriminate|intros H; inversion H].
  - split; [destruct ok; intros [= <-]; constructor|intros H; now inversion H].
  - split; [intros [= <-]; constructor|intros H; now inversion H].
Qed.

Lemma step_calls (w : world) e : exists l, makes describe to_nanos w e l /\ keeps w (step w e) l.
Proof.
  destruct e as [u oc name now|u now|u k out t1 t2|k c now|u key v|u b now|n o|u c|u m|u v].
  - exists []. split; [now apply mk_none|]. destruct (oc_parent oc (get_current u (oc_rt w))) as [c|] eqn:E.
    + destruct (start_step w u oc name now c E) as (s & g & l & _ & ->). intros n x Ex. cbn [oc_store st_spans]. now apply nth_app.
    + rewrite start_bad by exact E. now apply keeps_same.
  - cbn [oc_step]. unfold oc_end. destruct (current_shim u (oc_rt w)) as [k|] eqn:E.
    + destruct (nth_error (oc_shims w) k) as [s|] eqn:Es.
      * exists [(ocs_span s, OEnd None now)]. split; [now apply (mk_end _ _ _ _ _ k)|]. apply keeps_leave, keeps_call.
      * exists []. split; [apply mk_none; intros k' H; congruence|now apply keeps_same].
    + exists []. split; [apply mk_none; intros k' H; congruence|now apply keeps_same].
  - cbn [oc_step]. unfold oc_exit. destruct (nth_error (oc_shims w) k) as [s|] eqn:Es.
    + eexists. split; [|apply keeps_leave, keeps_exit]. destruct (nth_recording (ocs_span s) (oc_store w)) eqn:Er.
      * apply mk_exit; [exact Es|]. now apply recording_spec.
      * apply mk_exit_dead; [exact Es|]. intros H. apply recording_spec in H. congruence.
    + exists []. split; [now apply mk_none|now apply keeps_same].
  - cbn [oc_step]. destruct (nth_error (oc_shims w) k) as [s|] eqn:Es.
    + destruct (oc_method to_nanos c now) as [o|] eqn:Em.
      * exists [(ocs_span s, o)]. split; [apply mk_call; [exact Es|]; now apply method_asks|apply keeps_call].
      * exists []. split; [|now apply keeps_same]. apply mk_none. right. intros o Ho. apply method_asks in Ho. congruence.
    + exists []. split; [apply mk_none; now left|now apply keeps_same].
  - cbn [oc_step]. destruct (current_shim u (oc_rt w)) as [k|] eqn:E.
    + destruct (nth_error (oc_shims w) k) as [s|] eqn:Es.
      * eexists. split; [apply (mk_attribute _ _ _ _ k s); [exact E|exact Es]|]. apply keeps_call.
      * exists []. split; [apply mk_none; intros k' H; congruence|now apply keeps_same].
    + exists []. split; [apply mk_none; intros k' H; congruence|now apply keeps_same].
  - exists []. split; [now apply mk_none|]. intros n s E. cbn [oc_step]. unfold put_store. cbn [oc_store].
    destruct (Proof_Blocks.start_block_ok gen_trace_id gen_span_id tr Hl (get_current u (oc_rt w)) b now
                (fun n => BEnter n b now) (oc_store w)) as (x & g & _ & ->). cbn [snd log_event st_spans]. now apply nth_app.
  - exists [(n, o)]. split; [apply mk_otel|apply keeps_call].
  - exists []. split; [now apply mk_none|now apply keeps_same].
  - exists []. split; [now apply mk_none|]. cbn [oc_step]. destruct (nth_error (oc_tokens w) m); now apply keeps_same.
  - exists []. split; [now apply mk_none|now apply keeps_same].
Qed.
Lemma run_calls h : forall w n s, nth_error (st_spans (oc_store w)) n = Some s ->
  exists l, calls_in gen_trace_id gen_span_id tr describe to_nanos n w h l /\ nth_error (st_spans (oc_store (run h w))) n = Some (after l s).
Proof.
  induction h as [|e h IH]; intros w n s E; [exists []; split; [constructor|exact E]|].
  destruct (step_calls w e) as (l & Hm & Hk). destruct (IH (step w e) n (after (on n l) s) (Hk _ _ E)) as (l' & Hc & En).
  exists (on n l ++ l'). split; [now constructor|]. rewrite after_app. exact En.
Qed.

(** ** A new span *)
Lemma started_shows (Hv : valid_ids gen_trace_id gen_span_id) w u oc name now h : ids_ok oc ->
  exists p s l, oc_parent_is oc (current_span_context (get_current u (oc_rt w))) p
  /\ nth_error (st_spans (oc_store (run h (step w (CStart u oc name now))))) (length (st_spans (oc_store w))) = Some s
  /\ calls_in gen_trace_id gen_span_id tr describe to_nanos (length (st_spans (oc_store w))) (step w (CStart u oc name now)) h l
  /\ oc_shows tr name now p l s.
Proof.
  intros Hi. destruct (oc_parent_spec oc (get_current u (oc_rt w)) Hi) as (c & Ec & Hp).
  destruct (start_step w u oc name now c Ec) as (s0 & g & lg & Hb & Es).
  destruct (run_calls h (step w (CStart u oc name now)) (length (st_spans (oc_store w))) s0) as (l & Hc & En).
  { rewrite Es. cbn [oc_store st_spans]. apply nth_last. }
  exists (current_span_context c), (after l s0), l. split; [exact Hp|]. split; [exact En|]. split; [exact Hc|].
  pose proof (Proof_Blocks.born_content gen_trace_id gen_span_id tr Hl _ _ now s0 l Hb) as K. cbn zeta in K.
  destruct K as (K1 & K2 & K3 & K4). unfold oc_shows. cbn zeta. split; [now apply K2|]. split; [exact K1|].
  exists (get_current u (oc_rt w)), c. split; [reflexivity|]. split; [exact K3|exact K4].
Qed.

(** ** What is current *)
Lemma shims_stay w e k s : nth_error (oc_shims w) k = Some s -> nth_error (oc_shims (step w e)) k = Some s.
Proof.
  intros E. destruct e as [u oc name now|u now|u k' out t1 t2|k' c now|u key v|u b now|n o|u c|u m|u v]; cbn [oc_step].
  - unfold oc_start. destruct (oc_parent oc (get_current u (oc_rt w))); [|exact E].
    destruct (start_block _ _ _ _ _ _ _ _) as [[x|x] st]; [|exact E]. cbn. now apply nth_app.
  - unfold oc_end. destruct (current_shim u (oc_rt w)); [|exact E]. destruct (nth_error (oc_shims w) n); exact E.
  - unfold oc_exit. destruct (nth_error (oc_shims w) k') as [s'|]; [|exact E]. cbn. unfold span_exit.
    destruct out; [exact E|]. destruct (nth_recording (ocs_span s') (oc_store w)); exact E.
  - destruct (nth_error (oc_shims w) k'); [|exact E]. destruct (oc_method to_nanos c now); exact E.
  - destruct (current_shim u (oc_rt w)); [|exact E]. destruct (nth_error (oc_shims w) n); exact E.
  - exact E.
  - exact E.
  - exact E.
  - destruct (nth_error (oc_tokens w) m); exact E.
  - exact E.
Qed.
Lemma shims_run h : forall w k s, nth_error (oc_shims w) k = Some s -> nth_error (oc_shims (run h w)) k = Some s.
Proof. induction h as [|e h IH]; intros w k s E; [exact E|]. apply IH. now apply shims_stay. Qed.
Lemma tokens_stay w e m t : nth_error (oc_tokens w) m = Some t -> nth_error (oc_tokens (step w e)) m = Some t.
Proof.
  intros E. destruct e as [u oc name now|u now|u k' out t1 t2|k' c now|u key v|u b now|n o|u c|u m'|u v]; cbn [oc_step].
  - unfold oc_start. destruct (oc_parent oc (get_current u (oc_rt w))); [|exact E].
    destruct (start_block _ _ _ _ _ _ _ _) as [[x|x] st]; exact E.
  - unfold oc_end. destruct (current_shim u (oc_rt w)); [|exact E]. destruct (nth_error (oc_shims w) n); exact E.
  - unfold oc_exit. destruct (nth_error (oc_shims w) k') as [s'|]; [|exact E]. cbn. unfold span_exit.
    destruct out; [exact E|]. destruct (nth_recording (ocs_span s') (oc_store w)); exact E.
  - destruct (nth_error (oc_shims w) k'); [|exact E]. destruct (oc_method to_nanos c now); exact E.
  - destruct (current_shim u (oc_rt w)); [|exact E]. destruct (nth_error (oc_shims w) n); exact E.
  - exact E.
  - exact E.
  - cbn. now apply nth_app.
  - destruct (nth_error (oc_tokens w) m'); exact E.
  - exact E.
Qed.
Lemma tokens_run h : forall w m t, nth_error (oc_tokens w) m = Some t -> nth_error (oc_tokens (run h w)) m = Some t.
Proof. induction h as [|e h IH]; intros w k s E; [exact E|]. apply IH. now apply tokens_stay. Qed.

Lemma nest_step u s o s' : rop_unit o <> u -> s' = rt_step s o -> nested u s s'.
Proof. intros H ->. eapply nest_other; [exact H|constructor]. Qed.
Lemma exit_rt n out t1 t2 (w : world) : oc_rt (span_exit describe n out t1 t2 w) = oc_rt w.
Proof. unfold span_exit. destruct out; [reflexivity|]. now destruct (nth_recording n (oc_store w)). Qed.
Lemma exit_cur n out t1 t2 (w : world) : oc_cur (span_exit describe n out t1 t2 w) = oc_cur w.
Proof. unfold span_exit. destruct out; [reflexivity|]. now destruct (nth_recording n (oc_store w)). Qed.
Lemma set_oc_other u v x f : u <> v -> set_oc u x f v = f v.
Proof. intros H. unfold set_oc. destruct (Nat.eqb_spec v u); congruence. Qed.
Lemma set_oc_same u x f : set_oc u x f u = x.
Proof. unfold set_oc. now rewrite Nat.eqb_refl. Qed.
Lemma other_step w e u : ~ changes e u -> nested u (oc_rt w) (oc_rt (step w e)) /\ oc_cur (step w e) u = oc_cur w u.
Proof.
  intros H. destruct e as [v oc name now|v now|v k out t1 t2|k c now|v key x|v b now|n o|v c|v m|v v']; cbn [changes] in H; cbn [oc_step].
  - destruct (oc_parent oc (get_current v (oc_rt w))) as [c|] eqn:E.
    + change (oc_start gen_trace_id gen_span_id tr v oc name now w) with (step w (CStart v oc name now)).
      destruct (start_step w v oc name now c E) as (s & g & l & _ & ->). cbn [oc_rt oc_cur]. split; [|now apply set_oc_other; auto].
      eapply (nest_step _ _ (RAttach v _)); [cbn; auto|reflexivity].
    + unfold oc_start. rewrite E. split; [constructor|reflexivity].
  - unfold oc_end. destruct (current_shim v (oc_rt w)); [|split; [constructor|reflexivity]].
    destruct (nth_error (oc_shims w) n) as [s|]; [|split; [constructor|reflexivity]]. unfold oc_leave. cbn [oc_rt oc_cur]. split; [|now apply set_oc_other; auto].
    eapply (nest_step _ _ (RDetach v _)); [cbn; auto|reflexivity].
  - unfold oc_exit. destruct (nth_error (oc_shims w) k) as [s|]; [|split; [constructor|reflexivity]]. unfold oc_leave. cbn [oc_rt oc_cur].
    rewrite exit_rt, exit_cur. split; [|now apply set_oc_other; auto].
    eapply (nest_step _ _ (RDetach v _)); [cbn; auto|reflexivity].
  - destruct (nth_error (oc_shims w) k); [|split; [constructor|reflexivity]]. destruct (oc_method to_nanos c now); split; constructor || reflexivity.
  - destruct (current_shim v (oc_rt w)); [|split; [constructor|reflexivity]].
    destruct (nth_error (oc_shims w) n); split; constructor || reflexivity.
  - split; [constructor|reflexivity].
  - split; [constructor|reflexivity].
  - split; [|reflexivity]. eapply (nest_step _ _ (RAttach v _)); [cbn; auto|reflexivity].
  - destruct (nth_error (oc_tokens w) m); [|split; [constructor|reflexivity]]. split; [|reflexivity].
    eapply (nest_step _ _ (RDetach v _)); [cbn; auto|reflexivity].
  - split; [eapply (nest_step _ _ (RFork v v')); [cbn; auto|reflexivity]|]. cbn [oc_cur]. apply set_oc_other. auto.
Qed.

Definition in_step (u : nat) (w : world) : Prop := oc_cur w u = current_shim u (oc_rt w).
Lemma current_of u rt k s c : get_current u rt = block_ctx k s c -> current_shim u rt = Some k
  /\ current_span_context (get_current u rt) = started_context s.
Proof.
  intros E. unfold current_shim. rewrite E. unfold block_ctx. rewrite get_same, Nat2N.id. split; [reflexivity|].
  unfold current_span_context, get_current_span. rewrite get_other by (intros H; discriminate H). unfold set_span_in_context. rewrite get_same.
  destruct s; reflexivity.
Qed.
Lemma shim_same u rt rt' : get_current u rt' = get_current u rt -> current_shim u rt' = current_shim u rt.
Proof. unfold current_shim. now intros ->. Qed.

(** Inside of a block and after it. *)
Lemma block_close u w oc name now inner close c s :
  let w1 := step w (CStart u oc name now) in
  let k := length (oc_shims w) in
  oc_rt w1 = fst (attach u c (oc_rt w)) -> nth_error (oc_shims w1) k = Some s -> ocs_token s = snd (attach u c (oc_rt w)) ->
  (exists sp, c = block_ctx k sp (get_current u (oc_rt w))) ->
  nested u (oc_rt w1) (oc_rt (run inner w1)) -> closes u k close ->
  oc_rt (step (run inner w1) close) = detach u (snd (attach u c (oc_rt w))) (oc_rt (run inner w1))
  /\ oc_cur (step (run inner w1) close) u = current_shim u (oc_rt (step (run inner w1) close)).
Proof.
  intros w1 k Er Es Et (sp & Ec) Hn Hc. set (w2 := run inner w1) in *.
  assert (Es2 : nth_error (oc_shims w2) k = Some s) by now apply shims_run.
  destruct Hc as [(t & ->)|(out & t1 & t2 & ->)]; cbn [oc_step].
  - assert (E2 : get_current u (oc_rt w2) = c).
    { rewrite (nested_restores _ _ _ Hn), Er, attach_cur, Nat.eqb_refl. reflexivity. }
    destruct (current_of u (oc_rt w2) k sp (get_current u (oc_rt w))) as [Ek _]; [congruence|].
    unfold oc_end. rewrite Ek, Es2. unfold oc_leave. cbn. rewrite set_oc_same, Et. split; reflexivity.
  - unfold oc_exit. rewrite Es2. unfold oc_leave. cbn [oc_rt oc_cur]. rewrite exit_rt, set_oc_same, Et. split; reflexivity.
Qed.
Lemma start_facts w u oc name now : ids_ok oc -> let w1 := step w (CStart u oc name now) in let k := length (oc_shims w) in
  exists c s sp, oc_rt w1 = fst (attach u c (oc_rt w)) /\ nth_error (oc_shims w1) k = Some s /\ ocs_token s = snd (attach u c (oc_rt w))
  /\ ocs_span s = length (st_spans (oc_store w)) /\ c = block_ctx k sp (get_current u (oc_rt w))
  /\ nth_error (st_spans (oc_store w1)) (ocs_span s) = Some sp /\ oc_cur w1 u = Some k.
Proof.
  intros Hi w1 k. destruct (oc_parent_spec oc (get_current u (oc_rt w)) Hi) as (c & Ec & Hp).
  destruct (start_step w u oc name now c Ec) as (s0 & g & lg & Hb & Es). unfold w1. rewrite Es. cbn [oc_rt oc_shims oc_store oc_cur st_spans].
  eexists _, _, s0. split; [reflexivity|]. split; [apply nth_last|]. cbn [ocs_token ocs_span]. split; [reflexivity|].
  split; [reflexivity|]. split; [reflexivity|]. split; [apply nth_last|]. unfold k. apply set_oc_same.
Qed.
Lemma run_block e inner close w : run (e :: inner ++ [close]) w = step (run inner (step w e)) close.
Proof. unfold oc_run. cbn [fold_left]. rewrite fold_left_app. reflexivity. Qed.
Lemma run_mid e inner close h w : run (e :: inner ++ close :: h) w = run h (run (e :: inner ++ [close]) w).
Proof. unfold oc_run. cbn [fold_left]. rewrite !fold_left_app. reflexivity. Qed.
Notation nestd := (oc_nested gen_trace_id gen_span_id tr describe to_nanos).
Lemma nested_facts d u w h : nestd d u w h -> nested u (oc_rt w) (oc_rt (run h w))
  /\ (d = true -> in_step u w -> in_step u (run h w)).
Proof.
  induction 1 as [w|w e h Hc _ IH|w oc name t inner close h Hi Hcl H1 IH1 _ IH2|w c inner h Hd H1 IH1 _ IH2].
  - split; [constructor|auto].
  - destruct (other_step w e u Hc) as [N O]. destruct IH as [IHa IHb]. split; [eapply (Proof_Blocks.nested_trans _); eassumption|].
    intros Ed Hs. apply IHb; [exact Ed|]. unfold in_step in *. rewrite O, Hs. symmetry. apply shim_same. now apply nested_restores.
  - destruct (start_facts w u oc name t Hi) as (c & s & sp & E1 & E2 & E3 & _ & E4 & _).
    destruct IH1 as [IH1 _]. destruct (block_close u w oc name t inner close c s E1 E2 E3 (ex_intro _ sp E4) IH1 Hcl) as [B1 B2].
    rewrite run_mid. rewrite run_block in *. destruct IH2 as [IHa IHb]. split.
    + eapply nest_block with (c := c); [|rewrite <- B1; exact IHa]. rewrite <- E1. exact IH1.
    + intros Ed _. apply IHb; [exact Ed|]. exact B2.
  - rewrite run_mid. rewrite run_block in *. destruct IH1 as [IH1 IH1b], IH2 as [IHa IHb].
    assert (Et : nth_error (oc_tokens (run inner (step w (CAttach u c)))) (length (oc_tokens w)) = Some (snd (attach u c (oc_rt w)))).
    { apply tokens_run. cbn. apply nth_last. }
    cbn [oc_step attach] in *.
    assert (Es : step (run inner (step w (CAttach u c))) (CDetach u (length (oc_tokens w)))
      = OCW (detach u (snd (attach u c (oc_rt w))) (oc_rt (run inner (step w (CAttach u c))))) (oc_store (run inner (step w (CAttach u c))))
            (oc_shims (run inner (step w (CAttach u c)))) (oc_cur (run inner (step w (CAttach u c)))) (oc_tokens (run inner (step w (CAttach u c))))).
    { cbn [oc_step attach]. cbn [oc_step attach] in Et. rewrite Et. reflexivity. }
    cbn [oc_step attach] in Es. rewrite Es in *. cbn [oc_rt] in *.
    assert (Hblock : nested u (oc_rt w) (detach u (length (rt_toks (oc_rt w))) (oc_rt (run inner (step w (CAttach u c)))))).
    { eapply nest_block with (c := c); [exact IH1|]. constructor. }
    split.
    + eapply (Proof_Blocks.nested_trans _); [exact Hblock|exact IHa].
    + intros Ed Hs. apply IHb; [exact Ed|]. unfold in_step. cbn [oc_cur oc_rt].
      assert (Hin : in_step u (OCW (RT (set_cur u c (rt_cur (oc_rt w))) (rt_toks (oc_rt w) ++ [Tok u (rt_cur (oc_rt w) u) false]))
                 (oc_store w) (oc_shims w) (oc_cur w) (oc_tokens w ++ [length (rt_toks (oc_rt w))]))).
      { unfold in_step. cbn [oc_cur oc_rt]. rewrite Hs. unfold current_shim, get_current. cbn [rt_cur]. unfold set_cur. rewrite Nat.eqb_refl.
        rewrite (Hd Ed). reflexivity. }
      specialize (IH1b Ed Hin). unfold in_step in IH1b. rewrite IH1b.
      etransitivity; [|symmetry; exact (shim_same u _ _ (nested_restores _ _ _ Hblock))].
      rewrite (shim_same u _ _ (nested_restores _ _ _ IH1)). cbn [oc_rt]. unfold current_shim, get_current. cbn [rt_cur]. unfold set_cur.
      rewrite Nat.eqb_refl, (Hd Ed). reflexivity.
Qed.

Theorem current_shows d w u oc name now inner : ids_ok oc ->
  let w1 := step w (CStart u oc name now) in let k := length (oc_shims w) in
  nestd d u w1 inner -> let w2 := run inner w1 in
  current_shim u (oc_rt w2) = Some k
  /\ (exists s sp, nth_error (oc_shims w2) k = Some s /\ ocs_span s = length (st_spans (oc_store w))
      /\ nth_error (st_spans (oc_store w2)) (ocs_span s) = Some sp
      /\ current_span_context (get_current u (oc_rt w2)) = started_context sp)
  /\ (d = true -> oc_cur w2 u = Some k)
  /\ forall close, closes u k close ->
     get_current u (oc_rt (step w2 close)) = get_current u (oc_rt w)
     /\ oc_cur (step w2 close) u = current_shim u (oc_rt w).
Proof.
  intros Hi w1 k Hn w2. destruct (start_facts w u oc name now Hi) as (c & s & sp & E1 & E2 & E3 & E4 & E5 & E6 & E7).
  fold w1 in E1, E2, E6, E7. fold k in E2, E5, E7. destruct (nested_facts d u w1 inner Hn) as [N1 N2].
  assert (Ec : get_current u (oc_rt w1) = c) by (rewrite E1, attach_cur, Nat.eqb_refl; reflexivity).
  assert (Ec2 : get_current u (oc_rt w2) = c) by (unfold w2; now rewrite (nested_restores _ _ _ N1)).
  destruct (current_of u (oc_rt w2) k sp (get_current u (oc_rt w))) as [K1 K2]; [congruence|].
  split; [exact K1|]. split.
  { destruct (run_calls inner w1 (ocs_span s) sp E6) as (l & _ & El). exists s, (after l sp). split; [now apply shims_run|].
    split; [exact E4|]. split; [exact El|]. now rewrite after_context. }
  split.
  { intros Ed. transitivity (current_shim u (oc_rt w2)); [|exact K1]. apply (N2 Ed). unfold in_step. rewrite E7. symmetry.
    destruct (current_of u (oc_rt w1) k sp (get_current u (oc_rt w))) as [K _]; [congruence|]. exact K. }
  intros close Hc. destruct (block_close u w oc name now inner close c s E1 E2 E3 (ex_intro _ sp E5) N1 Hc) as [B1 B2].
  fold w1 in B1, B2. fold w2 in B1, B2.
  assert (Er : get_current u (oc_rt (step w2 close)) = get_current u (oc_rt w)).
  { apply nested_restores. rewrite B1. eapply nest_block with (c := c); [rewrite <- E1; exact N1|constructor]. }
  split; [exact Er|]. rewrite B2. now apply shim_same.
Qed.
End OC.
