(** OpenCensus messages: proofs. *)
From Verif Require Import Proof_Dict Proof_Otlp Proof_OtlpFields Spec_OcExporter.
Local Open Scope Z_scope.

Section Str.
Variable py_str : pyval -> str.
Lemma bind_some {A B} (o : option A) (f : A -> option B) b : bind o f = Some b <-> exists a, o = Some a /\ f a = Some b.
Proof. destruct o; cbn; split; [eauto|intros (x & [= ->] & H); exact H|discriminate|intros (x & H & _); discriminate]. Qed.
Lemma ocx_time_some t p : ocx_time t = Some p <-> opt_time_read t p /\ opt_sendable time_sendable t.
Proof.
  destruct p as [a b]. unfold ocx_time, opt_time_read, time_read, opt_sendable, time_sendable. cbn [pt_seconds pt_nanos].
  destruct t as [ns|]; cbn [or_zero].
  - rewrite bind_some. change (10 ^ 9) with 1000000000. pose proof (Z.div_mod ns 1000000000 ltac:(lia)). pose proof (Z.mod_pos_bound ns 1000000000 ltac:(lia)).
    split.
    + intros (s & Hs & [= <- <-]). apply pb_int64_ok in Hs as [-> Hs]. split; [lia|exact Hs].
    + intros [[E B] Hs]. exists (ns / 1000000000). split; [now apply pb_int64_ok|]. f_equal.
      assert (a = ns / 1000000000) by (apply Z.div_unique with b; lia). subst a. f_equal. lia.
  - split; [intros [= <- <-]; split; [lia|exact I]|]. intros [[E B] _]. do 2 f_equal; lia.
Qed.
Lemma ocx_attr_value_some v x : ocx_attr_value py_str v = Some x <-> value_read py_str v x /\ value_sendable py_str v.
Proof.
  split.
  - intros H. destruct v; cbn in H; try (injection H as <-); try (apply bind_some in H as (y & Hy & [= <-]);
      first [apply pb_int64_ok in Hy|apply pb_str_ok in Hy]; destruct Hy as [-> Hy]); (split; [now constructor|]); cbn; auto.
  - intros [R S]. destruct R as [b|sub z|sub s|sub f|v Hv]; cbn in S |- *; try reflexivity.
    + now rewrite (proj2 (pb_int64_ok z z)).
    + now rewrite (proj2 (pb_str_ok s s)).
    + destruct v; try destruct Hv; cbn; cbn in S; now rewrite (proj2 (pb_str_ok _ _) (conj eq_refl S)).
Qed.
Lemma ocx_attrs_some l : forall acc d, NoDup (keys acc ++ keys l) ->
  (ocx_attrs py_str l acc = Some d <-> exists x, d = acc ++ x /\ attrs_read py_str l x /\ attrs_sendable py_str l).
Proof.
  induction l as [|[k v] l IH]; intros acc d N; cbn [ocx_attrs].
  - split.
    + intros [= <-]. exists []. rewrite app_nil_r. repeat split; constructor.
    + intros (x & -> & R & _). inversion R. now rewrite app_nil_r.
  - cbn [keys map fst] in N. assert (Nk : ~ In k (keys acc)).
    { apply NoDup_remove_2 in N. intros H. apply N. apply in_app_iff. now left. }
    rewrite bind_some. split.
    + intros (k' & Hk & H). apply pb_str_ok in Hk as [-> Hk]. apply bind_some in H as (y & Hy & H). apply ocx_attr_value_some in Hy as [Ry Sy].
      rewrite keys_dset_new in H by exact Nk. apply IH in H.
      * destruct H as (x & -> & R & S). exists ((k, y) :: x). rewrite <- app_assoc. split; [reflexivity|]. split; constructor; auto.
      * unfold keys in *. rewrite map_app. cbn [map fst]. now rewrite <- app_assoc.
    + intros (x & -> & R & S). inversion R as [|? [k' y] ? x' [E Ry] R' E1 E2]. subst. cbn [fst snd] in *. subst k'.
      inversion S as [|? ? [Sk Sy] S']. subst. cbn [fst snd] in *.
      exists k. split; [now apply pb_str_ok|]. apply bind_some. exists y. split; [now apply ocx_attr_value_some|].
      rewrite keys_dset_new by exact Nk. apply IH.
      * unfold keys in *. rewrite map_app. cbn [map fst]. now rewrite <- app_assoc.
      * exists x'. rewrite <- app_assoc. now repeat split.
Qed.
Lemma ocx_attrs_ok l d : NoDup (keys l) -> (ocx_attrs py_str l [] = Some d <-> attrs_read py_str l d /\ attrs_sendable py_str l).
Proof.
  intros N. rewrite ocx_attrs_some by exact N. cbn [app]. split; [intros (x & -> & H); exact H|intros H; exists d; auto].
Qed.
Lemma id_some n z bs : to_bytes n z = Some bs -> 0 <= z < 256 ^ Z.of_nat n /\ ocx_id_read n z bs.
Proof. intros H. apply to_bytes_some in H as (A & B & C). split; [exact A|]. now split. Qed.
Lemma ocx_link_type parent l : let ty := match parent with
            | Some p => if (sc_span_id (lk_ctx l) =? sc_span_id p) && (sc_trace_id (lk_ctx l) =? sc_trace_id p) then 2 else 0
            | None => 0 end in ty = 2 /\ to_parent parent l \/ ty = 0 /\ ~ to_parent parent l.
Proof.
  cbv zeta. unfold to_parent. destruct parent as [p|].
  - destruct (Z.eqb_spec (sc_span_id (lk_ctx l)) (sc_span_id p)), (Z.eqb_spec (sc_trace_id (lk_ctx l)) (sc_trace_id p)); cbn [andb];
      first [left; split; [reflexivity|]; exists p; auto; fail
            |right; split; [reflexivity|]; intros (q & [= <-] & A & B); congruence].
  - right. split; [reflexivity|]. intros (q & H & _). discriminate.
Qed.
Lemma ocx_link_some parent l x : NoDup (keys (ba_dict (lk_attrs l))) -> ocx_one_link py_str parent l = Some x ->
  ocx_link_read py_str parent l x /\ (fits 128 (sc_trace_id (lk_ctx l)) /\ fits 64 (sc_span_id (lk_ctx l)) /\ attrs_sendable py_str (ba_dict (lk_attrs l))).
Proof.
  intros N H. unfold ocx_one_link in H. apply bind_some in H as (t & Ht & H). apply bind_some in H as (i & Hi & H). cbv zeta in H.
  apply bind_some in H as (a & Ha & [= <-]). apply id_some in Ht as [Bt Ht]. apply id_some in Hi as [Bi Hi]. apply ocx_attrs_ok in Ha as [Ra Sa]; [|exact N].
  split; [|split; [exact Bt|split; [exact Bi|exact Sa]]]. split; [exact Ht|]. split; [exact Hi|]. split; [apply ocx_link_type|exact Ra].
Qed.
Lemma attrs_ex l : NoDup (keys l) -> attrs_sendable py_str l -> exists d, ocx_attrs py_str l [] = Some d.
Proof.
  intros N S. assert (R : exists d, attrs_read py_str l d).
  { clear N. induction S as [|[k v] l [_ Sv] S (d & IH)]; [exists []; constructor|]. cbn [fst snd] in *.
    assert (E : exists x, value_read py_str v x).
    { destruct v; try (now eexists; constructor); eexists; now apply vr_other. }
    destruct E as [x E]. exists ((k, x) :: d). constructor; auto. }
  destruct R as [d R]. exists d. now apply ocx_attrs_ok.
Qed.
Lemma ocx_link_ex parent l : NoDup (keys (ba_dict (lk_attrs l))) -> fits 128 (sc_trace_id (lk_ctx l)) -> fits 64 (sc_span_id (lk_ctx l)) ->
  attrs_sendable py_str (ba_dict (lk_attrs l)) -> exists x, ocx_one_link py_str parent l = Some x.
Proof.
  intros N A B C. destruct (to_bytes_ex 16 _ A) as [t Ht]. destruct (to_bytes_ex 8 _ B) as [i Hi]. destruct (attrs_ex _ N C) as [d Hd].
  unfold ocx_one_link. rewrite Ht, Hi. cbn [bind]. rewrite Hd. cbn [bind]. eauto.
Qed.
Lemma time_ex t : opt_sendable time_sendable t -> exists p, ocx_time t = Some p.
Proof.
  intros H. exists (PbTime (or_zero t / 1000000000) (or_zero t mod 1000000000)). apply ocx_time_some. split; [|exact H].
  unfold opt_time_read, time_read. cbn. pose proof (Z.div_mod (or_zero t) 1000000000). pose proof (Z.mod_pos_bound (or_zero t) 1000000000). lia.
Qed.
Lemma ocx_event_some e x : NoDup (keys (ba_dict (ev_attrs e))) -> ocx_event py_str e = Some x ->
  annotation_read py_str e x /\ (unicode_text (ev_name e) /\ time_sendable (ev_ts e) /\ attrs_sendable py_str (ba_dict (ev_attrs e))).
Proof.
  intros N H. unfold ocx_event in H. apply bind_some in H as (n & Hn & H). apply bind_some in H as (a & Ha & H). apply bind_some in H as (t & Ht & [= <-]).
  apply pb_str_ok in Hn as [-> Hn]. apply ocx_attrs_ok in Ha as [Ra Sa]; [|exact N]. apply ocx_time_some in Ht as [Rt St].
  split; [split; [exact Rt|split; [reflexivity|exact Ra]]|]. split; [exact Hn|]. split; [exact St|exact Sa].
Qed.
Lemma ocx_event_ex e : NoDup (keys (ba_dict (ev_attrs e))) -> unicode_text (ev_name e) -> time_sendable (ev_ts e) -> attrs_sendable py_str (ba_dict (ev_attrs e)) ->
  exists x, ocx_event py_str e = Some x.
Proof.
  intros N A B C. destruct (attrs_ex _ N C) as [d Hd]. destruct (time_ex (Some (ev_ts e)) B) as [t Ht].
  unfold ocx_event. rewrite (proj2 (pb_str_ok _ _) (conj eq_refl A)), Hd. cbn [bind]. rewrite Ht. cbn [bind]. eauto.
Qed.
Lemma ocx_status_some st c m : ocx_status st = Some (c, m) -> c = code_number (st_code st) /\ description_read (st_desc st) m /\ description_ok (st_desc st).
Proof. intros H. exact (encode_status_read st (c, m) H). Qed.
Lemma ocx_status_ex st : description_ok (st_desc st) -> exists x, ocx_status st = Some x.
Proof. exact (encode_status_ex st). Qed.
Lemma ocx_entry_some kv x : ocx_entry kv = Some x <-> x = kv /\ unicode_text (fst kv) /\ unicode_text (snd kv).
Proof.
  unfold ocx_entry. rewrite bind_some. destruct kv as [k v]. cbn [fst snd]. split.
  - intros (k' & Hk & H). apply bind_some in H as (v' & Hv & [= <-]). apply pb_str_ok in Hk as [-> Hk]. apply pb_str_ok in Hv as [-> Hv]. auto.
  - intros (-> & Hk & Hv). exists k. split; [now apply pb_str_ok|]. now rewrite (proj2 (pb_str_ok v v) (conj eq_refl Hv)).
Qed.
Lemma Forall2_eq_map {A B} (R : A -> B -> Prop) (Q : A -> B -> Prop) (P : A -> Prop) (D : A -> Prop) l m :
  (forall a b, D a -> R a b -> Q a b /\ P a) -> Forall D l -> Forall2 R l m -> Forall2 Q l m /\ Forall P l.
Proof.
  intros H HD F. induction F as [|a b l m r F IH]; [split; constructor|]. inversion HD; subst.
  destruct (H a b) as [q p]; try assumption. destruct IH; [assumption|]. split; constructor; assumption.
Qed.
Lemma translate_some s x : span_dicts s -> translate_span py_str s = Some x -> ocx_read py_str s x /\ sendable py_str s.
Proof.
  intros (N1 & N2 & N3) H. unfold translate_span in H.
  apply bind_some in H as ([c m] & Hst & H). apply bind_some in H as (n & Hn & H). apply bind_some in H as (t & Ht & H). apply bind_some in H as (i & Hi & H).
  apply bind_some in H as (t0 & H0 & H). apply bind_some in H as (t1 & H1 & H). apply bind_some in H as (p & Hp & H). apply bind_some in H as (ts & Hts & H).
  apply bind_some in H as (a & Ha & H). apply bind_some in H as (es & He & H). apply bind_some in H as (ls & Hl & [= <-]).
  apply ocx_status_some in Hst as (-> & Rm & Sm). apply pb_str_ok in Hn as [-> Sn]. apply id_some in Ht as [St Rt]. apply id_some in Hi as [Si Ri].
  apply ocx_time_some in H0 as [R0 S0]. apply ocx_time_some in H1 as [R1 S1]. apply id_some in Hp as [Sp Rp].
  apply ocx_attrs_ok in Ha as [Ra Sa]; [|exact N1].
  apply map_opt_some in Hts, He, Hl.
  destruct (Forall2_eq_map _ _ _ _ _ _ ocx_event_some N2 He) as [Re Se].
  destruct (Forall2_eq_map _ _ _ _ _ _ (ocx_link_some (sp_parent s)) N3 Hl) as [Rl Sl].
  assert (Ets : ts = sc_state (sp_ctx s) /\ Forall (fun kv => unicode_text (fst kv) /\ unicode_text (snd kv)) (sc_state (sp_ctx s))).
  { clear - Hts. induction Hts as [|kv y l m E F [IH1 IH2]]; [split; constructor|]. apply ocx_entry_some in E as [-> E]. rewrite IH1. split; [reflexivity|]. now constructor. }
  destruct Ets as [-> Sts].
  split.
  - split; [|split].
    + cbn. split; [exact Rt|]. split; [exact Ri|]. split; [|reflexivity]. intros q Hq. rewrite Hq in Rp. exact Rp.
    + cbn. split; [reflexivity|]. split; [|split; [exact R0|split; [exact R1|split; [reflexivity|exact Rm]]]].
      unfold ocx_kind. destruct (Z.eqb_spec (sp_kind s) 1) as [->|]; [constructor|]. destruct (Z.eqb_spec (sp_kind s) 2) as [->|]; now constructor.
    + cbn. split; [exact Ra|]. now split.
  - split; [|split; [|split; [exact Sa|split; [exact Se|exact Sl]]]].
    + split; [exact St|]. split; [exact Si|]. split; [|exact Sts]. destruct (sp_parent s); [exact Sp|exact I].
    + split; [exact Sn|]. split; [exact S0|]. split; [exact S1|exact Sm].
Qed.
Lemma translate_ex s : span_dicts s -> sendable py_str s -> exists x, translate_span py_str s = Some x.
Proof.
  intros (N1 & N2 & N3) ((St & Si & Sp & Sts) & (Sn & S0 & S1 & Sm) & Sa & Se & Sl). unfold translate_span.
  destruct (ocx_status_ex _ Sm) as [st ->]. rewrite (proj2 (pb_str_ok _ _) (conj eq_refl Sn)).
  destruct (to_bytes_ex 16 _ St) as [t ->]. destruct (to_bytes_ex 8 _ Si) as [i ->].
  destruct (time_ex _ S0) as [t0 ->]. destruct (time_ex _ S1) as [t1 ->].
  destruct (to_bytes_ex 8 (match sp_parent s with Some c => sc_span_id c | None => 0 end)) as [p ->].
  { destruct (sp_parent s); [exact Sp|cbn; lia]. }
  destruct (proj1 (map_opt_ex ocx_entry (sc_state (sp_ctx s)))) as [ts ->].
  { apply Forall_impl with (2 := Sts). intros kv H. exists kv. now apply ocx_entry_some. }
  destruct (attrs_ex _ N1 Sa) as [a ->].
  destruct (proj1 (map_opt_ex (ocx_event py_str) (bl_items (sp_events s)))) as [es ->].
  { apply Forall_forall. intros e He. rewrite Forall_forall in Se, N2. destruct (Se e He) as (A & B & C). apply ocx_event_ex; auto. }
  destruct (proj1 (map_opt_ex (ocx_one_link py_str (sp_parent s)) (bl_items (sp_links s)))) as [ls ->].
  { apply Forall_forall. intros e He. rewrite Forall_forall in Sl, N3. destruct (Sl e He) as (A & B & C). apply ocx_link_ex; auto. }
  cbn [bind]. eauto.
Qed.
Theorem translate_all spans : Forall span_dicts spans ->
  (Forall (sendable py_str) spans /\ (exists ms, translate_to_collector py_str spans = Some ms /\ Forall2 (ocx_read py_str) spans ms))
  \/ (~ Forall (sendable py_str) spans /\ translate_to_collector py_str spans = None).
Proof.
  intros D. destruct (translate_to_collector py_str spans) as [ms|] eqn:E.
  - left. apply map_opt_some in E. destruct (Forall2_eq_map _ _ _ _ _ _ translate_some D E) as [R S]. split; [exact S|]. eauto.
  - right. split; [|reflexivity]. intros S. assert (X : exists ms, translate_to_collector py_str spans = Some ms).
    { apply map_opt_ex. apply Forall_forall. intros s Hs. rewrite Forall_forall in S, D. apply translate_ex; auto. }
    destruct X as [ms X]. congruence.
Qed.
End Str.
