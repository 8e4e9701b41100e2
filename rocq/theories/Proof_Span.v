From Verif Require Export Spec_Span Proof_Attr.

(** ** Small facts *)
Lemma zlim_nlim m : not_negative m -> zlim (nlim m) = m.
Proof. intros H. destruct m as [z|]; [|reflexivity]. cbn. rewrite Z2Nat.id by now apply H. reflexivity. Qed.

Lemma ba_new_ok maxn attrs imm maxlen : not_negative maxn -> exists a, ba_new maxn attrs imm maxlen = Ok a.
Proof.
  intros H. unfold ba_new. destruct maxn as [z|]; [|eauto].
  destruct (Z.ltb_spec z 0); [specialize (H z eq_refl); lia|eauto].
Qed.
Lemma attrs_of_at_most maxn maxlen l a : not_negative maxn -> attrs_of maxn maxlen l a -> at_most maxn (length (ba_dict a)).
Proof.
  intros Hn (t & _ & E & _) z ->. rewrite E. cbn [window]. rewrite lastn_length. specialize (Hn z eq_refl). lia.
Qed.

(** A fold of assignments continues the constructor. *)
Lemma ba_step_set a k v : ba_immutable a = false -> ba_step a (BSet k v) = ba_set_raw k v a.
Proof. intros E. unfold ba_step, ba_set. now rewrite E. Qed.
Lemma ba_set_raw_keeps k v a : ba_immutable (ba_set_raw k v a) = ba_immutable a
  /\ ba_maxlen (ba_set_raw k v a) = ba_maxlen a /\ ba_max_value_len (ba_set_raw k v a) = ba_max_value_len a.
Proof.
  unfold ba_set_raw. destruct (ba_maxlen a) as [[|m]|] eqn:E.
  - cbn. rewrite ?E. auto.
  - destruct (valid_key k), (clean_attribute k v (ba_max_value_len a)); auto.
    destruct (bput _ _ _ _ _). cbn. rewrite ?E. auto.
  - destruct (valid_key k), (clean_attribute k v (ba_max_value_len a)); auto.
    destruct (bput _ _ _ _ _). cbn. rewrite ?E. auto.
Qed.
Lemma ba_sets_raw l a : ba_immutable a = false ->
  fold_left (fun a kv => ba_step a (BSet (fst kv) (snd kv))) l a
  = fold_left (fun a kv => ba_set_raw (fst kv) (snd kv) a) l a.
Proof.
  revert a. induction l as [|kv l IH]; intros a Ha; [reflexivity|]. cbn [fold_left].
  rewrite ba_step_set by assumption. apply IH. destruct (ba_set_raw_keeps (fst kv) (snd kv) a) as (E & _). congruence.
Qed.
Lemma ba_fold_keeps l a :
  let a' := fold_left (fun a kv => ba_set_raw (fst kv) (snd kv) a) l a in
  ba_immutable a' = ba_immutable a /\ ba_maxlen a' = ba_maxlen a /\ ba_max_value_len a' = ba_max_value_len a.
Proof.
  revert a. induction l as [|kv l IH]; intros a; [auto|]. cbn [fold_left].
  destruct (IH (ba_set_raw (fst kv) (snd kv) a)) as (E1 & E2 & E3).
  destruct (ba_set_raw_keeps (fst kv) (snd kv) a) as (F1 & F2 & F3). cbn zeta in *. rewrite E1, E2, E3. auto.
Qed.
Lemma ba_new_extend maxn l1 l2 maxlen a : ba_new maxn l1 false maxlen = Ok a ->
  ba_new maxn (l1 ++ l2) false maxlen
  = Ok (fold_left (fun a kv => ba_step a (BSet (fst kv) (snd kv))) l2 a).
Proof.
  intros E. pose proof (ba_new_inv _ _ _ _ _ E) as (_ & _ & _ & Hi & _).
  rewrite ba_sets_raw by assumption.
  unfold ba_new in *.
  assert (Hg : forall m,
     Ok (BA m maxlen false
        (ba_dict (fold_left (fun a kv => ba_set_raw (fst kv) (snd kv) a) l1 (BA m maxlen false [] 0)))
        (ba_dropped (fold_left (fun a kv => ba_set_raw (fst kv) (snd kv) a) l1 (BA m maxlen false [] 0)))) = Ok a ->
     Ok (BA m maxlen false
        (ba_dict (fold_left (fun a kv => ba_set_raw (fst kv) (snd kv) a) (l1 ++ l2) (BA m maxlen false [] 0)))
        (ba_dropped (fold_left (fun a kv => ba_set_raw (fst kv) (snd kv) a) (l1 ++ l2) (BA m maxlen false [] 0))))
     = Ok (fold_left (fun a kv => ba_set_raw (fst kv) (snd kv) a) l2 a)).
  { intros m Em. rewrite fold_left_app.
    assert (Ha : fold_left (fun a kv => ba_set_raw (fst kv) (snd kv) a) l1 (BA m maxlen false [] 0) = a).
    { injection Em as <-. destruct (ba_fold_keeps l1 (BA m maxlen false [] 0)) as (E1 & E2 & E3). cbn in E1, E2, E3.
      destruct (fold_left (fun a kv => ba_set_raw (fst kv) (snd kv) a) l1 (BA m maxlen false [] 0)).
      cbn in *. now subst. }
    rewrite Ha. f_equal. destruct (ba_fold_keeps l2 a) as (E1 & E2 & E3). cbn zeta in *.
    destruct (ba_fold_keeps l1 (BA m maxlen false [] 0)) as (F1 & F2 & F3). cbn zeta in *. rewrite Ha in F1, F2, F3.
    cbn in F1, F2, F3.
    destruct (fold_left (fun a kv => ba_set_raw (fst kv) (snd kv) a) l2 a). cbn in *. congruence. }
  destruct maxn as [z|]; [destruct (Z.ltb z 0); [discriminate|]|]; now apply Hg.
Qed.

Lemma In_lastn {A} n (l : list A) x : In x (lastn n l) -> In x l.
Proof. unfold lastn. intros H. rewrite <- (firstn_skipn (length l - n) l). apply in_app_iff. now right. Qed.
(** Attributes that are gone are counted. *)
Lemma latest_snoc_length (l : list (str * pyval)) k v :
  length (latest (l ++ [(k, v)])) <= S (length (latest l)).
Proof. rewrite latest_snoc, app_length. cbn. pose proof (length_ddel_le (latest l) k). lia. Qed.
Lemma ba_new_dropped maxn l imm limit a : maxn <> Some 0%Z -> ba_new maxn l imm limit = Ok a ->
  length (latest (accepted limit l)) <= length (ba_dict a) + ba_dropped a
  /\ length (ba_dict a) + ba_dropped a <= length (accepted limit l).
Proof.
  assert (Hg : forall m, m <> Some 0 ->
     let a := fold_left (fun a kv => ba_set_raw (fst kv) (snd kv) a) l (BA m limit false [] 0) in
     length (latest (accepted limit l)) <= length (ba_dict a) + ba_dropped a
     /\ length (ba_dict a) + ba_dropped a <= length (accepted limit l)).
  { intros m Hm. rewrite <- (rev_involutive l). induction (rev l) as [|kv r IH]; [cbn; lia|].
    cbn [rev]. rewrite fold_left_app. cbn [fold_left] in *.
    unfold accepted. rewrite flat_map_app. fold (accepted limit (rev r)). cbn [flat_map]. rewrite app_nil_r.
    destruct (ba_fold_keeps (rev r) (BA m limit false [] 0)) as (E1 & E2 & E3). cbn zeta in *. cbn in E1, E2, E3.
    set (a0 := fold_left _ (rev r) _) in *.
    assert (Hraw : ba_set_raw (fst kv) (snd kv) a0 = match valid_key (fst kv), clean_attribute (fst kv) (snd kv) limit with
      | Some k, Some v => let (d, n) := bput (ba_maxlen a0) k v (ba_dict a0) (ba_dropped a0) in
           BA (ba_maxlen a0) (ba_max_value_len a0) (ba_immutable a0) d n
      | _, _ => a0 end).
    { unfold ba_set_raw. rewrite E3, E2. destruct m as [[|m]|]; congruence. }
    rewrite Hraw. destruct (valid_key (fst kv)) as [k|]; [|rewrite app_nil_r; exact IH].
    destruct (clean_attribute (fst kv) (snd kv) limit) as [v|]; [|rewrite app_nil_r; exact IH].
    pose proof (latest_snoc_length (accepted limit (rev r)) k v) as Hls. rewrite app_length. cbn [length].
    assert (Hwin : forall x, In x (keys (ba_dict a0)) -> In x (map fst (latest (accepted limit (rev r))))).
    { intros x Hx. assert (Hd : ba_dict a0 = match m with Some m => lastn m (latest (accepted limit (rev r))) | None => latest (accepted limit (rev r)) end).
      { pose proof (ba_new_window (option_map Z.of_nat m) (rev r) false limit) as Hw. unfold ba_new in Hw.
        destruct m as [m|]; cbn [option_map] in Hw.
        - destruct (Z.ltb_spec (Z.of_nat m) 0); [lia|]. rewrite Nat2Z.id in Hw. specialize (Hw _ eq_refl). exact Hw.
        - specialize (Hw _ eq_refl). exact Hw. }
      rewrite Hd in Hx. destruct m; [|exact Hx]. apply in_map_iff in Hx as (y & Ey & Hy). apply In_lastn in Hy.
      apply in_map_iff. eauto. }
    destruct (bput_cases (ba_maxlen a0) k v (ba_dict a0) (ba_dropped a0)) as [[Hk ->]|[(Hk & (m' & Em & El) & ->)|(Hk & Hn & ->)]]; cbn [ba_dict ba_dropped].
    - rewrite app_length. cbn [length]. pose proof (length_ddel _ _ Hk) as Hd.
      assert (Hsame : length (latest (accepted limit (rev r) ++ [(k, v)])) = length (latest (accepted limit (rev r)))).
      { rewrite latest_snoc, app_length. cbn [length]. pose proof (length_ddel _ _ (Hwin _ Hk)). lia. }
      lia.
    - rewrite app_length. cbn [length]. destruct (ba_dict a0) as [|x d]; cbn in *; [congruence|lia].
    - rewrite app_length. cbn [length]. lia. }
  intros Hm E. unfold ba_new in E. destruct maxn as [z|].
  - destruct (Z.ltb_spec z 0); [discriminate|]. injection E as <-. cbn. apply Hg.
    intros [= E0]. apply Hm. f_equal. lia.
  - injection E as <-. cbn. apply Hg. discriminate.
Qed.

Lemma ba_new_attrs_of maxn attrs imm maxlen a : not_negative maxlen -> ba_new maxn attrs imm maxlen = Ok a ->
  attrs_of maxn maxlen attrs a.
Proof.
  intros Hl E. exists (accepted (zlim (nlim maxlen)) attrs). split; [apply accepted_taken|].
  rewrite zlim_nlim by assumption. split; [rewrite (ba_new_window _ _ _ _ _ E); destruct maxn; reflexivity|].
  split; [|intros Hm; now apply (ba_new_dropped _ _ _ _ _ Hm) in E].
  intros ->. unfold ba_new in E. cbn in E. injection E as <-. cbn [ba_dropped].
  assert (Hg : forall d n, ba_dropped (fold_left (fun a kv => ba_set_raw (fst kv) (snd kv) a) attrs (BA (Some 0) maxlen false d n)) = n + length attrs).
  { clear. induction attrs as [|kv l IH]; intros d n; cbn; [lia|].
    change (ba_set_raw (fst kv) (snd kv) (BA (Some 0) maxlen false d n)) with (BA (Some 0) maxlen false d (S n)).
    rewrite IH. lia. }
  now rewrite Hg.
Qed.

(** ** Ended spans *)
Lemma ended_stays s o : sp_end s <> None -> sp_start s <> None -> span_call s o = s.
Proof.
  intros He Hs. assert (E : is_ended s = true) by (unfold is_ended; destruct (sp_end s); congruence).
  destruct o; cbn [span_call].
  - unfold set_attributes. now rewrite E.
  - unfold add_event. destruct (make_event _ _ _ _); [|reflexivity]. unfold check_ended. now rewrite E.
  - unfold add_link. destruct c; [|reflexivity]. destruct (is_valid_link _ _); [|reflexivity].
    destruct (make_link _ _ _); [|reflexivity]. unfold check_ended. now rewrite E.
  - unfold check_ended. now rewrite E.
  - unfold set_status, check_ended. now rewrite E.
  - unfold record_exception, add_event. destruct (make_event _ _ _ _); [|reflexivity]. unfold check_ended. now rewrite E.
  - unfold start_locked. destruct (sp_start s); congruence.
  - unfold end_locked. destruct (sp_start s); [|congruence]. now rewrite E.
Qed.

Lemma ended_stays_all s ops : sp_end s <> None -> sp_start s <> None -> fold_left span_call ops s = s.
Proof.
  intros He Hs. induction ops as [|o ops IH]; [reflexivity|]. cbn. now rewrite ended_stays.
Qed.


(** One call that is not end() on a live span. *)
Lemma call_keeps s o : is_end o = false -> sp_start s <> None ->
  let s' := span_call s o in
  sp_ctx s' = sp_ctx s /\ sp_parent s' = sp_parent s /\ sp_kind s' = sp_kind s /\ sp_limits s' = sp_limits s
  /\ sp_start s' = sp_start s /\ sp_end s' = sp_end s.
Proof.
  intros Hn Hs. destruct o; try discriminate; cbn [span_call].
  - unfold set_attributes. destruct (is_ended s); cbn; repeat split.
  - unfold add_event. destruct (make_event _ _ _ _); cbn; [|repeat split]. unfold check_ended.
    destruct (is_ended s); cbn; repeat split.
  - unfold add_link. destruct c; cbn; [|repeat split]. destruct (_ || _); cbn; [|repeat split].
    destruct (make_link _ _ _); cbn; [|repeat split]. unfold check_ended. destruct (is_ended s); cbn; repeat split.
  - unfold check_ended. destruct (is_ended s); cbn; repeat split.
  - unfold set_status, check_ended. destruct (is_ended s); cbn; [repeat split|].
    destruct st; cbn; [| |repeat split]; destruct (_ || _); cbn; repeat split.
  - unfold record_exception, add_event. destruct (make_event _ _ _ _); cbn; [|repeat split]. unfold check_ended.
    destruct (is_ended s); cbn; repeat split.
  - unfold start_locked. destruct (sp_start s) eqn:E; [|congruence]. cbn. rewrite E. auto 10.
Qed.

(** ** Collecting *)
Lemma collected_app {O A} (R : O -> A -> Prop) l1 x1 l2 x2 :
  collected R l1 x1 -> collected R l2 x2 -> collected R (l1 ++ l2) (x1 ++ x2).
Proof.
  induction 1; intros H2; cbn; [assumption| |].
  - apply co_yes; auto.
  - apply co_no; auto.
Qed.
Lemma last_app_cons {A} (l : list A) x d : last (l ++ [x]) d = x.
Proof. induction l as [|a l IH]; [reflexivity|]. cbn. destruct (l ++ [x]) eqn:E; [destruct l; discriminate|]. exact IH. Qed.

Lemma is_valid_link_spec c l : is_valid_link c l = true <-> link_counts c l.
Proof.
  unfold is_valid_link, link_counts. destruct c as [sc|].
  - rewrite !orb_true_iff. split.
    + intros H. exists sc. split; [reflexivity|]. destruct H as [[H|H]|H]; [auto| |].
      * right. left. destruct l; [discriminate|discriminate].
      * right. right. destruct (sc_state sc); [discriminate|discriminate].
    + intros (sc' & [= <-] & [H|[H|H]]); [auto| |].
      * left. right. destruct l; [congruence|reflexivity].
      * right. destruct (sc_state sc); [congruence|reflexivity].
  - split; [discriminate|]. intros (sc' & [=] & _).
Qed.

(** ** Status *)
Definition status_is (rs : list (status_code * pyval)) (st : status) : Prop :=
  st = St (fst (final_request rs)) (kept_description (final_request rs)).
Lemma new_status_kept c d : new_status c d = St c (kept_description (c, d)).
Proof.
  destruct d as [|[|]|sub [|z|z]|sub [|z|z]|sub [|x s]|sub [|x s]|sub [|x s]|x]; destruct c; reflexivity.
Qed.
Lemma final_request_snoc rs r :
  final_request (rs ++ [r]) =
  if is_ok (final_request rs) || is_unset r then final_request rs else r.
Proof.
  unfold final_request. rewrite filter_app. cbn [filter].
  set (l := filter (fun r => negb (is_unset r)) rs).
  assert (Hfind : forall x, find is_ok (l ++ [x]) = match find is_ok l with Some y => Some y | None => if is_ok x then Some x else None end).
  { intros x. induction l as [|y l0 IH]; cbn; [reflexivity|]. destruct (is_ok y); [reflexivity|]. exact IH. }
  destruct (find is_ok l) as [y|] eqn:E.
  - apply find_some in E as E'. destruct E' as [_ Ey]. rewrite Ey. cbn [orb].
    destruct (is_unset r); cbn [negb].
    + rewrite app_nil_r, E. reflexivity.
    + rewrite Hfind. reflexivity.
  - assert (Hl : is_ok (last l (UNSET, PNone)) = false).
    { destruct l as [|a l0] eqn:El; [reflexivity|]. rewrite <- El in E. rewrite <- El.
      assert (Hin : In (last l (UNSET, PNone)) l).
      { rewrite El. destruct (exists_last (l := a :: l0)) as (l1 & x & E1); [discriminate|]. rewrite E1, last_app_cons.
        apply in_app_iff. right. now left. }
      rewrite <- El in *. now apply (find_none _ _ E) in Hin. }
    rewrite Hl. cbn [orb]. destruct (is_unset r) eqn:Er; cbn [negb].
    + rewrite app_nil_r, E. reflexivity.
    + rewrite Hfind. destruct (is_ok r); [reflexivity|]. apply last_app_cons.
Qed.

(** ** The content of a live span *)
Definition describes (s0 : sdk_span) (ops : list sop) (s : sdk_span) : Prop :=
  (sp_ctx s = sp_ctx s0 /\ sp_parent s = sp_parent s0 /\ sp_kind s = sp_kind s0 /\ sp_limits s = sp_limits s0
   /\ sp_start s = sp_start s0 /\ sp_end s = sp_end s0)
  /\ sp_name s = last_name (sp_name s0) ops
  /\ sp_attrs s = fold_left (fun a kv => ba_step a (BSet (fst kv) (snd kv))) (assigned ops) (sp_attrs s0)
  /\ (exists evs, collected (event_of (sp_limits s0)) ops evs
        /\ bl_is (nlim (max_events (sp_limits s0))) evs (sp_events s))
  /\ (exists lks lks0, collected (link_of (sp_limits s0)) ops lks
        /\ bl_is (nlim (max_links (sp_limits s0))) lks0 (sp_links s0)
        /\ bl_is (nlim (max_links (sp_limits s0))) (lks0 ++ lks) (sp_links s))
  /\ status_is (flat_map requested ops) (sp_status s).

Lemma collected_snoc_no {O A} (R : O -> A -> Prop) l xs o : collected R l xs -> (forall x, ~ R o x) ->
  collected R (l ++ [o]) xs.
Proof. intros H Hn. rewrite <- (app_nil_r xs). apply collected_app; [assumption|]. apply co_no; [assumption|constructor]. Qed.
Lemma collected_snoc_yes {O A} (R : O -> A -> Prop) l xs o x : collected R l xs -> R o x ->
  collected R (l ++ [o]) (xs ++ [x]).
Proof. intros H Hn. apply collected_app; [assumption|]. apply co_yes; [assumption|constructor]. Qed.

Lemma last_name_snoc_no n ops o : (forall m, o <> OUpdateName m) -> last_name n (ops ++ [o]) = last_name n ops.
Proof.
  intros H. unfold last_name. rewrite flat_map_app. cbn. destruct o; try now rewrite app_nil_r. exfalso. eapply H. reflexivity.
Qed.
Lemma assigned_snoc_no ops o : (forall l, o <> OSetAttributes l) -> assigned (ops ++ [o]) = assigned ops.
Proof.
  intros H. unfold assigned. rewrite flat_map_app. cbn. destruct o; try now rewrite app_nil_r. exfalso. eapply H. reflexivity.
Qed.
Lemma requested_snoc_no ops o : (forall a d, o <> OSetStatus a d) -> flat_map requested (ops ++ [o]) = flat_map requested ops.
Proof.
  intros H. rewrite flat_map_app. cbn. destruct o; try now rewrite app_nil_r. exfalso. eapply H. reflexivity.
Qed.

Lemma bl_append_is {A} m h (b : blist A) x : bl_is m h b -> bl_is m (h ++ [x]) (bl_append x b).
Proof. intros H. exact (bl_step_is m h b (LAppend x) H). Qed.

Lemma make_event_of lim n l ts : limits_ok lim ->
  exists e, make_event lim n l ts = Ok e /\ ev_name e = n /\ ev_ts e = ts
    /\ attrs_of (max_event_attributes lim) (max_attribute_length lim) l (ev_attrs e).
Proof.
  intros (_ & _ & _ & _ & He & _ & Hl & _). unfold make_event.
  destruct (ba_new_ok _ l true (max_attribute_length lim) He) as (a & E). rewrite E. cbn.
  eexists. split; [reflexivity|]. cbn. split; [reflexivity|]. split; [reflexivity|].
  eapply ba_new_attrs_of; eauto.
Qed.
Lemma make_link_of lim sc l : limits_ok lim ->
  exists k, make_link lim sc l = Ok k /\ lk_ctx k = sc
    /\ attrs_of (max_link_attributes lim) (max_attribute_length lim) l (lk_attrs k).
Proof.
  intros (_ & _ & _ & _ & _ & Hk & Hl & _). unfold make_link.
  destruct (ba_new_ok _ l true (max_attribute_length lim) Hk) as (a & E). rewrite E. cbn.
  eexists. split; [reflexivity|]. cbn. split; [reflexivity|]. eapply ba_new_attrs_of; eauto.
Qed.

Lemma describes_step s0 ops s o : limits_ok (sp_limits s0) -> sp_start s0 <> None -> sp_end s0 = None ->
  is_end o = false -> describes s0 ops s -> describes s0 (ops ++ [o]) (span_call s o).
Proof.
  intros Hlim Hst Hend Ho ((C1 & C2 & C3 & C4 & C5 & C6) & Hn & Ha & (evs & He1 & He2) & (lks & lks0 & Hl1 & Hl2 & Hl3) & Hs).
  assert (Hk := call_keeps s o Ho ltac:(congruence)). cbn zeta in Hk.
  assert (Hne : is_ended s = false) by (unfold is_ended; now rewrite C6, Hend).
  split. { destruct Hk as (K1 & K2 & K3 & K4 & K5 & K6). repeat split; congruence. }
  clear Hk C1 C2 C3 C6. destruct o; try discriminate.
  - (* set_attributes *)
    cbn [span_call]. unfold set_attributes. rewrite Hne. cbn [with_attrs sp_name sp_attrs sp_events sp_links sp_status].
    rewrite last_name_snoc_no, requested_snoc_no by discriminate.
    split; [assumption|]. split.
    { unfold assigned. rewrite flat_map_app, fold_left_app. fold (assigned ops). cbn. now rewrite app_nil_r, Ha. }
    split; [exists evs; split; [apply collected_snoc_no; [assumption|intros x Hx; inversion Hx]|assumption]|].
    split; [|assumption]. exists lks, lks0. split; [apply collected_snoc_no; [assumption|intros x Hx; inversion Hx]|auto].
  - (* add_event *)
    cbn [span_call]. unfold add_event. rewrite C4.
    destruct (make_event_of (sp_limits s0) name attrs (or_now ts now) Hlim) as (e & -> & E1 & E2 & E3).
    unfold check_ended. rewrite Hne. cbn [with_events sp_name sp_attrs sp_events sp_links sp_status].
    rewrite last_name_snoc_no, assigned_snoc_no, requested_snoc_no by discriminate.
    split; [assumption|]. split; [assumption|]. split.
    { exists (evs ++ [e]). split; [apply collected_snoc_yes; [assumption|]|now apply bl_append_is].
      constructor; [assumption|exact E2|assumption]. }
    split; [|assumption]. exists lks, lks0. split; [apply collected_snoc_no; [assumption|intros x Hx; inversion Hx]|auto].
  - (* add_link *)
    cbn [span_call]. unfold add_link. rewrite last_name_snoc_no, assigned_snoc_no, requested_snoc_no by discriminate.
    destruct (is_valid_link c attrs) eqn:Ev.
    + pose proof Ev as Ev'. apply is_valid_link_spec in Ev'. destruct c as [sc|]; [|discriminate Ev].
      rewrite C4.
      destruct (make_link_of (sp_limits s0) sc attrs Hlim) as (k & -> & E1 & E2).
      unfold check_ended. rewrite Hne. cbn [with_links sp_name sp_attrs sp_events sp_links sp_status].
      split; [assumption|]. split; [assumption|].
      split; [exists evs; split; [apply collected_snoc_no; [assumption|intros x Hx; inversion Hx]|assumption]|].
      split; [|assumption]. exists (lks ++ [k]), lks0. split.
      { apply collected_snoc_yes; [assumption|]. constructor. split; [assumption|]. split; [congruence|assumption]. }
      split; [assumption|]. rewrite app_assoc. now apply bl_append_is.
    + assert (Hno : forall x, ~ link_of (sp_limits s0) (OAddLink c attrs) x).
      { intros x Hx. inversion Hx as [? ? ? [Hc _]]; subst. apply is_valid_link_spec in Hc. congruence. }
      replace (match c with Some sc => s | None => s end) with s by (destruct c; reflexivity).
      split; [assumption|]. split; [assumption|].
      split; [exists evs; split; [apply collected_snoc_no; [assumption|intros x Hx; inversion Hx]|assumption]|].
      split; [|assumption]. exists lks, lks0. split; [now apply collected_snoc_no|auto].
  - (* update_name *)
    cbn [span_call]. unfold check_ended. rewrite Hne. cbn [with_name sp_name sp_attrs sp_events sp_links sp_status].
    rewrite assigned_snoc_no, requested_snoc_no by discriminate.
    split. { unfold last_name. rewrite flat_map_app. cbn. now rewrite last_app_cons. }
    split; [assumption|].
    split; [exists evs; split; [apply collected_snoc_no; [assumption|intros x Hx; inversion Hx]|assumption]|].
    split; [|assumption]. exists lks, lks0. split; [apply collected_snoc_no; [assumption|intros x Hx; inversion Hx]|auto].
  - (* set_status *)
    assert (Hst' : status_is (flat_map requested (ops ++ [OSetStatus st d])) (sp_status (span_call s (OSetStatus st d)))).
    { cbn [span_call]. unfold set_status, check_ended. rewrite Hne. rewrite flat_map_app.
      assert (Hok : code_is (st_code (sp_status s)) OK = is_ok (final_request (flat_map requested ops))).
      { rewrite Hs. cbn [st_code]. destruct (final_request _) as [[] ?]; reflexivity. }
      assert (Hgo : forall c d', status_is (flat_map requested ops ++ [(c, d')])
          (sp_status (if code_is (st_code (sp_status s)) OK || code_is c UNSET then s
                      else with_status (new_status c d') s))).
      { intros c d'. unfold status_is. rewrite final_request_snoc, Hok.
        replace (is_unset (c, d')) with (code_is c UNSET) by (destruct c; reflexivity).
        destruct (_ || _); [exact Hs|]. cbn [with_status sp_status fst]. apply new_status_kept. }
      destruct st as [c d'|c|]; cbn [flat_map requested app]; [apply Hgo|apply Hgo|]. now rewrite app_nil_r. }
    assert (Hsame : let s' := span_call s (OSetStatus st d) in
       sp_name s' = sp_name s /\ sp_attrs s' = sp_attrs s /\ sp_events s' = sp_events s /\ sp_links s' = sp_links s).
    { cbn [span_call]. unfold set_status, check_ended. rewrite Hne.
      destruct st; cbn; [| |auto]; destruct (_ || _); cbn; auto. }
    destruct Hsame as (-> & -> & -> & ->). rewrite last_name_snoc_no, assigned_snoc_no by discriminate.
    split; [assumption|]. split; [assumption|].
    split; [exists evs; split; [apply collected_snoc_no; [assumption|intros x Hx; inversion Hx]|assumption]|].
    split; [|assumption]. exists lks, lks0. split; [apply collected_snoc_no; [assumption|intros x Hx; inversion Hx]|auto].
  - (* record_exception *)
    cbn [span_call]. unfold record_exception, add_event. rewrite C4.
    destruct (make_event_of (sp_limits s0) (lit "exception") (exc_pairs e attrs escaped) (or_now ts now) Hlim) as (ev & -> & E1 & E2 & E3).
    unfold check_ended. rewrite Hne. cbn [with_events sp_name sp_attrs sp_events sp_links sp_status].
    rewrite last_name_snoc_no, assigned_snoc_no, requested_snoc_no by discriminate.
    split; [assumption|]. split; [assumption|]. split.
    { exists (evs ++ [ev]). split; [apply collected_snoc_yes; [assumption|]|now apply bl_append_is].
      constructor; [assumption|exact E2|assumption]. }
    split; [|assumption]. exists lks, lks0. split; [apply collected_snoc_no; [assumption|intros x Hx; inversion Hx]|auto].
  - (* start *)
    assert (E : span_call s (OStart t now) = s).
    { cbn. unfold start_locked. destruct (sp_start s) eqn:Es; [reflexivity|]. congruence. }
    rewrite E. rewrite last_name_snoc_no, assigned_snoc_no, requested_snoc_no by discriminate.
    split; [assumption|]. split; [assumption|].
    split; [exists evs; split; [apply collected_snoc_no; [assumption|intros x Hx; inversion Hx]|assumption]|].
    split; [|assumption]. exists lks, lks0. split; [apply collected_snoc_no; [assumption|intros x Hx; inversion Hx]|auto].
Qed.

Lemma describes_all s0 ops : limits_ok (sp_limits s0) -> sp_start s0 <> None -> sp_end s0 = None ->
  forallb (fun o => negb (is_end o)) ops = true -> describes s0 [] s0 ->
  describes s0 ops (fold_left span_call ops s0).
Proof.
  intros Hl Hs He Ho H0. rewrite <- (rev_involutive ops) in *. induction (rev ops) as [|o l IH]; [exact H0|].
  cbn [rev] in *. rewrite forallb_app in Ho. apply andb_true_iff in Ho as [Ho1 Ho2]. cbn in Ho2.
  rewrite andb_true_r in Ho2. apply negb_true_iff in Ho2.
  rewrite fold_left_app. cbn [fold_left]. apply describes_step; auto.
Qed.

Lemma bl_is_window {A} m (h : list A) b : bl_is (nlim m) h b ->
  bl_items b = window m h /\ bl_dropped b = excess m (length h).
Proof. destruct m as [z|]; cbn; intros [_ H]; exact H. Qed.

Lemma bl_make_ok {A} m (b : blist A) : bl_make m = Ok b -> b = bl_new (nlim m) /\ not_negative m.
Proof.
  unfold bl_make. destruct m as [z|].
  - destruct (Z.ltb_spec z 0); [discriminate|]. intros [= <-]. split; [reflexivity|]. intros z' [= <-]. lia.
  - intros [= <-]. split; [reflexivity|discriminate].
Qed.
Lemma bl_is_new {A} m : bl_is m [] (bl_new (A := A) m).
Proof. split; [reflexivity|]. destruct m; cbn; auto. Qed.

Lemma valid_links_given lim ls l : limits_ok lim -> valid_links lim ls = Ok l -> collected (given_link lim) ls l.
Proof.
  intros Hl. revert l. induction ls as [|[[c attrs]|] ls IH]; intros l E.
  - injection E as <-. constructor.
  - cbn [valid_links] in E. destruct c as [sc|].
    + destruct (is_valid_link (Some sc) attrs) eqn:Ev.
      * destruct (make_link_of lim sc attrs Hl) as (k & E1 & E2 & E3). rewrite E1 in E. cbn in E.
        destruct (valid_links lim ls) as [r|] eqn:Er; [|discriminate]. injection E as <-.
        apply co_yes; [|now apply IH]. exists (Some sc), attrs. split; [reflexivity|].
        split; [now apply is_valid_link_spec|]. split; [congruence|assumption].
      * apply co_no; [|now apply IH].
        intros x (c & l' & [= <- <-] & Hc & _). apply is_valid_link_spec in Hc. congruence.
    + apply co_no; [|now apply IH]. intros x (c & l' & [= <- <-] & (sc & [=] & _) & _).
  - apply co_no; [|now apply IH]. intros x (c & l' & [=] & _).
Qed.

Lemma new_span_describes lim name ctx parent kind attrs links s t now : limits_ok lim ->
  new_span lim name ctx parent kind attrs links = Ok s ->
  let s0 := start_locked t now s in
  describes s0 [] s0 /\ sp_limits s0 = lim /\ sp_start s0 = Some (at_time t now) /\ sp_end s0 = None
  /\ sp_name s0 = name /\ sp_ctx s0 = ctx /\ sp_parent s0 = parent /\ sp_kind s0 = kind
  /\ ba_new (max_span_attributes lim) attrs false (max_span_attribute_length lim) = Ok (sp_attrs s0)
  /\ exists given, collected (given_link lim) links given /\ bl_is (nlim (max_links lim)) given (sp_links s0).
Proof.
  intros Hl E. unfold new_span in E.
  destruct (ba_new (max_span_attributes lim) attrs false (max_span_attribute_length lim)) as [a|] eqn:Ea; [|discriminate].
  cbn in E. destruct (bl_make (max_events lim)) as [evs|] eqn:Ee; [|discriminate]. cbn in E.
  unfold new_links in E.
  destruct (valid_links lim links) as [l|] eqn:Ev; [|discriminate]. cbn in E.
  destruct (bl_make (max_links lim)) as [b|] eqn:Eb; [|discriminate]. cbn in E. injection E as <-.
  apply bl_make_ok in Ee as [-> _]. apply bl_make_ok in Eb as [-> _].
  cbn. assert (Hk : bl_is (nlim (max_links lim)) l (match links with [] => bl_new (nlim (max_links lim)) | _ :: _ => bl_extend l (bl_new (nlim (max_links lim))) end)).
  { destruct links as [|g links].
    - cbn in Ev. injection Ev as <-. apply bl_is_new.
    - exact (bl_step_is _ [] _ (LExtend l) (bl_is_new _)). }
  split.
  { unfold describes. cbn. split; [auto 10|]. split; [reflexivity|]. split; [reflexivity|].
    split; [exists []; split; [constructor|apply bl_is_new]|].
    split; [|reflexivity]. exists [], l. split; [constructor|]. rewrite app_nil_r. auto. }
  split; [reflexivity|]. split; [reflexivity|]. do 6 (split; [reflexivity|]).
  exists l. split; [now apply valid_links_given|assumption].
Qed.

Lemma collected_event_carries lim name ctx parent kind attrs links s t now ops : limits_ok lim ->
  new_span lim name ctx parent kind attrs links = Ok s ->
  forallb (fun o => negb (is_end o)) ops = true ->
  let s' := fold_left span_call ops (start_locked t now s) in
  carries lim name ctx parent kind attrs links (at_time t now) ops s'
  /\ sp_limits s' = lim /\ sp_end s' = None.
Proof.
  intros Hl E Ho. destruct (new_span_describes _ _ _ _ _ _ _ _ t now Hl E)
    as (H0 & L & S0 & E0 & N0 & C0 & P0 & K0 & A0 & given & G1 & G2). cbn zeta in *.
  set (s0 := start_locked t now s) in *.
  assert (Hd := describes_all s0 ops ltac:(now rewrite L) ltac:(congruence) E0 Ho H0).
  destruct Hd as ((D1 & D2 & D3 & D4 & D5 & D6) & Hn & Ha & (evs & He1 & He2) & (lks & lks0 & Hk1 & Hk2 & Hk3) & Hs).
  rewrite L in *. set (s' := fold_left span_call ops s0) in *. clearbody s'.
  split; [|split; congruence].
  apply bl_is_window in He2 as [He2 He3].
  assert (Hsame : bl_is (nlim (max_links lim)) (given ++ lks) (sp_links s')).
  { destruct (nlim (max_links lim)) as [m|].
    - destruct G2 as [_ [G2 G3]], Hk2 as [_ [K2 K3]], Hk3 as (Km & K4 & K5).
      split; [assumption|]. rewrite app_length in *. rewrite K4, K5.
      assert (El : lastn m given = lastn m lks0) by congruence.
      assert (Ed : length given - m = length lks0 - m) by congruence.
      assert (El2 : length (lastn m given) = length (lastn m lks0)) by congruence.
      rewrite !lastn_length in El2.
      assert (Elen : length given = length lks0) by lia. split; [|lia].
      clear - El Elen. rewrite <- (rev_involutive lks). induction (rev lks) as [|x r IH]; cbn [rev]; [now rewrite !app_nil_r|].
      rewrite !app_assoc, <- (lastn_lastn_app m (lks0 ++ _)), <- (lastn_lastn_app m (given ++ _)). now rewrite IH.
    - destruct G2 as [_ [G2 G3]], Hk2 as [_ [K2 K3]], Hk3 as (Km & K4 & K5). split; [assumption|].
      split; [rewrite K4; congruence|assumption]. }
  apply bl_is_window in Hsame as [Hl3 Hl4].
  constructor; try congruence.
  - pose proof (ba_new_extend _ _ (assigned ops) _ _ A0) as Ex.
    rewrite <- Ha in Ex. eapply ba_new_attrs_of; [|exact Ex]. apply Hl.
  - exists evs. auto.
  - exists given, lks. auto.
Qed.

(** ** Schedules *)
Definition live_part (acts : list act) : list sop := until_end acts.

Lemma sw_ended acts w : sp_end (w_span w) <> None -> sp_start (w_span w) <> None ->
  w_span (fold_left sw_step acts w) = w_span w.
Proof.
  intros He Hs. revert w He Hs. induction acts as [|a acts IH]; intros w He Hs; [reflexivity|]. cbn [fold_left].
  assert (E : w_span (sw_step w a) = w_span w).
  { destruct a as [o|]; cbn; [now apply ended_stays|]. destruct (w_pending w); reflexivity. }
  rewrite IH; rewrite ?E; auto.
Qed.

Lemma until_end_no_end acts : forallb (fun o => negb (is_end o)) (until_end acts) = true.
Proof.
  induction acts as [|[o|] acts IH]; [reflexivity| |exact IH]. destruct o; cbn; auto.
Qed.

Lemma ended_log_app l l' : ended_spans (l ++ l') = ended_spans l ++ ended_spans l'.
Proof. apply flat_map_app. Qed.

(** After the first end. *)
Lemma sw_after acts w : sp_end (w_span w) <> None -> sp_start (w_span w) <> None ->
  let w' := fold_left sw_step acts w in
  exists more, w_log w' = w_log w ++ map (fun _ => POnEnd (w_span w)) (seq 0 more) /\ w_pending w' + more = w_pending w.
Proof.
  revert w. induction acts as [|a acts IH]; intros w He Hs.
  - exists 0. cbn. rewrite app_nil_r. split; [reflexivity|lia].
  - cbn [fold_left]. assert (E : w_span (sw_step w a) = w_span w) by exact (sw_ended [a] w He Hs).
    destruct (IH (sw_step w a)) as (more & H1 & H2); [congruence|congruence|]. cbn zeta in *. rewrite E in H1.
    destruct a as [o|].
    + exists more. rewrite H1, H2. cbn. split; [reflexivity|].
      destruct o; try reflexivity. destruct (sp_start (w_span w)); [|reflexivity]. unfold is_ended.
      destruct (sp_end (w_span w)); [reflexivity|congruence].
    + cbn in H1, H2 |- *. destruct (w_pending w) as [|n] eqn:En.
      * exists more. split; [assumption|]. cbn in H2. congruence.
      * exists (S more). split; [|cbn in H2; lia]. rewrite H1. cbn. rewrite <- app_assoc. cbn.
        do 2 f_equal. rewrite <- seq_shift, map_map. reflexivity.
Qed.

Lemma sw_run acts w : sp_start (w_span w) <> None -> sp_end (w_span w) = None -> w_pending w = 0 ->
  let w' := fold_left sw_step acts w in
  let live := fold_left span_call (until_end acts) (w_span w) in
  match first_end acts with
  | None => w_span w' = live /\ w_log w' = w_log w /\ w_pending w' = 0
  | Some te => w_span w' = with_end te live
      /\ ((w_pending w' = 1 /\ w_log w' = w_log w)
          \/ (w_pending w' = 0 /\ w_log w' = w_log w ++ [POnEnd (with_end te live)]))
  end.
Proof.
  revert w. induction acts as [|a acts IH]; intros w Hs He Hp; [cbn; auto|]. cbn [fold_left].
  destruct a as [o|].
  - destruct (is_end o) eqn:Eo.
    + destruct o as [| | | | | | |t now]; try discriminate. cbn [first_end until_end].
      change (fold_left span_call [] (w_span w)) with (w_span w). cbn zeta.
      assert (E1 : sw_step w (ACall (OEnd t now)) = SW (with_end (at_time t now) (w_span w)) 1 (w_log w)).
      { cbn. unfold end_locked, is_ended. rewrite He, Hp. destruct (sp_start (w_span w)); [reflexivity|congruence]. }
      rewrite E1. set (w1 := SW (with_end (at_time t now) (w_span w)) 1 (w_log w)).
      assert (Ew : w_span (fold_left sw_step acts w1) = w_span w1) by (apply sw_ended; cbn; [discriminate|assumption]).
      split; [exact Ew|].
      destruct (sw_after acts w1) as (more & H1 & H2); [discriminate|exact Hs|]. cbn zeta in *. cbn [w_log w_span w_pending w1] in H1, H2.
      destruct more as [|[|more]]; [left|right|cbn in H2; lia].
      * rewrite H1. cbn. rewrite app_nil_r. split; [lia|reflexivity].
      * rewrite H1. split; [lia|reflexivity].
    + assert (Eu : until_end (ACall o :: acts) = o :: until_end acts) by (destruct o; try reflexivity; discriminate).
      assert (Ef : first_end (ACall o :: acts) = first_end acts) by (destruct o; try reflexivity; discriminate).
      assert (Es : sw_step w (ACall o) = SW (span_call (w_span w) o) 0 (w_log w)).
      { cbn. destruct o; try discriminate; now rewrite Hp. }
      destruct (call_keeps (w_span w) o Eo Hs) as (_ & _ & _ & _ & K5 & K6). cbn zeta in *.
      rewrite Eu, Ef, Es. cbn [fold_left].
      specialize (IH (SW (span_call (w_span w) o) 0 (w_log w))). cbn [w_span w_pending w_log] in IH.
      apply IH; [congruence|congruence|reflexivity].
  - cbn [first_end until_end]. assert (Es : sw_step w AOnEnd = w) by (cbn; now rewrite Hp). rewrite Es. now apply IH.
Qed.

(** The tracer's path: new_span, start, then any schedule. *)
Lemma c23_frozen lim name ctx parent kind attrs links s t now before after :
  limits_ok lim -> new_span lim name ctx parent kind attrs links = Ok s ->
  let w := fold_left sw_step before (sw_init s t now) in
  first_end before <> None ->
  w_span (fold_left sw_step after w) = w_span w /\ sp_end (w_span w) = first_end before.
Proof.
  intros Hl E. cbn zeta. intros Hf.
  destruct (new_span_describes _ _ _ _ _ _ _ _ t now Hl E) as (_ & L & S0 & E0 & _). cbn zeta in *.
  pose proof (sw_run before (sw_init s t now)) as Hr. cbn [sw_init w_span w_pending w_log] in Hr.
  specialize (Hr ltac:(congruence) E0 eq_refl). cbn zeta in Hr.
  destruct (first_end before) as [te|] eqn:Ef; [|congruence]. destruct Hr as [Hr _].
  fold (sw_init s t now) in Hr. split; [|now rewrite Hr].
  apply sw_ended; [now rewrite Hr|]. rewrite Hr. cbn [with_end sp_start].
  destruct (collected_event_carries lim name ctx parent kind attrs links s t now (until_end before) Hl E (until_end_no_end before)) as [Hc _].
  cbn zeta in Hc. rewrite (ca_start _ _ _ _ _ _ _ _ _ _ Hc). discriminate.
Qed.

Lemma carries_end lim name ctx parent kind attrs links t0 ops s te :
  carries lim name ctx parent kind attrs links t0 ops s -> carries lim name ctx parent kind attrs links t0 ops (with_end te s).
Proof. intros []. constructor; assumption. Qed.

Lemma c24_once lim name ctx parent kind attrs links s t now acts :
  limits_ok lim -> new_span lim name ctx parent kind attrs links = Ok s ->
  let w := fold_left sw_step acts (sw_init s t now) in
  carries lim name ctx parent kind attrs links (at_time t now) (until_end acts) (w_span w)
  /\ sp_end (w_span w) = first_end acts
  /\ (exists s0, hd_error (w_log w) = Some (POnStart s0) /\ carries lim name ctx parent kind attrs links (at_time t now) [] s0)
  /\ match first_end acts with
     | None => w_pending w = 0 /\ ended_spans (w_log w) = []
     | Some _ => w_pending w + length (ended_spans (w_log w)) = 1
                 /\ forall x, In x (ended_spans (w_log w)) -> x = w_span w
     end.
Proof.
  intros Hl E. cbn zeta.
  destruct (new_span_describes _ _ _ _ _ _ _ _ t now Hl E) as (_ & L & S0 & E0 & _). cbn zeta in *.
  pose proof (sw_run acts (sw_init s t now)) as Hr. cbn [sw_init w_span w_pending w_log] in Hr.
  specialize (Hr ltac:(congruence) E0 eq_refl). cbn zeta in Hr. fold (sw_init s t now) in Hr.
  destruct (collected_event_carries lim name ctx parent kind attrs links s t now (until_end acts) Hl E (until_end_no_end acts)) as (Hc & _ & He).
  destruct (collected_event_carries lim name ctx parent kind attrs links s t now [] Hl E eq_refl) as (Hc0 & _ & _).
  cbn zeta in *. cbn [fold_left] in Hc0.
  destruct (first_end acts) as [te|].
  - destruct Hr as [Hr1 Hr2]. rewrite Hr1. split; [now apply carries_end|]. split; [reflexivity|].
    destruct Hr2 as [[-> ->]|[-> ->]]; (split; [exists (start_locked t now s); split; [reflexivity|assumption]|]).
    + split; [reflexivity|]. intros x [].
    + split; [reflexivity|]. intros x [<-|[]]. reflexivity.
  - destruct Hr as (-> & -> & ->). split; [assumption|]. split; [assumption|].
    split; [exists (start_locked t now s); split; [reflexivity|assumption]|]. auto.
Qed.

(** ** Limits *)
Lemma collected_forall {O A} (R : O -> A -> Prop) os xs x : collected R os xs -> In x xs -> exists o, R o x.
Proof. induction 1 as [|o y os xs HR _ IH|o os xs _ _ IH]; [intros []| |auto]. intros [<-|Hin]; eauto. Qed.
Lemma In_window {A} m (l : list A) x : In x (window m l) -> In x l.
Proof. destruct m; cbn; [apply In_lastn|auto]. Qed.
Lemma window_at_most {A} m (l : list A) : not_negative m -> at_most m (length (window m l)).
Proof. intros Hn z ->. cbn. rewrite lastn_length. specialize (Hn z eq_refl). lia. Qed.

Lemma c26_limits lim name ctx parent kind attrs links t0 ops s : limits_ok lim ->
  carries lim name ctx parent kind attrs links t0 ops s ->
  at_most (max_span_attributes lim) (length (ba_dict (sp_attrs s)))
  /\ at_most (max_events lim) (length (bl_items (sp_events s)))
  /\ at_most (max_links lim) (length (bl_items (sp_links s)))
  /\ (forall e, In e (bl_items (sp_events s)) -> at_most (max_event_attributes lim) (length (ba_dict (ev_attrs e))))
  /\ (forall k, In k (bl_items (sp_links s)) -> at_most (max_link_attributes lim) (length (ba_dict (lk_attrs k)))).
Proof.
  intros (L1 & L2 & L3 & L4 & L5 & L6 & L7 & L8) [_ _ _ _ _ Ha He0 Hl0 _].
  split; [eapply attrs_of_at_most; eauto|].
  destruct He0 as (evs & Hev & -> & _). destruct Hl0 as (g & l & Hg & Hl & -> & _).
  split; [now apply window_at_most|]. split; [now apply window_at_most|]. split.
  - intros e He. apply In_window in He. destruct (collected_forall _ _ _ _ Hev He) as (o & Ho).
    destruct Ho; eapply attrs_of_at_most; eauto.
  - intros k Hk. apply In_window in Hk. apply in_app_iff in Hk as [Hk|Hk].
    + destruct (collected_forall _ _ _ _ Hg Hk) as (o & c & l' & _ & _ & _ & H). eapply attrs_of_at_most; eauto.
    + destruct (collected_forall _ _ _ _ Hl Hk) as (o & Ho). destruct Ho as [c l' k Hk'].
      destruct Hk' as (_ & _ & H). eapply attrs_of_at_most; eauto.
Qed.

(** ** SpanLimits *)
Section LimitsP.
Variable pylower : str -> str.
Variable pyint : str -> option Z.
Variable environ : str -> option str.

Lemma from_env_spec v var d :
  from_env_if_absent pylower pyint environ v var d =
  match decide [arg_source v; env_source pylower pyint (environ var)] with
  | Bad => Raises "ValueError"
  | Limit z => Ok (Some z)
  | Unlimited => match arg_source v, environ var with Absent, None => Ok d | _, _ => Ok None end
  | Absent => Ok d
  end.
Proof.
  unfold from_env_if_absent, decide, arg_source, env_source. destruct v as [z|].
  - destruct (Z.eqb z (-1)); [reflexivity|]. destruct (Z.ltb z 0); reflexivity.
  - destruct (environ var) as [s|]; [|reflexivity].
    destruct (pylower (strip py_space s)) as [|c t] eqn:E; [reflexivity|]. cbn [str_eqb].
    unfold str_eqb. destruct (str_eq_dec (c :: t) []); [discriminate|].
    destruct (pyint (c :: t)) as [z|]; [|reflexivity]. destruct (Z.ltb z 0); reflexivity.
Qed.

(** A value with a default. *)
Definition src (v : option Z) (var : str) : list source := [arg_source v; env_source pylower pyint (environ var)].
Definition dsrc (d : option Z) : source := match d with Some z => Limit z | None => Unlimited end.
Lemma from_env_decide v var d :
  (from_env_if_absent pylower pyint environ v var d = Raises "ValueError" /\ decide (src v var) = Bad)
  \/ (from_env_if_absent pylower pyint environ v var d = Ok (limit_of (decide (src v var ++ [dsrc d])))
      /\ decide (src v var) <> Bad).
Proof.
  rewrite from_env_spec. unfold src, decide, app. destruct (arg_source v) eqn:Ea; cbn [limit_of].
  - destruct (env_source pylower pyint (environ var)) eqn:Ee; cbn [limit_of].
    + right. destruct (environ var) as [s|] eqn:Es.
      * exfalso. unfold env_source in Ee. cbn in Ee. destruct (str_eqb _ _); [discriminate|].
        destruct (pyint _); [destruct (Z.ltb _ _); discriminate|discriminate].
      * split; [destruct d; reflexivity|discriminate].
    + right. destruct (environ var) as [s|] eqn:Es; [|discriminate]. split; [reflexivity|discriminate].
    + right. split; [reflexivity|discriminate].
    + left. auto.
  - right. split; [reflexivity|discriminate].
  - right. split; [reflexivity|discriminate].
  - left. auto.
Qed.
End LimitsP.

Lemma arg_nonneg v z : arg_source v = Limit z -> (0 <= z)%Z.
Proof.
  unfold arg_source. destruct v as [x|]; [|discriminate]. destruct (Z.eqb x (-1)); [discriminate|].
  destruct (Z.ltb_spec x 0); [discriminate|]. intros [= <-]. assumption.
Qed.
Lemma env_nonneg pl pi v z : env_source pl pi v = Limit z -> (0 <= z)%Z.
Proof.
  unfold env_source. destruct v as [x|]; [|discriminate]. destruct (str_eqb _ _); [discriminate|].
  destruct (pi _) as [y|]; [|discriminate]. destruct (Z.ltb_spec y 0); [discriminate|]. intros [= <-]. assumption.
Qed.
Lemma decide_in l z : decide l = Limit z -> In (Limit z) l.
Proof. induction l as [|[] l IH]; cbn; intros E; try discriminate; auto. Qed.

Lemma span_limits_spec pylower pyint environ a :
  let env v := env_source pylower pyint (environ v) in
  (some_bad env a -> span_limits pylower pyint environ a = Raises "ValueError")
  /\ (~ some_bad env a -> span_limits pylower pyint environ a = Ok (limits_from env a)).
Proof.
  cbn zeta. set (env := fun v => env_source pylower pyint (environ v)).
  unfold some_bad, span_limits, limits_from, global_source, sources.
  pose proof (from_env_decide pylower pyint environ (max_events a) (lit "OTEL_SPAN_EVENT_COUNT_LIMIT") (Some 128%Z)) as H1.
  pose proof (from_env_decide pylower pyint environ (max_links a) (lit "OTEL_SPAN_LINK_COUNT_LIMIT") (Some 128%Z)) as H2.
  pose proof (from_env_decide pylower pyint environ (max_attributes a) (lit "OTEL_ATTRIBUTE_COUNT_LIMIT") None) as H3.
  unfold src in H1, H2, H3.
  change (env_source pylower pyint (environ (lit "OTEL_SPAN_EVENT_COUNT_LIMIT"))) with (env (lit "OTEL_SPAN_EVENT_COUNT_LIMIT")) in H1.
  change (env_source pylower pyint (environ (lit "OTEL_SPAN_LINK_COUNT_LIMIT"))) with (env (lit "OTEL_SPAN_LINK_COUNT_LIMIT")) in H2.
  change (env_source pylower pyint (environ (lit "OTEL_ATTRIBUTE_COUNT_LIMIT"))) with (env (lit "OTEL_ATTRIBUTE_COUNT_LIMIT")) in H3.
  destruct H1 as [[-> B1]|[-> B1]].
  { split; [reflexivity|]. intros Hn. exfalso. apply Hn. rewrite B1. cbn. tauto. }
  cbn [bind_out]. destruct H2 as [[-> B2]|[-> B2]].
  { split; [reflexivity|]. intros Hn. exfalso. apply Hn. rewrite B2. cbn. tauto. }
  cbn [bind_out]. destruct H3 as [[-> B3]|[-> B3]].
  { split; [reflexivity|]. intros Hn. exfalso. apply Hn. rewrite B3. cbn. tauto. }
  cbn [bind_out]. set (glob := limit_of _).
  assert (Hglob : forall l, limit_of (decide (l ++ [dsrc (or_default glob)])) =
      limit_of (decide (l ++ [match decide [arg_source (max_attributes a); env (lit "OTEL_ATTRIBUTE_COUNT_LIMIT")] with
                              | Limit z => Limit z | _ => Absent end; Limit 128]))).
  { intros l. induction l as [|[] l IH]; cbn [app decide]; try reflexivity; [|exact IH].
    subst glob. cbn [app decide dsrc]. destruct (arg_source (max_attributes a)); cbn [limit_of or_default]; try reflexivity.
    destruct (env (lit "OTEL_ATTRIBUTE_COUNT_LIMIT")); reflexivity. }
  pose proof (from_env_decide pylower pyint environ (max_span_attributes a) (lit "OTEL_SPAN_ATTRIBUTE_COUNT_LIMIT") (or_default glob)) as H4.
  pose proof (from_env_decide pylower pyint environ (max_event_attributes a) (lit "OTEL_EVENT_ATTRIBUTE_COUNT_LIMIT") (or_default glob)) as H5.
  pose proof (from_env_decide pylower pyint environ (max_link_attributes a) (lit "OTEL_LINK_ATTRIBUTE_COUNT_LIMIT") (or_default glob)) as H6.
  pose proof (from_env_decide pylower pyint environ (max_attribute_length a) (lit "OTEL_ATTRIBUTE_VALUE_LENGTH_LIMIT") None) as H7.
  unfold src in H4, H5, H6, H7. rewrite Hglob in H4, H5, H6.
  change (env_source pylower pyint (environ (lit "OTEL_SPAN_ATTRIBUTE_COUNT_LIMIT"))) with (env (lit "OTEL_SPAN_ATTRIBUTE_COUNT_LIMIT")) in H4.
  change (env_source pylower pyint (environ (lit "OTEL_EVENT_ATTRIBUTE_COUNT_LIMIT"))) with (env (lit "OTEL_EVENT_ATTRIBUTE_COUNT_LIMIT")) in H5.
  change (env_source pylower pyint (environ (lit "OTEL_LINK_ATTRIBUTE_COUNT_LIMIT"))) with (env (lit "OTEL_LINK_ATTRIBUTE_COUNT_LIMIT")) in H6.
  change (env_source pylower pyint (environ (lit "OTEL_ATTRIBUTE_VALUE_LENGTH_LIMIT"))) with (env (lit "OTEL_ATTRIBUTE_VALUE_LENGTH_LIMIT")) in H7.
  destruct H4 as [[-> B4]|[-> B4]].
  { split; [reflexivity|]. intros Hn. exfalso. apply Hn. rewrite B4. cbn. tauto. }
  cbn [bind_out]. destruct H5 as [[-> B5]|[-> B5]].
  { split; [reflexivity|]. intros Hn. exfalso. apply Hn. rewrite B5. cbn. tauto. }
  cbn [bind_out]. destruct H6 as [[-> B6]|[-> B6]].
  { split; [reflexivity|]. intros Hn. exfalso. apply Hn. rewrite B6. cbn. tauto. }
  cbn [bind_out]. destruct H7 as [[-> B7]|[-> B7]].
  { split; [reflexivity|]. intros Hn. exfalso. apply Hn. rewrite B7. cbn. tauto. }
  cbn [bind_out]. set (al := limit_of _).
  pose proof (from_env_decide pylower pyint environ (max_span_attribute_length a) (lit "OTEL_SPAN_ATTRIBUTE_VALUE_LENGTH_LIMIT") al) as H8.
  unfold src in H8.
  change (env_source pylower pyint (environ (lit "OTEL_SPAN_ATTRIBUTE_VALUE_LENGTH_LIMIT"))) with (env (lit "OTEL_SPAN_ATTRIBUTE_VALUE_LENGTH_LIMIT")) in H8.
  destruct H8 as [[-> B8]|[-> B8]].
  { split; [reflexivity|]. intros Hn. exfalso. apply Hn. rewrite B8. cbn. tauto. }
  cbn [bind_out]. split.
  { intros Hin. cbn [In] in Hin. exfalso. intuition congruence. }
  intros _. f_equal. unfold limits_from. f_equal.
  - subst glob. cbn [app decide]. destruct (arg_source (max_attributes a)); try reflexivity.
    destruct (env (lit "OTEL_ATTRIBUTE_COUNT_LIMIT")); reflexivity.
  - subst al. cbn [app decide dsrc]. destruct (arg_source (max_span_attribute_length a)); try reflexivity.
    destruct (env (lit "OTEL_SPAN_ATTRIBUTE_VALUE_LENGTH_LIMIT")); try reflexivity.
    destruct (arg_source (max_attribute_length a)); try reflexivity.
    destruct (env (lit "OTEL_ATTRIBUTE_VALUE_LENGTH_LIMIT")); reflexivity.
Qed.

Lemma span_limits_ok pylower pyint environ a r : span_limits pylower pyint environ a = Ok r -> limits_ok r.
Proof.
  intros E. pose proof (span_limits_spec pylower pyint environ a) as [H1 H2]. cbn zeta in *.
  set (env := fun v => env_source pylower pyint (environ v)) in *.
  assert (Hd : some_bad env a \/ ~ some_bad env a).
  { unfold some_bad. destruct (in_dec (fun x y : source => ltac:(decide equality; apply Z.eq_dec) : {x = y} + {x <> y}) Bad
      [decide (sources env (max_attributes a) "OTEL_ATTRIBUTE_COUNT_LIMIT");
          decide (sources env (max_events a) "OTEL_SPAN_EVENT_COUNT_LIMIT");
          decide (sources env (max_links a) "OTEL_SPAN_LINK_COUNT_LIMIT");
          decide (sources env (max_span_attributes a) "OTEL_SPAN_ATTRIBUTE_COUNT_LIMIT");
          decide (sources env (max_event_attributes a) "OTEL_EVENT_ATTRIBUTE_COUNT_LIMIT");
          decide (sources env (max_link_attributes a) "OTEL_LINK_ATTRIBUTE_COUNT_LIMIT");
          decide (sources env (max_attribute_length a) "OTEL_ATTRIBUTE_VALUE_LENGTH_LIMIT");
          decide (sources env (max_span_attribute_length a) "OTEL_SPAN_ATTRIBUTE_VALUE_LENGTH_LIMIT")]); [left|right]; assumption. }
  destruct Hd as [Hd|Hd]; [rewrite H1 in E by assumption; discriminate|].
  rewrite H2 in E by assumption. injection E as <-.
  assert (Hs : forall v var z, In (Limit z) (sources env v var) -> (0 <= z)%Z).
  { intros v var z [Hz|[Hz|[]]]; [now apply arg_nonneg in Hz|now apply env_nonneg in Hz]. }
  assert (Hg : forall z, global_source env a = Limit z -> (0 <= z)%Z).
  { intros z. unfold global_source. destruct (decide _) eqn:Ed; try discriminate. intros [= <-].
    apply decide_in in Ed. eapply Hs; eauto. }
  assert (Hp : forall l, (forall z, In (Limit z) l -> (0 <= z)%Z) -> not_negative (limit_of (decide l))).
  { intros l Hl z Hz. destruct (decide l) eqn:Ed; try discriminate. injection Hz as <-. apply Hl. now apply decide_in. }
  unfold limits_ok, limits_from. cbn [max_attributes max_events max_links max_span_attributes max_event_attributes
    max_link_attributes max_attribute_length max_span_attribute_length].
  assert (Hlast : forall z, In (Limit z) [Limit 128] -> (0 <= z)%Z) by (intros z [[= <-]|[]]; lia).
  assert (Hgl : forall z, In (Limit z) [global_source env a; Limit 128] -> (0 <= z)%Z).
  { intros z [Hz|Hz]; [now apply Hg|now apply Hlast]. }
  repeat apply conj; apply Hp; intros z Hz; try (apply in_app_or in Hz; destruct Hz as [Hz|Hz]);
    solve [now apply Hgl|now apply Hlast|eapply Hs; exact Hz].
Qed.

(** ** Further consequences *)
Lemma c25_step s o : sp_end s = None -> sp_start s <> None ->
  (st_code (sp_status s) = OK -> sp_status (span_call s o) = sp_status s)
  /\ (forall c d, requested o = [(c, d)] -> c = UNSET -> sp_status (span_call s o) = sp_status s)
  /\ (forall c d, requested o = [(c, d)] -> c <> UNSET -> st_code (sp_status s) <> OK ->
        sp_status (span_call s o) = St c (kept_description (c, d)))
  /\ (requested o = [] -> is_end o = false -> sp_status (span_call s o) = sp_status s).
Proof.
  intros He Hs. assert (Hne : is_ended s = false) by (unfold is_ended; now rewrite He).
  assert (Hother : requested o = [] -> sp_status (span_call s o) = sp_status s).
  { intros Hr. destruct o; cbn [span_call].
    - unfold set_attributes. now rewrite Hne.
    - unfold add_event. destruct (make_event _ _ _ _); [|reflexivity]. unfold check_ended. now rewrite Hne.
    - unfold add_link. destruct c; [|reflexivity]. destruct (is_valid_link _ _); [|reflexivity].
      destruct (make_link _ _ _); [|reflexivity]. unfold check_ended. now rewrite Hne.
    - unfold check_ended. now rewrite Hne.
    - unfold set_status, check_ended. rewrite Hne. destruct st; try discriminate. reflexivity.
    - unfold record_exception, add_event. destruct (make_event _ _ _ _); [|reflexivity]. unfold check_ended. now rewrite Hne.
    - unfold start_locked. destruct (sp_start s); reflexivity.
    - unfold end_locked. destruct (sp_start s); [|reflexivity]. now rewrite Hne. }
  assert (Hset : forall a d, requested (OSetStatus a d) <> [] -> exists c d', requested (OSetStatus a d) = [(c, d')]
     /\ span_call s (OSetStatus a d) = if code_is (st_code (sp_status s)) OK || code_is c UNSET then s else with_status (new_status c d') s).
  { intros a d Hr. cbn [span_call]. unfold set_status, check_ended. rewrite Hne.
    destruct a as [c d'|c|]; [exists c, d'|exists c, d|now destruct Hr]; split; reflexivity. }
  destruct (requested o) as [|[c d] r] eqn:Er.
  - repeat split; auto; discriminate.
  - destruct o; try discriminate. destruct (Hset st d0) as (c' & d' & E1 & E2); [congruence|].
    rewrite E1 in Er. injection Er as -> -> <-. rewrite E2. repeat split.
    + intros ->. reflexivity.
    + intros c0 d1 [= <- <-] ->. rewrite orb_true_r. reflexivity.
    + intros c0 d1 [= <- <-] Hc Hk.
      replace (code_is (st_code (sp_status s)) OK || code_is c UNSET) with false;
        [cbn; apply new_status_kept|].
      destruct (st_code (sp_status s)), c; congruence || reflexivity.
    + discriminate.
Qed.

Lemma kept_description_error r : ~ false_value (kept_description r) ->
  fst r = ERROR /\ exists sub s, kept_description r = PStr sub s.
Proof.
  destruct r as [c d]. unfold kept_description. cbn [fst snd].
  destruct d as [|[|]|sub [|z|z]|sub [|z|z]|sub [|x s]|sub [|x s]|sub [|x s]|x]; cbn; try tauto.
  destruct c; cbn; try tauto. eauto.
Qed.
Lemma c25_description lim name ctx parent kind attrs links t0 ops s :
  carries lim name ctx parent kind attrs links t0 ops s ->
  ~ false_value (st_desc (sp_status s)) ->
  st_code (sp_status s) = ERROR /\ exists sub d, st_desc (sp_status s) = PStr sub d.
Proof. intros [] H. rewrite ca_status in *. cbn in *. now apply kept_description_error. Qed.

Lemma exception_event_attrs e esc a : ba_new None (exc_pairs e [] esc) true None = Ok a ->
  ba_dict a =
  [(lit "exception.type", PStr false
      (if (str_eqb (xi_module e) [] || str_eqb (xi_module e) (lit "builtins"))%bool then xi_qualname e
       else xi_module e ++ lit "." ++ xi_qualname e));
   (lit "exception.message", PStr false (xi_str e));
   (lit "exception.stacktrace", PStr false (xi_stack e));
   (lit "exception.escaped", PStr false (if esc then lit "True" else lit "False"))] /\ ba_dropped a = 0.
Proof.
  assert (Ht : exception_type e = if (str_eqb (xi_module e) [] || str_eqb (xi_module e) (lit "builtins"))%bool then xi_qualname e
       else xi_module e ++ lit "." ++ xi_qualname e).
  { unfold exception_type. destruct (xi_module e) as [|c m]; [reflexivity|]. reflexivity. }
  rewrite <- Ht. intros [= <-]. cbn [ba_dict ba_dropped].
  unfold exc_pairs, exc_attributes. generalize (exception_type e) as ty. intros ty. split; reflexivity.
Qed.

Definition as_pairs (d : dict str pyval) : pairs := map (fun kv => (PStr false (fst kv), snd kv)) d.
Lemma pset_as_pairs k v d : pset (PStr false k) v (as_pairs d) = as_pairs (dset k v d).
Proof.
  induction d as [|[k' v'] d IH]; [reflexivity|]. cbn [as_pairs map pset same_key fst snd dset].
  destruct (eq_dec k k') as [->|N].
  - assert (E : str_eqb k' k' = true) by now apply str_eqb_eq. rewrite E. reflexivity.
  - destruct (str_eqb k k') eqn:E; [apply str_eqb_eq in E; contradiction|]. cbn [as_pairs map fst snd]. f_equal. exact IH.
Qed.
Lemma pupdate_as_pairs d e : pupdate (as_pairs d) (as_pairs e) = as_pairs (dupdate d e).
Proof.
  unfold pupdate, dupdate. revert d. induction e as [|[k v] e IH]; intros d; [reflexivity|].
  cbn [as_pairs map fold_left fst snd]. rewrite pset_as_pairs. apply IH.
Qed.
Lemma takes_as_pairs d : (forall k v, In (k, v) d -> k <> [] /\ cleaned None v v) -> takes None (as_pairs d) d.
Proof.
  induction d as [|[k v] d IH]; intros H; [constructor|]. cbn [as_pairs map fst snd].
  destruct (H k v (or_introl eq_refl)). constructor; auto. apply IH. intros k' v' Hin. apply H. now right.
Qed.
Lemma latest_unique (d : dict str pyval) : NoDup (keys d) -> latest d = d.
Proof.
  induction d as [|[k v] d IH]; intros N; [reflexivity|]. cbn [latest keys map fst] in *. inversion N; subst.
  destruct (in_dec eq_dec k (map fst d)); [contradiction|]. f_equal. now apply IH.
Qed.
Lemma In_dset_ (k : str) (v : pyval) d kv : In kv (dset k v d) -> kv = (k, v) \/ In kv d.
Proof.
  induction d as [|[k' v'] d IH]; cbn [dset In]; [intros [<-|[]]; now left|].
  destruct (eq_dec k k') as [->|N]; cbn [In]; [intros [<-|H]; auto|]. intros [<-|H]; [auto|]. destruct (IH H); auto.
Qed.
Lemma In_dupdate_ (e d : dict str pyval) kv : In kv (dupdate d e) -> In kv d \/ In kv e.
Proof.
  revert d. induction e as [|[k v] e IH]; intros d H; [now left|]. unfold dupdate in *. cbn [fold_left fst snd] in H.
  destruct (IH _ H) as [H'|H']; [|right; now right]. destruct (In_dset_ _ _ _ _ H') as [->|H'']; [right; now left|now left].
Qed.
Lemma exception_attrs_override e esc d a : NoDup (keys d) -> (forall k v, In (k, v) d -> k <> [] /\ cleaned None v v) ->
  ba_new None (exc_pairs e (as_pairs d) esc) true None = Ok a ->
  forall k, dget k (ba_dict a) = match dget k d with Some v => Some v | None => dget k (exc_attributes e esc) end.
Proof.
  intros Nd Hd H k. unfold exc_pairs in H.
  change (map (fun kv => (PStr false (fst kv), snd kv)) (exc_attributes e esc)) with (as_pairs (exc_attributes e esc)) in H.
  rewrite pupdate_as_pairs in H.
  assert (N0 : NoDup (keys (exc_attributes e esc))).
  { cbn [exc_attributes keys map fst]. repeat constructor; cbn [In]; intuition discriminate. }
  assert (T : takes None (as_pairs (dupdate (exc_attributes e esc) d)) (dupdate (exc_attributes e esc) d)).
  { apply takes_as_pairs. intros k' v' Hin. apply In_dupdate_ in Hin. destruct Hin as [Hin|Hin]; [|now apply Hd].
    cbn [exc_attributes In] in Hin.
    assert (P : forall x, cleaned None (PStr false x) (PStr false x)) by (intros x; apply cl_primitive; apply (cl_str None false); reflexivity).
    destruct Hin as [[= <- <-]|[[= <- <-]|[[= <- <-]|[[= <- <-]|[]]]]]; (split; [discriminate|apply P]). }
  rewrite (ba_new_taken None _ _ None a _ H T), latest_unique by now apply NoDup_dupdate.
  now apply dget_dupdate.
Qed.

Lemma string_keys_in l k : In k (string_keys l) <-> exists v, holds l k v.
Proof.
  unfold string_keys, holds. split.
  - intro I. apply in_flat_map in I as ([key v] & I & E). cbn [fst] in E. destruct key; try contradiction. destruct E as [->|[]]. eauto.
  - intros (v & sub & I). apply in_flat_map. exists (PStr sub k, v). split; [exact I|now left].
Qed.
Lemma pset_other k v d : (forall sub x, k <> PStr sub x) -> pset k v d = d ++ [(k, v)].
Proof.
  intro N. induction d as [|[k' v'] d IH]; [reflexivity|]. cbn [pset].
  assert (E : same_key k k' = false) by (destruct k; try reflexivity; now destruct (N sub s)).
  rewrite E, IH. reflexivity.
Qed.
Lemma string_keys_app l l' : string_keys (l ++ l') = string_keys l ++ string_keys l'.
Proof. apply flat_map_app. Qed.
Lemma pset_string sub x v d : NoDup (string_keys d) ->
  NoDup (string_keys (pset (PStr sub x) v d))
  /\ (forall y, In y (string_keys (pset (PStr sub x) v d)) <-> y = x \/ In y (string_keys d))
  /\ (forall y w, holds (pset (PStr sub x) v d) y w <-> (y = x /\ w = v) \/ (y <> x /\ holds d y w)).
Proof.
  induction d as [|[k' v'] d IH]; intro ND.
  - cbn. split; [repeat constructor; intros []|]. split; [intuition congruence|]. intros y w. unfold holds. split.
    + intros (s & [[= _ -> ->]|[]]). now left.
    + intros [[-> ->]|[_ (s & [])]]. exists sub. now left.
  - cbn [pset]. destruct k'; cbn [same_key].
    5:{ cbn [string_keys flat_map fst app] in ND. fold (string_keys d) in ND. apply NoDup_cons_iff in ND as [NI ND].
      destruct (str_eqb x s) eqn:E.
      - apply str_eqb_eq in E. subst s. split; [cbn [string_keys flat_map fst app]; now constructor|]. split.
        + intro y. cbn [string_keys flat_map fst app In]. intuition congruence.
        + intros y w. unfold holds. split.
          * intros (s & [[= _ -> ->]|I]); [now left|]. right. split; [|exists s; now right].
            intros ->. apply NI, string_keys_in. exists w, s. exact I.
          * intros [[-> ->]|[N (s & [[= _ -> _]|I])]]; [eexists; now left|contradiction|exists s; now right].
      - assert (N : x <> s) by (intros ->; now rewrite (proj2 (str_eqb_eq s s) eq_refl) in E).
        destruct (IH ND) as (I1 & I2 & I3). cbn [string_keys flat_map fst app]. fold (string_keys (pset (PStr sub x) v d)). fold (string_keys d).
        split; [constructor; [|exact I1]; intro I; apply I2 in I as [->|I]; contradiction|]. split.
        + intro y. cbn [In]. rewrite I2. intuition congruence.
        + intros y w. assert (Hc : forall q, holds ((PStr sub0 s, v') :: q) y w <-> (y = s /\ w = v') \/ holds q y w).
          { intro q. unfold holds. split.
            - intros (s0 & [[= _ -> ->]|I]); [now left|right; eauto].
            - intros [[-> ->]|(s0 & I)]; [eexists; now left|exists s0; now right]. }
          rewrite !Hc, I3. split.
          * intros [[-> ->]|[H|[N' H]]]; [right; split; [congruence|now left]|now left|right; split; [exact N'|now right]].
          * intros [H|[N' [H|H]]]; [right; now left|now left|right; right; now split]. }
    all: destruct (IH ND) as (I1 & I2 & I3); (split; [exact I1|]); (split; [exact I2|]); intros y w;
      assert (Hc : forall k q, (forall s z, k <> PStr s z) -> holds ((k, v') :: q) y w <-> holds q y w)
        by (intros k q N; unfold holds; split; [intros (s0 & [[= -> _]|I]); [now destruct (N s0 y)|eauto]|intros (s0 & I); exists s0; now right]);
      rewrite !Hc by discriminate; apply I3.
Qed.
Lemma pupdate_holds e : forall d, NoDup (string_keys d) -> NoDup (string_keys e) ->
  NoDup (string_keys (pupdate d e))
  /\ (forall y w, holds (pupdate d e) y w <-> holds e y w \/ (holds d y w /\ ~ In y (string_keys e))).
Proof.
  induction e as [|[k v] e IH]; intros d Nd Ne.
  - split; [exact Nd|]. intros y w. cbn. split; [intro H; right; split; [exact H|intros []]|]. intros [(s & [])|[H _]]. exact H.
  - change (pupdate d ((k, v) :: e)) with (pupdate (pset k v d) e).
    assert (C : (exists sub x, k = PStr sub x) \/ (forall sub x, k <> PStr sub x)) by (destruct k; (left; eauto; fail) || (right; discriminate)).
    destruct C as [(sub & x & ->)|N].
    + cbn [string_keys flat_map fst app] in Ne. fold (string_keys e) in Ne. apply NoDup_cons_iff in Ne as [NI Ne].
      destruct (pset_string sub x v d Nd) as (P1 & P2 & P3). destruct (IH _ P1 Ne) as [H1 H2]. split; [exact H1|].
      intros y w. rewrite H2, P3. cbn [string_keys flat_map fst app In]. fold (string_keys e).
      assert (Hc : holds ((PStr sub x, v) :: e) y w <-> (y = x /\ w = v) \/ holds e y w).
      { unfold holds. split.
        - intros (s0 & [[= _ -> ->]|I]); [now left|right; eauto].
        - intros [[-> ->]|(s0 & I)]; [eexists; now left|exists s0; now right]. }
      rewrite Hc. split.
      * intros [H|[[[-> ->]|[N H]] M]]; [left; now right|left; now left|]. right. split; [exact H|]. intros [->|I]; contradiction.
      * intros [[[-> ->]|H]|[H M]]; [right; split; [now left|exact NI]|now left|]. right. split; [right; split; [|exact H]; intros ->; apply M; now left|]. intro I. apply M. now right.
    + rewrite pset_other by exact N.
      assert (Sk : string_keys [(k, v)] = []) by (destruct k; try reflexivity; now destruct (N sub s)).
      assert (Ske : string_keys ((k, v) :: e) = string_keys e) by (change ((k, v) :: e) with ([(k, v)] ++ e); now rewrite string_keys_app, Sk).
      rewrite Ske in Ne.
      assert (Skd : string_keys (d ++ [(k, v)]) = string_keys d) by now rewrite string_keys_app, Sk, app_nil_r.
      destruct (IH (d ++ [(k, v)])) as [H1 H2]; [now rewrite Skd|exact Ne|]. split; [exact H1|]. intros y w. rewrite H2, Ske.
      assert (Hd : holds (d ++ [(k, v)]) y w <-> holds d y w).
      { unfold holds. split; intros (s0 & I); exists s0; [|apply in_or_app; now left]. apply in_app_or in I as [I|[[= -> _]|[]]]; [exact I|now destruct (N s0 y)]. }
      assert (He : holds ((k, v) :: e) y w <-> holds e y w).
      { unfold holds. split; intros (s0 & I); exists s0; [|now right]. destruct I as [[= -> _]|I]; [now destruct (N s0 y)|exact I]. }
      now rewrite Hd, He.
Qed.
Lemma takes_holds l t : takes None l t -> NoDup (string_keys l) ->
  NoDup (map fst t) /\ forall k v', In (k, v') t <-> exists v, holds l k v /\ k <> [] /\ cleaned None v v'.
Proof.
  intro T. induction T as [|sub k v v' rest t Nk C T IH|key v rest t No T IH]; intro ND.
  - split; [constructor|]. intros k v'. split; [intros []|]. intros (v & (s & []) & _).
  - cbn [string_keys flat_map fst app] in ND. fold (string_keys rest) in ND. apply NoDup_cons_iff in ND as [NI ND].
    destruct (IH ND) as [I1 I2]. split.
    + cbn [map fst]. constructor; [|exact I1]. intro I. apply in_map_iff in I as ([k0 w] & E & I). cbn [fst] in E. subst k0.
      apply I2 in I as (w0 & H & _). apply NI, string_keys_in. eauto.
    + intros k0 w. cbn [In]. rewrite I2. split.
      * intros [[= <- <-]|(w0 & (s & I) & H)]; [exists v; split; [exists sub; now left|now split]|exists w0; split; [exists s; now right|exact H]].
      * intros (w0 & (s & [[= _ -> ->]|I]) & N0 & C0); [left; f_equal; eapply cleaned_det; eauto|right; exists w0; split; [now exists s|now split]].
  - assert (NDr : NoDup (string_keys rest)).
    { unfold string_keys in *. cbn [flat_map fst] in ND. destruct key; cbn [app] in ND; try exact ND. now apply NoDup_cons_iff in ND as [_ ND]. }
    destruct (IH NDr) as [I1 I2]. split; [exact I1|]. intros k0 w. rewrite I2. split.
    + intros (w0 & (s & I) & H). exists w0. split; [exists s; now right|exact H].
    + intros (w0 & (s & [[= -> ->]|I]) & N0 & C0); [now destruct (No s k0 w eq_refl N0)|]. exists w0. split; [now exists s|now split].
Qed.
Lemma dget_unique (d : dict str pyval) k v : NoDup (map fst d) -> In (k, v) d -> dget k d = Some v.
Proof.
  induction d as [|[k' v'] d IH]; intros ND I; [destruct I|]. cbn [map fst] in ND. apply NoDup_cons_iff in ND as [NI ND]. cbn [dget].
  destruct I as [[= -> ->]|I].
  - destruct (eq_dec k k); [reflexivity|contradiction].
  - destruct (eq_dec k k') as [->|N]; [|now apply IH]. destruct NI. apply in_map_iff. now exists (k', v).
Qed.
Lemma dget_some_in (d : dict str pyval) k v : dget k d = Some v -> In (k, v) d.
Proof.
  induction d as [|[k' v'] d IH]; cbn [dget]; [discriminate|]. destruct (eq_dec k k') as [->|N]; [intros [= ->]; now left|]. intro E. right. now apply IH.
Qed.
Lemma exception_attrs_any e esc given a : NoDup (string_keys given) ->
  ba_new None (exc_pairs e given esc) true None = Ok a ->
  forall k,
    (forall v v', holds given k v -> k <> [] -> cleaned None v v' -> dget k (ba_dict a) = Some v')
    /\ (forall v, holds given k v -> (k = [] \/ forall v', ~ cleaned None v v') -> dget k (ba_dict a) = None)
    /\ ((forall v, ~ holds given k v) -> dget k (ba_dict a) = dget k (exc_attributes e esc)).
Proof.
  intros Ng H k.
  assert (N0 : NoDup (string_keys (as_pairs (exc_attributes e esc)))).
  { cbn. repeat constructor; cbn [In]; intuition discriminate. }
  unfold exc_pairs in H. change (map (fun kv => (PStr false (fst kv), snd kv)) (exc_attributes e esc)) with (as_pairs (exc_attributes e esc)) in H.
  destruct (pupdate_holds given _ N0 Ng) as [N1 P]. set (l := pupdate _ _) in *.
  pose proof (accepted_taken None l) as T. set (t := accepted (zlim None) l) in *. clearbody t.
  rewrite (ba_new_taken None _ _ None a _ H T). destruct (takes_holds _ _ T N1) as [Nt It]. rewrite latest_unique by exact Nt.
  split; [|split].
  - intros v v' Hh Nk C. apply dget_unique; [exact Nt|]. apply It. exists v. split; [|now split]. apply P. now left.
  - intros v (s1 & Hh) B. destruct (dget k t) as [w|] eqn:G; [|reflexivity]. exfalso. apply dget_some_in, It in G as (w0 & Hw & Nk & C).
    apply P in Hw as [(s2 & Hw)|[_ M]].
    + assert (E : v = w0).
      { clear - Ng Hh Hw. induction given as [|[k1 x] given IH]; [destruct Hh|].
        destruct Hh as [[= -> ->]|Hh], Hw as [E2|Hw]; [congruence| | |].
        - cbn [string_keys flat_map fst app] in Ng. apply NoDup_cons_iff in Ng as [NI _]. destruct NI. apply string_keys_in. exists w0, s2. exact Hw.
        - injection E2 as -> ->. cbn [string_keys flat_map fst app] in Ng. apply NoDup_cons_iff in Ng as [NI _]. destruct NI. apply string_keys_in. exists v, s1. exact Hh.
        - apply IH; [|exact Hh|exact Hw]. unfold string_keys in *. cbn [flat_map fst] in Ng. destruct k1; cbn [app] in Ng; try exact Ng. now apply NoDup_cons_iff in Ng as [_ Ng]. }
      subst w0. destruct B as [->|B]; [now apply Nk|now apply (B w)].
    + apply M, string_keys_in. exists v, s1. exact Hh.
  - intro No. assert (M : ~ In k (string_keys given)) by (intro I; apply string_keys_in in I as [v Hv]; now apply (No v)).
    assert (Pc : forall x, cleaned None (PStr false x) (PStr false x)) by (intros x; apply cl_primitive; apply (cl_str None false); reflexivity).
    destruct (dget k (exc_attributes e esc)) as [w|] eqn:G.
    + apply dget_some_in in G. apply dget_unique; [exact Nt|]. apply It. exists w. split; [|].
      * apply P. right. split; [|exact M]. exists false. apply in_map_iff. exists (k, w). split; [reflexivity|exact G].
      * cbn [exc_attributes In] in G. destruct G as [[= <- <-]|[[= <- <-]|[[= <- <-]|[[= <- <-]|[]]]]]; (split; [discriminate|apply Pc]).
    + destruct (dget k t) as [w|] eqn:G'; [|reflexivity]. exfalso. apply dget_some_in, It in G' as (w0 & Hw & _).
      apply P in Hw as [Hw|[(s & Hw) _]]; [now apply (No w0)|].
      unfold as_pairs in Hw. apply in_map_iff in Hw as ([k2 v2] & E & I). injection E as <- -> ->.
      rewrite (dget_unique (exc_attributes e esc) k w0) in G; [discriminate| |exact I].
      cbn [exc_attributes map fst]. repeat constructor; cbn [In]; intuition discriminate.
Qed.

Lemma exit_with_exception s e tname now1 now2 : limits_ok (sp_limits s) -> sp_start s <> None -> sp_end s = None ->
  let s' := fold_left span_call (exit_calls true true (Some (e, tname)) now1 now2) s in
  sp_end s' = Some now2
  /\ sp_status s' = (if code_is (st_code (sp_status s)) OK then sp_status s
                     else St ERROR (PStr false (tname ++ lit ": " ++ xi_str e)))
  /\ (exists ev, sp_events s' = bl_append ev (sp_events s)
                 /\ event_of (sp_limits s) (ORecordException e [] None true now1) ev)
  /\ sp_name s' = sp_name s /\ sp_attrs s' = sp_attrs s /\ sp_links s' = sp_links s /\ sp_ctx s' = sp_ctx s
  /\ sp_start s' = sp_start s.
Proof.
  intros Hl Hs He s'. assert (Hne : is_ended s = false) by (unfold is_ended; now rewrite He).
  destruct (make_event_of (sp_limits s) (lit "exception") (exc_pairs e [] true) (or_now None now1) Hl) as (ev & E & E1 & E2 & E3).
  set (d := PStr false (tname ++ lit ": " ++ xi_str e)).
  set (s1 := with_events (bl_append ev (sp_events s)) s).
  set (s2 := if code_is (st_code (sp_status s)) OK then s1 else with_status (St ERROR d) s1).
  assert (Hd : new_status ERROR d = St ERROR d).
  { subst d. unfold new_status. cbn. destruct tname; reflexivity. }
  assert (Es : s' = end_locked None now2 s2).
  { subst s'. unfold exit_calls. cbn [app fold_left span_call]. unfold record_exception, add_event. rewrite E.
    unfold check_ended. rewrite Hne. fold s1. f_equal.
    unfold set_status, check_ended. change (is_ended s1) with (is_ended s). rewrite Hne.
    fold d. rewrite Hd. change (sp_status s1) with (sp_status s). cbn [code_is]. rewrite orb_false_r. reflexivity. }
  rewrite Es. clear Es s'.
  assert (S2 : sp_start s2 = sp_start s /\ sp_end s2 = None /\ sp_events s2 = bl_append ev (sp_events s)
    /\ sp_name s2 = sp_name s /\ sp_attrs s2 = sp_attrs s /\ sp_links s2 = sp_links s /\ sp_ctx s2 = sp_ctx s
    /\ sp_status s2 = (if code_is (st_code (sp_status s)) OK then sp_status s else St ERROR d)).
  { subst s2. destruct (code_is (st_code (sp_status s)) OK); cbn; auto 10. }
  destruct S2 as (A1 & A2 & A3 & A4 & A5 & A6 & A7 & A8). clearbody s2 d.
  unfold end_locked, is_ended. rewrite A1, A2. destruct (sp_start s) eqn:Est; [|congruence].
  unfold with_end; cbn [sp_end sp_status sp_events sp_name sp_attrs sp_links sp_ctx sp_start].
  split; [reflexivity|]. split; [exact A8|]. split; [|repeat split; assumption || congruence].
  exists ev. split; [assumption|]. constructor; assumption.
Qed.

Lemma exit_ends s e flags1 flags2 now1 now2 : sp_start s <> None ->
  sp_end (fold_left span_call (exit_calls flags1 flags2 e now1 now2) s) <> None.
Proof.
  intros Hs. unfold exit_calls.
  assert (Hg : forall ops s, sp_start s <> None -> forallb (fun o => negb (is_end o)) ops = true ->
      sp_end (fold_left span_call (ops ++ [OEnd None now2]) s) <> None).
  { clear. induction ops as [|o ops IH]; intros s Hs Ho.
    - cbn. unfold end_locked. destruct (sp_start s); [|congruence]. unfold is_ended. destruct (sp_end s) eqn:E; cbn; congruence.
    - cbn in Ho. apply andb_true_iff in Ho as [Ho1 Ho2]. apply negb_true_iff in Ho1. cbn [app fold_left].
      apply IH; [|assumption]. destruct (call_keeps s o Ho1 Hs) as (_ & _ & _ & _ & E & _). cbn zeta in E. congruence. }
  apply Hg; [assumption|]. destruct e as [[x t]|]; [|reflexivity]. destruct flags1, flags2; reflexivity.
Qed.
