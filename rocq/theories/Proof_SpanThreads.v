(** Proofs about spans that several threads use. *)
From Verif Require Import Spec_SpanThreads Proof_Span.
From Coq Require Import Lia.
Local Open Scope nat_scope.

Section Proofs.
Variables (warns : pyval * pyval -> nat) (warned : sop -> nat) (handler processor : list scall).
Notation tstep := (tstep warns warned handler processor).
Notation tmove := (tmove warns warned handler processor).
Notation enter := (enter handler).

Definition inside (f : frame) : bool := match f with FItems _ | FClean _ _ | FStore _ _ _ | FLeave => true | _ => false end.
Definition is_view (f : frame) : bool := match f with FView _ _ => true | _ => false end.
Definition ins (l : list frame) := filter inside l.
Definition views (l : list frame) := filter is_view l.
Definition items (l : pairs) (a : battrs) : battrs := fold_left (fun a kv => ba_step a (BSet (fst kv) (snd kv))) l a.
Definition finish (f : frame) (s : sdk_span) : sdk_span :=
  match f with
  | FItems l => dict_step (items l) s
  | FClean kv l => dict_step (items (kv :: l)) s
  | FStore k v l => dict_step (fun a => items l (store_attr k v a)) s
  | _ => s
  end.
Definition frame_ok (f : frame) (s : sdk_span) : Prop :=
  match f with
  | FItems _ | FStore _ _ _ => is_ended s = false
  | FClean _ _ => is_ended s = false /\ ba_immutable (sp_attrs s) = false /\ ba_maxlen (sp_attrs s) <> Some 0
  | _ => True
  end.

(** ** Storing an attribute in three steps *)
Lemma store_steps k v kv a : ba_immutable a = false -> ba_maxlen a <> Some 0 -> valid_key (fst kv) = Some k ->
  clean_attribute (fst kv) (snd kv) (ba_max_value_len a) = Some v -> ba_step a (BSet (fst kv) (snd kv)) = store_attr k v (make_room k a).
Proof.
  destruct a as [ml mv im d dr]. cbn [ba_immutable ba_maxlen ba_max_value_len]. intros -> L K C. unfold ba_step, ba_set. cbn [ba_immutable]. unfold ba_set_raw. cbn [ba_maxlen ba_max_value_len ba_dict ba_dropped ba_immutable].
  rewrite K, C. unfold bput, make_room, store_attr, put_dict. cbn [ba_maxlen ba_max_value_len ba_dict ba_dropped ba_immutable].
  destruct ml as [[|n]|]; [congruence| |]; destruct (dmem k d); cbn [ba_maxlen ba_max_value_len ba_dict ba_dropped ba_immutable]; try reflexivity.
  destruct (Nat.eqb (length d) (S n)); reflexivity.
Qed.
Lemma store_none kv a : ba_immutable a = false -> ba_maxlen a <> Some 0 -> (valid_key (fst kv) = None \/ clean_attribute (fst kv) (snd kv) (ba_max_value_len a) = None) ->
  ba_step a (BSet (fst kv) (snd kv)) = a.
Proof.
  intros I L H. unfold ba_step, ba_set. rewrite I. unfold ba_set_raw. destruct (ba_maxlen a) as [[|n]|] eqn:M; [congruence| |]; destruct (valid_key (fst kv)); destruct H as [H|H]; try rewrite H; reflexivity || discriminate.
Qed.
Lemma store_zero kv a : ba_immutable a = false -> ba_maxlen a = Some 0 -> ba_step a (BSet (fst kv) (snd kv)) = put_dict (ba_dict a) (S (ba_dropped a)) a.
Proof. intros I L. unfold ba_step, ba_set. rewrite I. unfold ba_set_raw. rewrite L. unfold put_dict. now rewrite L. Qed.
Lemma store_immutable kv a : ba_immutable a = true -> ba_step a (BSet (fst kv) (snd kv)) = a.
Proof. intros I. unfold ba_step, ba_set. now rewrite I. Qed.
Lemma dict_step_id s : dict_step (fun a => a) s = s.
Proof. now destruct s. Qed.
Lemma dict_step_step f g s : dict_step g (dict_step f s) = dict_step (fun a => g (f a)) s.
Proof. reflexivity. Qed.

Lemma enter_call o s : sp_start s <> None -> exists s' fs f, enter o s = (s', fs) /\ ins fs = [f] /\ finish f s' = span_call s o /\ frame_ok f s'
  /\ length (views fs) = (match o with OEnd _ _ => match sp_start s with Some _ => if is_ended s then 0 else 1 | None => 0 end | _ => 0 end)
  /\ (forall g, In g fs -> is_view g = true -> g = FView None None).
Proof.
  intros S. assert (W : forall (b : bool) g, In g (if b then [FLeave; FCalls handler] else [FLeave]) -> is_view g = true -> g = FView None None)
    by (intros [] g I V; cbn in I; intuition (subst; discriminate)).
  destruct o; cbn [Model_SpanThreads.enter]; try (eexists _, _, FLeave; split; [reflexivity|]; destruct (is_ended s); repeat split; first [apply (W true)|apply (W false)]; fail).
  - destruct (is_ended s) eqn:E.
    + exists s, [FCalls handler; FLeave], FLeave. cbn. unfold set_attributes. rewrite E. repeat split; cbn; intuition (subst; discriminate).
    + exists s, [FItems attrs], (FItems attrs). cbn. unfold set_attributes. rewrite E. repeat split; cbn; try assumption; intuition (subst; discriminate).
  - destruct (sp_start s) as [x|] eqn:E; [|congruence]. exists s, [FCalls handler; FLeave], FLeave. split; [unfold start_locked; now rewrite E|]. repeat split; cbn; unfold start_locked; rewrite ?E; try reflexivity; intuition (subst; discriminate).
  - destruct (sp_start s) as [x|] eqn:E; [|congruence]. destruct (is_ended s) eqn:D.
    + exists s, [FCalls handler; FLeave], FLeave. split; [unfold end_locked; now rewrite E, D|]. repeat split; cbn; unfold end_locked; rewrite ?E, ?D; try reflexivity; intuition (subst; discriminate).
    + eexists _, [FLeave; FView None None], FLeave. split; [reflexivity|]. repeat split; cbn; unfold end_locked; rewrite ?E, ?D; try reflexivity. intros g [<-|[<-|[]]]; [discriminate|reflexivity].
Qed.
Lemma no_lock o s : takes_lock (sp_limits s) o = false -> span_call s o = s.
Proof.
  destruct o; cbn [takes_lock span_call add_link]; try discriminate.
  - unfold add_event. now destruct (make_event _ _ _ _).
  - destruct c as [sc|]; [|reflexivity]. unfold add_link. destruct (is_valid_link (Some sc) attrs); cbn [andb]; [|reflexivity]. now destruct (make_link _ _ _).
  - unfold record_exception, add_event. now destruct (make_event _ _ _ _).
Qed.
Lemma ended_call s o : is_ended s = true -> sp_start s <> None -> span_call s o = s.
Proof.
  intros E S. destruct o; cbn; unfold set_attributes, add_event, add_link, set_status, record_exception, add_event, start_locked, end_locked, check_ended; rewrite ?E; try reflexivity.
  - now destruct (make_event _ _ _ _).
  - destruct c; [|reflexivity]. destruct (is_valid_link _ _); [|reflexivity]. now destruct (make_link _ _ _).
  - now destruct (make_event _ _ _ _).
  - destruct (sp_start s); [reflexivity|congruence].
  - destruct (sp_start s); reflexivity.
Qed.

Lemma check_start f s : (forall s, sp_start (f s) = sp_start s) -> sp_start (check_ended f s) = sp_start s.
Proof. intros H. unfold check_ended. destruct (is_ended s); auto. Qed.
Lemma call_start s o : sp_start s <> None -> sp_start (span_call s o) <> None.
Proof.
  intros S. destruct o; cbn [span_call].
  - unfold set_attributes. now destruct (is_ended s).
  - unfold add_event. destruct (make_event _ _ _ _); [|exact S]. rewrite check_start; auto.
  - unfold add_link. destruct c; [|exact S]. destruct (is_valid_link _ _); [|exact S]. destruct (make_link _ _ _); [|exact S]. rewrite check_start; auto.
  - rewrite check_start; auto.
  - unfold set_status. rewrite check_start; auto. intros x. destruct st; try reflexivity; destruct (_ || _)%bool; reflexivity.
  - unfold record_exception, add_event. destruct (make_event _ _ _ _); [|exact S]. rewrite check_start; auto.
  - unfold start_locked. destruct (sp_start s) eqn:E; [rewrite E; discriminate|congruence].
  - unfold end_locked. destruct (sp_start s) eqn:E; [|congruence]. destruct (is_ended s); cbn; congruence.
Qed.

(** ** The invariant *)
Definition related (m : machine) (w : sworld) : Prop :=
  let fs := concat (m_threads m) in
  match ins fs with
  | [] => m_lock m = None /\ m_span m = w_span w
  | [f] => m_lock m <> None /\ finish f (m_span m) = w_span w /\ frame_ok f (m_span m)
  | _ => False
  end
  /\ w_pending w = length (views fs)
  /\ (forall n st, In (FView n st) fs -> is_ended (w_span w) = true /\ (forall x, n = Some x -> x = sp_name (w_span w)) /\ (forall x, st = Some x -> x = sp_status (w_span w)))
  /\ ended_spans (w_log w) = handed_over (m_log m)
  /\ sp_start (w_span w) <> None.

Lemma split_threads (l : list (list frame)) t st : nth_error l t = Some st -> exists a b, l = a ++ st :: b /\ length a = t /\ forall x, put_nth t x l = a ++ x :: b.
Proof.
  revert t. induction l as [|y l IH]; intros [|t] E; try discriminate; cbn in E.
  - injection E as ->. exists [], l. auto.
  - destruct (IH t E) as (a & b & -> & L & P). exists (y :: a), b. split; [reflexivity|]. split; [cbn; auto|]. intros x. cbn. now rewrite P.
Qed.
Lemma ins_app a b : ins (a ++ b) = ins a ++ ins b. Proof. apply filter_app. Qed.
Lemma views_app a b : views (a ++ b) = views a ++ views b. Proof. apply filter_app. Qed.
Lemma ins_handlers n : ins (repeat (FCalls handler) n) = []. Proof. induction n; auto. Qed.
Lemma views_handlers n : views (repeat (FCalls handler) n) = []. Proof. induction n; auto. Qed.
Lemma handlers_in n f : In f (repeat (FCalls handler) n) -> f = FCalls handler. Proof. apply repeat_spec. Qed.
Lemma finish_end f s : sp_end (finish f s) = sp_end s. Proof. now destruct f. Qed.
Lemma finish_limits f s : sp_limits (finish f s) = sp_limits s. Proof. now destruct f. Qed.

Lemma related_limits m w : related m w -> sp_limits (m_span m) = sp_limits (w_span w).
Proof. intros (I & _). destruct (ins _) as [|f [|g l]]; [now destruct I as [_ ->]|destruct I as (_ & <- & _); symmetry; apply finish_limits|contradiction]. Qed.
Lemma related_ended m w : related m w -> is_ended (w_span w) = true -> m_span m = w_span w.
Proof.
  intros (I & _) E. destruct (ins (concat (m_threads m))) as [|f [|g l]] eqn:Q; [tauto| |contradiction]. destruct I as (_ & F & O).
  assert (D : is_ended (m_span m) = true) by (unfold is_ended in *; rewrite <- F in E; now rewrite finish_end in E).
  assert (IN : inside f = true). { assert (X : In f (ins (concat (m_threads m)))) by (rewrite Q; now left). unfold ins in X. now apply filter_In in X. }
  destruct f; try discriminate IN; cbn in O; try exact F; try congruence. destruct O; congruence.
Qed.

(** A step that changes only frames that are neither inside the lock nor views *)
Lemma related_plain m w a f new st b m' log : related m w -> m_threads m = a ++ (f :: st) :: b -> inside f = false -> is_view f = false ->
  ins new = [] -> views new = [] -> (forall g, In g new -> is_view g = false) ->
  m' = Machine (m_span m) (m_lock m) (a ++ (new ++ st) :: b) (m_log m ++ log) -> handed_over log = [] -> related m' w.
Proof.
  intros (I & P & V & G & S) T If Vf In_ Vn Vg -> H. unfold related in *. cbn [m_threads m_span m_lock m_log] in *. rewrite T in *. rewrite !concat_app in *. cbn [concat] in *. rewrite !ins_app, !views_app in *.
  cbn [app] in *. unfold ins at 2 in I. unfold views at 2 in P. cbn [filter] in *. rewrite If in *. rewrite Vf in *. fold (ins st) in I. rewrite In_, Vn. cbn [app].
  fold (views st) in P. rewrite ?ins_app, ?views_app in *.
  split; [exact I|]. split; [exact P|]. split; [|split; [|exact S]].
  - intros n x Q. apply (V n x). rewrite !in_app_iff in *. cbn. rewrite in_app_iff. destruct Q as [Q|[[Q|Q]|Q]]; try tauto. apply Vg in Q. discriminate.
  - unfold handed_over in *. now rewrite flat_map_app, H, app_nil_r.
Qed.
(** A step inside the lock *)
Lemma related_inner m w a f new g st b s' lock : related m w -> m_threads m = a ++ (f :: st) :: b -> inside f = true ->
  ins new = [g] -> views new = [] -> (forall h, In h new -> is_view h = false) ->
  (frame_ok f (m_span m) -> finish g s' = finish f (m_span m) /\ frame_ok g s') -> lock = m_lock m ->
  related (Machine s' lock (a ++ (new ++ st) :: b) (m_log m ++ [])) w.
Proof.
  intros (I & P & V & G & S) T If In_ Vn Vg K ->. unfold related in *. cbn [m_threads m_span m_lock m_log] in *. rewrite T in *. rewrite !concat_app in *. cbn [concat] in *. rewrite !ins_app, !views_app in *.
  cbn [app] in *. unfold ins at 2 in I. unfold views at 2 in P. cbn [filter] in *. rewrite If in *. fold (ins st) in I. fold (views st) in P.
  assert (Vf : is_view f = false) by (destruct f; (discriminate If || reflexivity)). rewrite Vf in P. rewrite In_, Vn. cbn [app] in *. rewrite ?ins_app, ?views_app in *.
  destruct (ins (concat a)) as [|x l]; cbn [app] in *; [|destruct l; cbn in I; contradiction].
  destruct (ins st ++ ins (concat b)) as [|x l] eqn:Q; [|contradiction].
  destruct I as (L & F & O). destruct (K O) as [F' O']. split; [|split; [exact P|split; [|split; [|exact S]]]].
  - split; [exact L|]. split; [congruence|exact O'].
  - intros n x J. apply (V n x). rewrite !in_app_iff in *. cbn. rewrite in_app_iff. destruct J as [J|[[J|J]|J]]; try tauto. apply Vg in J. discriminate.
  - unfold handed_over in *. now rewrite app_nil_r.
Qed.

Lemma sw_idle w o : span_call (w_span w) o = w_span w -> (forall t now, o <> OEnd t now) -> sw_step w (ACall o) = w.
Proof. intros H N. destruct w as [x p l]. cbn in *. rewrite H. destruct o; try reflexivity. now destruct (N t now). Qed.

Lemma step_related t m m' w : related m w -> tstep t m = Some m' ->
  exists log, m_log m' = m_log m ++ log /\ related m' (fold_left sw_step (schedule_of log) w).
Proof.
  intros R E. unfold Model_SpanThreads.tstep in E. destruct (nth_error (m_threads m) t) as [[|f st]|] eqn:N; try discriminate.
  destruct (split_threads _ _ _ N) as (a & b & T & _ & P). unfold moved in E. rewrite ?P in E.
  destruct f as [[|[o|k] l]|o|[|kv l]|kv l|k v l| |n x]; rewrite ?P in E.
  - injection E as <-. eexists. split; [reflexivity|]. cbn [schedule_of flat_map fold_left]. eapply (related_plain m w a (FCalls []) [] st b); eauto. intros g [].
  - destruct (takes_lock (sp_limits (m_span m)) o) eqn:L; rewrite ?P in E; injection E as <-; eexists; (split; [reflexivity|]).
    + cbn [schedule_of flat_map fold_left]. eapply (related_plain m w a _ (repeat (FCalls handler) (warned o) ++ [FEnter o; FCalls l]) st b); eauto.
      * now rewrite ins_app, ins_handlers.
      * now rewrite views_app, views_handlers.
      * intros g I. apply in_app_or in I. destruct I as [I|I]; [now apply handlers_in in I; subst|]. cbn in I. destruct I as [<-|[<-|[]]]; reflexivity.
      * cbn [m_span m_lock]. now rewrite <- app_assoc.
      * reflexivity.
    + rewrite (related_limits _ _ R) in L. cbn [schedule_of flat_map fold_left app]. rewrite sw_idle; [|now apply no_lock|intros t0 n0 ->; discriminate L].
      eapply (related_plain m w a _ (repeat (FCalls handler) (warned o) ++ [FCalls l]) st b); eauto.
      * now rewrite ins_app, ins_handlers.
      * now rewrite views_app, views_handlers.
      * intros g I. apply in_app_or in I. destruct I as [I|I]; [now apply handlers_in in I; subst|]. cbn in I. destruct I as [<-|[]]; reflexivity.
      * now rewrite <- app_assoc.
      * reflexivity.
  - injection E as <-. eexists. split; [reflexivity|]. cbn [schedule_of flat_map fold_left app]. eapply (related_plain m w a _ [FCalls l] st b); eauto. intros g [<-|[]]; reflexivity.
  - destruct (m_lock m) as [z|] eqn:LK; [discriminate|]. destruct R as (I & Pd & V & G & S).
    assert (Q : ins (concat (m_threads m)) = []) by (destruct (ins (concat (m_threads m))) as [|f [|g l]]; [reflexivity|now destruct I|contradiction]). rewrite Q in I. destruct I as [_ EQ].
    rewrite EQ in E. destruct (enter_call o (w_span w) S) as (s' & fs & f & En & If & Fn & Ok & Vl & Vf). rewrite En in E. rewrite ?P in E. injection E as <-.
    eexists. split; [reflexivity|]. cbn [schedule_of flat_map fold_left app]. unfold related. cbn [m_threads m_span m_lock m_log]. rewrite T in *. rewrite !concat_app in *. cbn [concat] in *.
    rewrite !ins_app, !views_app in *. cbn [app] in *. unfold ins at 2 in Q. unfold views at 2 in Pd. cbn [filter inside is_view] in *. fold (ins st) in Q. fold (views st) in Pd.
    apply app_eq_nil in Q. destruct Q as [Q1 Q2]. apply app_eq_nil in Q2. destruct Q2 as [Q2 Q3]. rewrite Q1, Q2, Q3, If. cbn [app].
    assert (SP : w_span (sw_step w (ACall o)) = span_call (w_span w) o) by reflexivity.
    assert (ST : sp_start (span_call (w_span w) o) <> None) by now apply call_start.
    split; [|split; [|split; [|split; [|exact ST]]]].
    + split; [discriminate|]. split; [now rewrite SP|exact Ok].
    + cbn [sw_step w_pending]. rewrite !app_length in *. rewrite Vl. destruct o; try lia. destruct (sp_start (w_span w)) as [q|]; [|lia]. destruct (is_ended (w_span w)); cbn [negb]; lia.
    + intros n x J. rewrite SP. assert (OLD : In (FView n x) (concat a ++ st ++ concat b) -> is_ended (span_call (w_span w) o) = true /\ (forall y, n = Some y -> y = sp_name (span_call (w_span w) o)) /\ (forall y, x = Some y -> y = sp_status (span_call (w_span w) o))).
      { intros J'. assert (V' := V n x). assert (H : In (FView n x) (concat a ++ FEnter o :: st ++ concat b)) by (rewrite in_app_iff in *; cbn; tauto). specialize (V' H). rewrite ended_call; tauto. }
      rewrite !in_app_iff in J. rewrite !in_app_iff in OLD. destruct J as [J|[ [J|J] |J]]; [apply OLD; tauto| |apply OLD; tauto|apply OLD; tauto]. specialize (Vf _ J eq_refl). injection Vf as -> ->. split; [|split; discriminate].
      assert (C : length (views fs) <> 0) by (intros Z; apply length_zero_iff_nil in Z; assert (X : In (FView None None) (views fs)) by (apply filter_In; auto); rewrite Z in X; exact X).
      rewrite Vl in C. destruct o; try congruence. destruct (sp_start (w_span w)) as [q|] eqn:Z; [|congruence]. destruct (is_ended (w_span w)) eqn:D; [congruence|]. cbn. unfold end_locked. rewrite Z, D. reflexivity.
    + cbn [sw_step w_log]. rewrite G. unfold handed_over. rewrite flat_map_app. cbn. now rewrite app_nil_r.
  - injection E as <-. eexists. split; [reflexivity|]. cbn [schedule_of flat_map fold_left]. eapply (related_inner m w a _ [FLeave] FLeave st b); eauto; [intros g [<-|[]]; reflexivity|]. intros _. split; [|exact I]. cbn. now rewrite dict_step_id.
  - destruct (ba_immutable (sp_attrs (m_span m))) eqn:IM; [|destruct (ba_maxlen (sp_attrs (m_span m))) as [[|ml]|] eqn:ML]; rewrite ?P in E; injection E as <-; eexists; (split; [reflexivity|]); cbn [schedule_of flat_map fold_left].
    + eapply (related_inner m w a _ [FItems l] (FItems l) st b); eauto; [intros g [<-|[]]; reflexivity|]. intros O. split; [|exact O]. cbn. unfold dict_step. cbn. now rewrite store_immutable.
    + eapply (related_inner m w a _ [FItems l] (FItems l) st b); eauto; [intros g [<-|[]]; reflexivity|]. intros O. split; [|exact O]. cbn. unfold dict_step. cbn. now rewrite store_zero.
    + change (FClean kv l :: st) with ([FClean kv l] ++ st). rewrite app_assoc. eapply (related_inner m w a _ (repeat (FCalls handler) (warns kv) ++ [FClean kv l]) (FClean kv l) st b); eauto.
      * now rewrite ins_app, ins_handlers.
      * now rewrite views_app, views_handlers.
      * intros g J. apply in_app_or in J. destruct J as [J|[<-|[]]]; [now apply handlers_in in J; subst|reflexivity].
      * intros O. split; [reflexivity|]. cbn. repeat split; [exact O|exact IM|]. rewrite ML. discriminate.
    + change (FClean kv l :: st) with ([FClean kv l] ++ st). rewrite app_assoc. eapply (related_inner m w a _ (repeat (FCalls handler) (warns kv) ++ [FClean kv l]) (FClean kv l) st b); eauto.
      * now rewrite ins_app, ins_handlers.
      * now rewrite views_app, views_handlers.
      * intros g J. apply in_app_or in J. destruct J as [J|[<-|[]]]; [now apply handlers_in in J; subst|reflexivity].
      * intros O. split; [reflexivity|]. cbn. repeat split; [exact O|exact IM|]. rewrite ML. discriminate.
  - assert (NONE : (valid_key (fst kv) = None \/ clean_attribute (fst kv) (snd kv) (ba_max_value_len (sp_attrs (m_span m))) = None) ->
      related (Machine (m_span m) (m_lock m) (a ++ ([FItems l] ++ st) :: b) (m_log m ++ [])) w).
    { intros X. eapply (related_inner m w a _ [FItems l] (FItems l) st b); eauto; [intros g [<-|[]]; reflexivity|]. intros (O & IM & ML). split; [|exact O]. cbn. unfold dict_step. cbn. now rewrite store_none. }
    destruct (valid_key (fst kv)) as [k|] eqn:K; [destruct (clean_attribute (fst kv) (snd kv) (ba_max_value_len (sp_attrs (m_span m)))) as [v|] eqn:C|]; rewrite ?P in E; injection E as <-; eexists; (split; [reflexivity|]); cbn [schedule_of flat_map fold_left].
    + eapply (related_inner m w a _ [FStore k v l] (FStore k v l) st b); eauto; [intros g [<-|[]]; reflexivity|]. intros (O & IM & ML). split; [|exact O]. cbn. unfold dict_step. cbn. now rewrite (store_steps k v).
    + apply NONE. auto.
    + apply NONE. auto.
  - injection E as <-. eexists. split; [reflexivity|]. cbn [schedule_of flat_map fold_left]. eapply (related_inner m w a _ [FItems l] (FItems l) st b); eauto. intros g [<-|[]]; reflexivity.
  - injection E as <-. eexists. split; [reflexivity|]. cbn [schedule_of flat_map fold_left]. destruct R as (I & Pd & V & G & S). unfold related. cbn [m_threads m_span m_lock m_log]. rewrite T in *. rewrite !concat_app in *. cbn [concat] in *.
    rewrite !ins_app, !views_app in *. cbn [app] in *. unfold ins at 2 in I. unfold views at 2 in Pd. cbn [filter inside is_view] in *. fold (ins st) in I. fold (views st) in Pd.
    destruct (ins (concat a)) as [|y l]; cbn [app] in I; [|destruct l; contradiction]. destruct (ins st ++ ins (concat b)) as [|y l]; [|contradiction]. destruct I as (_ & F & _).
    split; [split; [reflexivity|exact F]|]. split; [exact Pd|]. split; [|split; [|exact S]].
    + intros n x J. apply V. rewrite !in_app_iff in *. cbn. rewrite in_app_iff. tauto.
    + unfold handed_over in *. now rewrite app_nil_r.
  - assert (D : is_ended (w_span w) = true /\ (forall y, n = Some y -> y = sp_name (w_span w)) /\ (forall y, x = Some y -> y = sp_status (w_span w))).
    { destruct R as (_ & _ & V & _). apply V. rewrite T, concat_app. apply in_or_app. right. now left. }
    destruct D as (D & Dn & Dx). pose proof (related_ended _ _ R D) as EQ. destruct R as (I & Pd & V & G & S).
    assert (RED : forall n' x', In (FView n' x') (concat a ++ st ++ concat b) -> In (FView n' x') (concat (m_threads m))) by (intros n' x'; rewrite T, concat_app; cbn [concat]; rewrite !in_app_iff; cbn; rewrite ?in_app_iff; tauto).
    assert (INS : forall new, ins new = [] -> ins (concat (a ++ (new ++ st) :: b)) = ins (concat (m_threads m))).
    { intros new Z. rewrite T, !concat_app. cbn [concat]. rewrite !ins_app, Z. reflexivity. }
    assert (VS : forall new, length (views (concat (a ++ (new ++ st) :: b))) + 1 = length (views new) + length (views (concat (m_threads m)))).
    { intros new. rewrite T, !concat_app. cbn [concat]. change ((FView n x :: st) ++ concat b) with ([FView n x] ++ st ++ concat b). rewrite !views_app, !app_length. cbn. lia. }
    assert (KEEP : forall n' x', (forall y, n' = Some y -> y = sp_name (w_span w)) -> (forall y, x' = Some y -> y = sp_status (w_span w)) ->
       related (Machine (m_span m) (m_lock m) (a ++ ([FView n' x'] ++ st) :: b) (m_log m ++ [])) w).
    { intros n' x' H1 H2. unfold related. cbn [m_threads m_span m_lock m_log]. rewrite INS by reflexivity. split; [exact I|]. split; [specialize (VS [FView n' x']); cbn in VS |- *; lia|]. split; [|split; [|exact S]].
      - intros n2 x2 J. rewrite concat_app in J. cbn [concat] in J. rewrite !in_app_iff in J. destruct J as [J|[[J|J]|J]]; try (apply V, RED; rewrite !in_app_iff; tauto). destruct J as [J|[]]. injection J as <- <-. auto.
      - unfold handed_over in *. now rewrite app_nil_r. }
    destruct n as [n|]; [destruct x as [x|]|]; rewrite ?P in E; injection E as <-; eexists; (split; [reflexivity|]).
    + cbn [schedule_of flat_map fold_left app]. assert (WS : with_name n (with_status x (m_span m)) = w_span w) by (rewrite EQ, (Dn n eq_refl), (Dx x eq_refl); now destruct (w_span w)). rewrite WS.
      change (FCalls processor :: st) with ([FCalls processor] ++ st). unfold related. cbn [m_threads m_span m_lock m_log]. rewrite INS by reflexivity. specialize (VS [FCalls processor]). cbn [views filter is_view length] in VS.
      destruct w as [ws wp wl]. cbn [w_span w_pending w_log sw_step] in *. destruct wp as [|wp]; [exfalso; lia|]. cbn [w_span w_pending w_log].
      split; [exact I|]. split; [lia|]. split; [|split; [|exact S]].
      * intros n2 x2 J. rewrite concat_app in J. cbn [concat] in J. rewrite !in_app_iff in J. destruct J as [J|[[J|J]|J]]; try (apply V, RED; rewrite !in_app_iff; tauto). destruct J as [J|[]]. discriminate J.
      * unfold ended_spans, handed_over in *. rewrite !flat_map_app, G. reflexivity.
    + cbn [schedule_of flat_map fold_left]. apply KEEP; [exact Dn|]. intros y Q. injection Q as <-. now rewrite EQ.
    + cbn [schedule_of flat_map fold_left]. apply KEEP; [|discriminate]. intros y Q. injection Q as <-. now rewrite EQ.
Qed.

Lemma schedule_app a b : schedule_of (a ++ b) = schedule_of a ++ schedule_of b. Proof. apply flat_map_app. Qed.
Lemma move_related t m w0 : related m (fold_left sw_step (schedule_of (m_log m)) w0) -> related (tmove m t) (fold_left sw_step (schedule_of (m_log (tmove m t))) w0).
Proof.
  intros R. unfold Model_SpanThreads.tmove. destruct (tstep t m) as [m'|] eqn:E; [|exact R]. destruct (step_related _ _ _ _ R E) as (log & L & R'). rewrite L, schedule_app, fold_left_app. exact R'.
Qed.
Lemma run_related w0 sch : forall m, related m (fold_left sw_step (schedule_of (m_log m)) w0) ->
  related (fold_left tmove sch m) (fold_left sw_step (schedule_of (m_log (fold_left tmove sch m))) w0).
Proof. induction sch as [|t sch IH]; intros m R; cbn [fold_left]; [exact R|]. apply IH. now apply move_related. Qed.
Lemma init_frames (ps : list (list scall)) f : In f (concat (map (fun p => [FCalls p]) ps)) -> exists p, f = FCalls p.
Proof. induction ps as [|p ps IH]; cbn; [intros []|]. intros [<-|I]; [eauto|auto]. Qed.
Lemma filter_none {A} (p : A -> bool) l : (forall x, In x l -> p x = false) -> filter p l = [].
Proof. induction l as [|x l IH]; intros H; cbn; [reflexivity|]. rewrite (H x (or_introl eq_refl)). apply IH. intros y I. apply H. now right. Qed.
Lemma init_related s t now ps : related (threads_init (start_locked t now s) ps) (sw_init s t now).
Proof.
  unfold related, threads_init, sw_init. cbn [m_threads m_span m_lock m_log w_span w_pending w_log].
  assert (I : ins (concat (map (fun p => [FCalls p]) ps)) = []) by (apply filter_none; intros f J; apply init_frames in J; destruct J as (p & ->); reflexivity).
  assert (V : views (concat (map (fun p => [FCalls p]) ps)) = []) by (apply filter_none; intros f J; apply init_frames in J; destruct J as (p & ->); reflexivity).
  rewrite I, V. split; [auto|]. split; [reflexivity|]. split; [|split; [reflexivity|]].
  - intros n st J. apply init_frames in J. destruct J as (p & J). discriminate J.
  - unfold start_locked. destruct (sp_start s) eqn:E; [congruence|]. discriminate.
Qed.

(** ** The order of the calls of a thread *)
Definition todo_frame (f : frame) : list sop := match f with FCalls l => method_calls l | FEnter o => [o] | _ => [] end.
Definition todo (st : list frame) : list sop := flat_map todo_frame st.
Lemma todo_app a b : todo (a ++ b) = todo a ++ todo b. Proof. apply flat_map_app. Qed.
Definition in_order (m : machine) (ps : list (list scall)) : Prop :=
  length (m_threads m) = length ps /\ forall t p st, nth_error ps t = Some p -> nth_error (m_threads m) t = Some st -> method_calls p = done_by t (m_log m) ++ todo st.
Lemma nth_put {A} (l : list A) t x : forall i, nth_error (put_nth t x l) i = if Nat.eqb t i then option_map (fun _ => x) (nth_error l i) else nth_error l i.
Proof. revert t. induction l as [|y l IH]; intros t i; [destruct t, i; try reflexivity; cbn; now destruct (Nat.eqb t i)|]. destruct t, i; try reflexivity. cbn. apply IH. Qed.
Lemma length_put {A} (l : list A) t x : length (put_nth t x l) = length l.
Proof. revert t. induction l as [|y l IH]; intros [|t]; cbn; auto. Qed.
Lemma done_app t a b : done_by t (a ++ b) = done_by t a ++ done_by t b. Proof. apply flat_map_app. Qed.
Lemma todo_handlers n : only_reads handler -> todo (repeat (FCalls handler) n) = [].
Proof. intros H. induction n; cbn; [reflexivity|]. unfold only_reads in H. now rewrite H. Qed.
Lemma step_order t m m' ps : only_reads handler -> only_reads processor -> in_order m ps -> tstep t m = Some m' -> in_order m' ps.
Proof.
  intros OH OP (L & O) E. unfold Model_SpanThreads.tstep in E. destruct (nth_error (m_threads m) t) as [[|f st]|] eqn:N; try discriminate.
  assert (K : forall s lk st' log, todo (f :: st) = done_by t log ++ todo st' -> (forall t', t' <> t -> done_by t' log = []) -> in_order (Machine s lk (put_nth t st' (m_threads m)) (m_log m ++ log)) ps).
  { intros s lk st' log T D. split; [cbn; now rewrite length_put|]. cbn [m_threads m_log]. intros i p x Hp Hx. rewrite nth_put in Hx. rewrite done_app. destruct (Nat.eqb_spec t i) as [<-|NE].
    - rewrite N in Hx. cbn in Hx. injection Hx as <-. rewrite (O t p _ Hp N), T. now rewrite app_assoc.
    - rewrite (O i p x Hp Hx), D by auto. now rewrite app_nil_r. }
  assert (D0 : forall t', t' <> t -> done_by t' [] = []) by reflexivity.
  assert (D1 : forall o t', t' <> t -> done_by t' [TDo t o] = []) by (intros o t' NE; cbn; destruct (Nat.eqb_spec t' t); [contradiction|reflexivity]).
  assert (D2 : forall o, done_by t [TDo t o] = [o]) by (intros o; cbn; now rewrite Nat.eqb_refl).
  unfold moved in E. destruct f as [[|[o|k] l]|o|[|kv l]|kv l|k v l| |n x].
  - injection E as <-. apply K; auto.
  - destruct (takes_lock (sp_limits (m_span m)) o); injection E as <-; apply K; auto.
    + now rewrite todo_app, todo_handlers.
    + rewrite D2, todo_app, todo_handlers by exact OH. reflexivity.
  - injection E as <-. apply K; auto.
  - destruct (m_lock m); [discriminate|]. destruct (enter o (m_span m)) as [s' fs] eqn:En. injection E as <-. apply K; auto. rewrite D2, todo_app.
    replace (todo fs) with (@nil sop); [reflexivity|]. unfold only_reads in OH.
    destruct o; cbn in En; try (injection En as <- <-; destruct (is_ended (m_span m)); cbn; rewrite ?OH; reflexivity).
    + destruct (is_ended (m_span m)); injection En as <- <-; cbn; rewrite ?OH; reflexivity.
    + injection En as <- <-; destruct (sp_start (m_span m)); cbn; rewrite ?OH; reflexivity.
    + injection En as <- <-; destruct (sp_start (m_span m)); [destruct (is_ended (m_span m))|]; cbn; rewrite ?OH; reflexivity.
  - injection E as <-. apply K; auto.
  - destruct (ba_immutable (sp_attrs (m_span m))); [|destruct (ba_maxlen (sp_attrs (m_span m))) as [[|ml]|]]; injection E as <-; apply K; auto; now rewrite todo_app, todo_handlers.
  - destruct (valid_key (fst kv)); [destruct (clean_attribute _ _ _)|]; injection E as <-; apply K; auto.
  - injection E as <-. apply K; auto.
  - injection E as <-. apply K; auto.
  - destruct n as [n|]; [destruct x as [x|]|]; injection E as <-; apply K; auto. cbn. unfold only_reads in OP. now rewrite OP.
Qed.
Lemma run_order ps sch : only_reads handler -> only_reads processor -> forall m, in_order m ps -> in_order (fold_left tmove sch m) ps.
Proof.
  intros OH OP. induction sch as [|t sch IH]; intros m R; cbn [fold_left]; [exact R|]. apply IH. unfold Model_SpanThreads.tmove. destruct (tstep t m) as [m'|] eqn:E; [|exact R]. now apply (step_order t m).
Qed.
Lemma init_order s ps : in_order (threads_init s ps) ps.
Proof.
  split; [cbn; now rewrite map_length|]. cbn [m_threads m_log threads_init]. intros t p st Hp Hst. rewrite nth_error_map, Hp in Hst. cbn in Hst. injection Hst as <-. cbn. now rewrite app_nil_r.
Qed.

(** ** No deadlock, if logging does not call the span *)
Definition reads (f : frame) : Prop := match f with FCalls l => only_reads l | _ => False end.
Fixpoint guarded (st : list frame) : Prop := match st with [] => True | f :: st' => (ins st' <> [] -> inside f = false -> reads f) /\ (ins st' <> [] -> inside f = true -> False) /\ guarded st' end.
Lemma guarded_handlers n st : only_reads handler -> guarded st -> guarded (repeat (FCalls handler) n ++ st).
Proof. intros OH G. induction n; cbn; [exact G|]. split; [intros; exact OH|]. split; [discriminate|exact IHn]. Qed.
Lemma guarded_cons f st : inside f = false -> ins st = [] -> guarded st -> guarded (f :: st).
Proof. intros I N G. cbn. rewrite N. split; [congruence|]. split; [congruence|exact G]. Qed.
Lemma guarded_free f st : inside f = false -> guarded (f :: st) -> ~ reads f -> ins st = [].
Proof. intros I (A & _ & _) N. destruct (ins st) eqn:E; [reflexivity|]. exfalso. apply N, A; [congruence|exact I]. Qed.
Lemma step_guarded t m m' : only_reads handler -> Forall guarded (m_threads m) -> tstep t m = Some m' -> Forall guarded (m_threads m').
Proof.
  intros OH G E. unfold Model_SpanThreads.tstep in E. destruct (nth_error (m_threads m) t) as [[|f st]|] eqn:N; try discriminate.
  destruct (split_threads _ _ _ N) as (a & b & T & _ & P). unfold moved in E.
  assert (Gs : guarded (f :: st)) by (rewrite Forall_forall in G; apply G; eapply nth_error_In; exact N). assert (Gst : guarded st) by apply Gs.
  assert (K : forall s lk st' log, guarded st' -> Forall guarded (m_threads (Machine s lk (put_nth t st' (m_threads m)) (m_log m ++ log)))).
  { intros s lk st' log H. cbn. rewrite P. rewrite T in G. apply Forall_app in G. destruct G as [G1 G2]. inversion G2; subst. apply Forall_app. split; [assumption|]. constructor; assumption. }
  assert (IN : inside f = true -> ins st = []) by (intros I; destruct Gs as (_ & A & _); destruct (ins st); [reflexivity|]; exfalso; apply A; [discriminate|exact I]).
  assert (INN : forall g, ins st = [] -> guarded (g :: st)) by (intros g Z; cbn; rewrite Z; split; [congruence|]; split; [congruence|exact Gst]).
  destruct f as [[|[o|k] l]|o|[|kv l]|kv l|k v l| |n x].
  - injection E as <-. now apply K.
  - assert (Z : ins st = []) by (apply (guarded_free (FCalls (CCall o :: l)) st eq_refl Gs); cbn; unfold only_reads; cbn; discriminate).
    destruct (takes_lock (sp_limits (m_span m)) o); injection E as <-; apply K; apply guarded_handlers; auto. apply guarded_cons; auto.
  - injection E as <-. apply K. cbn. split; [|split; [discriminate|exact Gst]]. intros NZ _. destruct Gs as (A & _). specialize (A NZ eq_refl). exact A.
  - destruct (m_lock m); [discriminate|]. assert (Z : ins st = []) by (apply (guarded_free (FEnter o) st eq_refl Gs); cbn; tauto).
    destruct (enter o (m_span m)) as [s' fs] eqn:En. injection E as <-. apply K.
    assert (G2 : guarded ([FCalls handler; FLeave] ++ st)) by (cbn; change (filter inside st) with (ins st); rewrite Z; split; [intros; exact OH|]; split; [discriminate|]; split; [congruence|]; split; [congruence|exact Gst]).
    assert (G3 : guarded ([FLeave] ++ st)) by (apply INN, Z).
    assert (G4 : guarded ([FLeave; FCalls handler] ++ st)) by (cbn; change (filter inside st) with (ins st); rewrite Z; split; [congruence|]; split; [congruence|]; split; [congruence|]; split; [congruence|exact Gst]).
    assert (G5 : guarded ([FLeave; FView None None] ++ st)) by (cbn; change (filter inside st) with (ins st); rewrite Z; split; [congruence|]; split; [congruence|]; split; [congruence|]; split; [congruence|exact Gst]).
    destruct o; cbn in En; try (injection En as <- <-; destruct (is_ended (m_span m)); assumption).
    + destruct (is_ended (m_span m)); injection En as <- <-; [assumption|]. apply INN, Z.
    + injection En as <- <-; destruct (sp_start (m_span m)); assumption.
    + injection En as <- <-; destruct (sp_start (m_span m)); [destruct (is_ended (m_span m))|]; assumption.
  - injection E as <-. apply K, INN. auto.
  - destruct (ba_immutable (sp_attrs (m_span m))); [|destruct (ba_maxlen (sp_attrs (m_span m))) as [[|ml]|]]; injection E as <-; apply K; try (apply INN; auto); apply guarded_handlers; auto.
  - destruct (valid_key (fst kv)); [destruct (clean_attribute _ _ _)|]; injection E as <-; apply K, INN; auto.
  - injection E as <-. apply K, INN. auto.
  - injection E as <-. now apply K.
  - assert (Z : ins st = []) by (apply (guarded_free (FView n x) st eq_refl Gs); cbn; tauto). destruct n as [n|]; [destruct x as [x|]|]; injection E as <-; apply K, INN; auto.
Qed.
Lemma run_guarded sch : only_reads handler -> forall m, Forall guarded (m_threads m) -> Forall guarded (m_threads (fold_left tmove sch m)).
Proof.
  intros OH. induction sch as [|t sch IH]; intros m R; cbn [fold_left]; [exact R|]. apply IH. unfold Model_SpanThreads.tmove. destruct (tstep t m) as [m'|] eqn:E; [|exact R]. now apply (step_guarded t m).
Qed.
Lemma init_guarded s ps : Forall guarded (m_threads (threads_init s ps)).
Proof. cbn. apply Forall_forall. intros st I. apply in_map_iff in I. destruct I as (p & <- & _). cbn. split; [congruence|]. split; [congruence|exact I]. Qed.
Lemma free_steps t m f st : nth_error (m_threads m) t = Some (f :: st) -> (forall o, f = FEnter o -> m_lock m = None) -> exists m', tstep t m = Some m'.
Proof.
  intros N H. unfold Model_SpanThreads.tstep, moved. rewrite N. destruct f as [[|[o|k] l]|o|[|kv l]|kv l|k v l| |n x]; eauto.
  - destruct (takes_lock _ _); eauto.
  - rewrite (H o eq_refl). destruct (enter o (m_span m)). eauto.
  - destruct (ba_immutable _); [|destruct (ba_maxlen _) as [[|]|]]; eauto.
  - destruct (valid_key _); [destruct (clean_attribute _ _ _)|]; eauto.
  - destruct n; [destruct x|]; eauto.
Qed.
Lemma concat_ins (l : list (list frame)) : ins (concat l) <> [] -> exists t st, nth_error l t = Some st /\ ins st <> [].
Proof.
  induction l as [|y l IH]; cbn; [congruence|]. rewrite ins_app. intros H. destruct (ins y) eqn:E.
  - destruct (IH H) as (t & st & N & I). now exists (S t), st.
  - exists 0, y. split; [reflexivity|]. congruence.
Qed.
Lemma progress m w : related m w -> Forall guarded (m_threads m) -> finished m \/ exists t m', tstep t m = Some m'.
Proof.
  intros (I & _) G. destruct (m_lock m) as [o|] eqn:LK.
  - right. assert (H : ins (concat (m_threads m)) <> []) by (intros Z; rewrite Z in I; destruct I; congruence). destruct (concat_ins _ H) as (t & st & N & X).
    destruct st as [|f st]; [now destruct X|]. assert (Gs : guarded (f :: st)) by (rewrite Forall_forall in G; apply G; eapply nth_error_In; exact N).
    exists t. apply (free_steps t m f st N). intros o' ->. exfalso. cbn in X. destruct Gs as (A & _). apply (A X eq_refl).
  - assert (D : finished m \/ exists t f st, nth_error (m_threads m) t = Some (f :: st)).
    { unfold finished. clear. induction (m_threads m) as [|[|f st] l IH]; [left; constructor| |right; now exists 0, f, st]. destruct IH as [F|(t & f & st & N)]; [left; now constructor|right; now exists (S t), f, st]. }
    destruct D as [F|(t & f & st & N)]; [now left|]. right. exists t. apply (free_steps t m f st N). auto.
Qed.

(** ** Every schedule comes to an end *)
Definition H := S (length handler).
Definition item_cost (l : pairs) : nat := list_sum (map (fun kv => warns kv * H + 3) l).
Definition enter_cost (o : sop) : nat := 3 + H + match o with OSetAttributes l => item_cost l | _ => 0 end.
Definition call_cost (c : scall) : nat := match c with CGet _ => 1 | CCall o => 2 + warned o * H + enter_cost o end.
Definition calls_cost (l : list scall) : nat := S (list_sum (map call_cost l)).
Definition V := 3 + calls_cost processor.
Definition frame_cost (f : frame) : nat :=
  match f with
  | FCalls l => calls_cost l
  | FEnter o => enter_cost o
  | FItems l => 2 + item_cost l
  | FClean _ l => 4 + item_cost l
  | FStore _ _ l => 3 + item_cost l
  | FLeave => 1
  | FView None _ => V
  | FView (Some _) None => V - 1
  | FView (Some _) (Some _) => V - 2
  end.
Definition stack_cost (st : list frame) : nat := list_sum (map frame_cost st).
Definition cost (m : machine) : nat := stack_cost (concat (m_threads m)) + (if is_ended (m_span m) then 0 else V).
Lemma handler_cost : only_reads handler -> calls_cost handler = H.
Proof.
  intros OH. unfold calls_cost, H. f_equal. unfold only_reads in OH. induction handler as [|c l IH]; [reflexivity|]. destruct c; [discriminate OH|]. cbn. f_equal. apply IH, OH.
Qed.
Lemma stack_app a b : stack_cost (a ++ b) = stack_cost a + stack_cost b.
Proof. unfold stack_cost. now rewrite map_app, list_sum_app. Qed.
Lemma handlers_cost n : only_reads handler -> stack_cost (repeat (FCalls handler) n) = n * H.
Proof. intros OH. induction n; [reflexivity|]. cbn [repeat Nat.mul]. change (calls_cost handler + stack_cost (repeat (FCalls handler) n) = H + n * H). rewrite IHn, handler_cost by exact OH. reflexivity. Qed.
Lemma call_end s o : (forall t now, o <> OEnd t now) -> is_ended (span_call s o) = is_ended s.
Proof.
  intros NE. assert (CE : forall f, (forall s, sp_end (f s) = sp_end s) -> is_ended (check_ended f s) = is_ended s) by (intros f Hf; unfold check_ended; destruct (is_ended s) eqn:D; [exact D|]; unfold is_ended in *; now rewrite Hf).
  destruct o; cbn [span_call].
  - unfold set_attributes. destruct (is_ended s) eqn:D; [exact D|exact D].
  - unfold add_event. destruct (make_event _ _ _ _); [|reflexivity]. apply CE. reflexivity.
  - unfold add_link. destruct c; [|reflexivity]. destruct (is_valid_link _ _); [|reflexivity]. destruct (make_link _ _ _); [|reflexivity]. apply CE. reflexivity.
  - apply CE. reflexivity.
  - unfold set_status. apply CE. intros x. destruct st; try reflexivity; destruct (_ || _)%bool; reflexivity.
  - unfold record_exception, add_event. destruct (make_event _ _ _ _); [|reflexivity]. apply CE. reflexivity.
  - unfold start_locked. destruct (sp_start s); reflexivity.
  - now destruct (NE t now).
Qed.
Lemma is_ended_at x s : is_ended (with_end x s) = true.
Proof. reflexivity. Qed.
Lemma step_cost t m m' : only_reads handler -> tstep t m = Some m' -> cost m' < cost m.
Proof.
  intros OH E. unfold Model_SpanThreads.tstep in E. destruct (nth_error (m_threads m) t) as [[|f st]|] eqn:N; try discriminate.
  destruct (split_threads _ _ _ N) as (a & b & T & _ & P). unfold moved in E.
  assert (K : forall s lk new log, stack_cost new + (if is_ended s then 0 else V) < frame_cost f + (if is_ended (m_span m) then 0 else V) ->
    cost (Machine s lk (put_nth t (new ++ st) (m_threads m)) (m_log m ++ log)) < cost m).
  { intros s lk new log Q. unfold cost. cbn [m_threads m_span]. rewrite P, T, !concat_app. cbn [concat]. rewrite !stack_app. change (stack_cost (f :: st)) with (frame_cost f + stack_cost st). lia. }
  assert (SC : forall g l, stack_cost (g :: l) = frame_cost g + stack_cost l) by reflexivity. assert (S0 : stack_cost [] = 0) by reflexivity.
  assert (HC := handler_cost OH). assert (CC : forall c l, calls_cost (c :: l) = call_cost c + calls_cost l) by (intros; unfold calls_cost; cbn [map list_sum fold_right]; unfold list_sum; cbn [fold_right]; lia).
  assert (CO : forall o, call_cost (CCall o) = 2 + warned o * H + enter_cost o) by reflexivity.
  assert (VV : V = 3 + calls_cost processor) by reflexivity.
  destruct f as [[|[o|k] l]|o|[|kv l]|kv l|k v l| |n x].
  - injection E as <-. apply (K _ _ []). cbn. lia.
  - destruct (takes_lock (sp_limits (m_span m)) o); injection E as <-.
    + change (FEnter o :: FCalls l :: st) with ([FEnter o; FCalls l] ++ st). rewrite app_assoc. apply K. rewrite stack_app, handlers_cost, !SC, S0 by exact OH. cbn [frame_cost]. rewrite CC, CO. lia.
    + change (FCalls l :: st) with ([FCalls l] ++ st). rewrite app_assoc. apply K. rewrite stack_app, handlers_cost, !SC, S0 by exact OH. cbn [frame_cost]. rewrite CC, CO. lia.
  - injection E as <-. apply (K _ _ [FCalls l]). rewrite !SC, S0. cbn [frame_cost]. rewrite CC. change (call_cost (CGet k)) with 1. lia.
  - destruct (m_lock m); [discriminate|]. destruct (enter o (m_span m)) as [s' fs] eqn:En. injection E as <-. apply K.
    destruct o; unfold Model_SpanThreads.enter in En.
    + destruct (is_ended (m_span m)) eqn:D; injection En as <- <-; rewrite !SC, S0, D; cbn [frame_cost]; unfold enter_cost; rewrite ?HC; lia.
    + apply pair_equal_spec in En. destruct En as [<- <-]. rewrite call_end by discriminate. destruct (is_ended (m_span m)); rewrite !SC, S0; cbn [frame_cost]; unfold enter_cost; rewrite ?HC; lia.
    + apply pair_equal_spec in En. destruct En as [<- <-]. rewrite call_end by discriminate. destruct (is_ended (m_span m)); rewrite !SC, S0; cbn [frame_cost]; unfold enter_cost; rewrite ?HC; lia.
    + apply pair_equal_spec in En. destruct En as [<- <-]. rewrite call_end by discriminate. destruct (is_ended (m_span m)); rewrite !SC, S0; cbn [frame_cost]; unfold enter_cost; rewrite ?HC; lia.
    + apply pair_equal_spec in En. destruct En as [<- <-]. rewrite call_end by discriminate. destruct (is_ended (m_span m)); rewrite !SC, S0; cbn [frame_cost]; unfold enter_cost; rewrite ?HC; lia.
    + apply pair_equal_spec in En. destruct En as [<- <-]. rewrite call_end by discriminate. destruct (is_ended (m_span m)); rewrite !SC, S0; cbn [frame_cost]; unfold enter_cost; rewrite ?HC; lia.
    + injection En as <- <-. change (start_locked t0 now (m_span m)) with (span_call (m_span m) (OStart t0 now)). rewrite call_end by discriminate. destruct (sp_start (m_span m)); rewrite !SC, S0; cbn [frame_cost]; unfold enter_cost; rewrite ?HC; lia.
    + injection En as <- <-. unfold end_locked. destruct (sp_start (m_span m)) as [x|]; [destruct (is_ended (m_span m)) eqn:D|]; rewrite ?D, !SC, S0; cbn [frame_cost]; unfold enter_cost; rewrite ?HC; try lia. rewrite is_ended_at. lia.
  - injection E as <-. apply (K _ _ [FLeave]). rewrite SC, S0. cbn. lia.
  - assert (IC : item_cost (kv :: l) = warns kv * H + 3 + item_cost l) by reflexivity.
    destruct (ba_immutable (sp_attrs (m_span m))); [|destruct (ba_maxlen (sp_attrs (m_span m))) as [[|ml]|]]; injection E as <-.
    + apply (K _ _ [FItems l]). rewrite SC, S0. cbn [frame_cost]. rewrite IC. lia.
    + apply (K _ _ [FItems l]). rewrite SC, S0. cbn [frame_cost]. rewrite IC. change (is_ended (dict_step _ (m_span m))) with (is_ended (m_span m)). lia.
    + change (FClean kv l :: st) with ([FClean kv l] ++ st). rewrite app_assoc. apply K. rewrite stack_app, handlers_cost, SC, S0 by exact OH. cbn [frame_cost]. rewrite IC. lia.
    + change (FClean kv l :: st) with ([FClean kv l] ++ st). rewrite app_assoc. apply K. rewrite stack_app, handlers_cost, SC, S0 by exact OH. cbn [frame_cost]. rewrite IC. lia.
  - destruct (valid_key (fst kv)) as [k|]; [destruct (clean_attribute _ _ _) as [v|]|]; injection E as <-.
    + apply (K _ _ [FStore k v l]). rewrite SC, S0. cbn [frame_cost]. change (is_ended (dict_step _ (m_span m))) with (is_ended (m_span m)). lia.
    + apply (K _ _ [FItems l]). rewrite SC, S0. cbn [frame_cost]. lia.
    + apply (K _ _ [FItems l]). rewrite SC, S0. cbn [frame_cost]. lia.
  - injection E as <-. apply (K _ _ [FItems l]). rewrite SC, S0. cbn [frame_cost]. change (is_ended (dict_step _ (m_span m))) with (is_ended (m_span m)). lia.
  - injection E as <-. apply (K _ _ []). rewrite S0. cbn [frame_cost]. lia.
  - destruct n as [n|]; [destruct x as [x|]|]; injection E as <-.
    + apply (K _ _ [FCalls processor]). rewrite SC, S0. cbn [frame_cost]. lia.
    + apply (K _ _ [FView (Some n) (Some (sp_status (m_span m)))]). rewrite SC, S0. cbn [frame_cost]. lia.
    + apply (K _ _ [FView (Some (sp_name (m_span m))) None]). rewrite SC, S0. cbn [frame_cost]. lia.
Qed.
Lemma steps_bounded sch : only_reads handler -> forall m, steps_made warns warned handler processor sch m + cost (fold_left tmove sch m) <= cost m.
Proof.
  intros OH. induction sch as [|t sch IH]; intros m; cbn [steps_made fold_left]; [lia|]. unfold Model_SpanThreads.tmove at 2. destruct (tstep t m) as [m'|] eqn:E; [|apply IH].
  pose proof (step_cost t m m' OH E). specialize (IH m'). lia.
Qed.
End Proofs.

Section Results.
Variables (warns : pyval * pyval -> nat) (warned : sop -> nat) (handler processor : list scall).
Variables (lim : slimits) (name : str) (ctx : span_context) (parent : option span_context) (kind : Z)
  (attrs : pairs) (links : list (option (option span_context * pairs))) (s0 : sdk_span) (t : option Z) (now : Z).
Hypothesis LIM : limits_ok lim.
Hypothesis NEW : new_span lim name ctx parent kind attrs links = Ok s0.
Notation run programs schedule := (fold_left (tmove warns warned handler processor) schedule (threads_init (start_locked t now s0) programs)).
Lemma run_world ps sch : exists w, related (run ps sch) w /\ w = fold_left sw_step (schedule_of (m_log (run ps sch))) (sw_init s0 t now).
Proof.
  eexists. split; [|reflexivity]. apply run_related. cbn [threads_init m_log schedule_of flat_map fold_left]. apply init_related.
Qed.
Lemma finished_frames m : finished m -> concat (m_threads m) = [].
Proof. unfold finished. induction (m_threads m) as [|x l IH]; intros F; [reflexivity|]. inversion F; subst. cbn. auto. Qed.
Lemma threads_result ps sch : let m := run ps sch in let acts := schedule_of (m_log m) in
  (m_lock m = None -> carries lim name ctx parent kind attrs links (at_time t now) (until_end acts) (m_span m) /\ sp_end (m_span m) = first_end acts)
  /\ length (handed_over (m_log m)) <= 1
  /\ (forall x, In x (handed_over (m_log m)) -> carries lim name ctx parent kind attrs links (at_time t now) (until_end acts) x /\ sp_end x = first_end acts /\ first_end acts <> None)
  /\ (finished m -> m_lock m = None /\ (first_end acts <> None -> length (handed_over (m_log m)) = 1)).
Proof.
  cbn zeta. destruct (run_world ps sch) as (w & R & W). set (m := run ps sch) in *. destruct (c24_once lim name ctx parent kind attrs links s0 t now (schedule_of (m_log m)) LIM NEW) as (CA & EN & _ & ON). rewrite <- W in *.
  destruct R as (I & P & V & G & S). rewrite <- G. repeat apply conj.
  - intros L. destruct (ins (concat (m_threads m))) as [|f [|? ?]]; [|destruct I; contradiction|contradiction]. destruct I as [_ ->]. now split.
  - destruct (first_end (schedule_of (m_log m))); destruct ON as [O1 O2]; [lia|]. rewrite O2. cbn. lia.
  - intros x J. destruct (first_end (schedule_of (m_log m))) eqn:FE; destruct ON as [O1 O2]; [|rewrite O2 in J; destruct J]. rewrite (O2 x J). split; [exact CA|]. split; [exact EN|discriminate].
  - intros F. rewrite (finished_frames _ F) in *. cbn in I, P. split; [apply I|]. intros FE. destruct (first_end (schedule_of (m_log m))); [|congruence]. destruct ON. lia.
Qed.
Lemma threads_order ps sch : only_reads handler -> only_reads processor -> let m := run ps sch in
  forall i p, nth_error ps i = Some p -> exists rest, method_calls p = done_by i (m_log m) ++ rest /\ (finished m -> rest = []).
Proof.
  intros OH OP. cbn zeta. intros i p Hp. destruct (run_order warns warned handler processor ps sch OH OP _ (init_order (start_locked t now s0) ps)) as (L & A).
  assert (X : nth_error (m_threads (run ps sch)) i <> None) by (apply nth_error_Some; rewrite L; apply nth_error_Some; congruence).
  destruct (nth_error (m_threads (run ps sch)) i) as [st|] eqn:E; [|congruence]. exists (todo st). split; [now apply A|]. intros F. unfold finished in F. rewrite Forall_forall in F. rewrite (F st); [reflexivity|]. eapply nth_error_In; exact E.
Qed.
Lemma threads_progress ps sch : only_reads handler -> let m := run ps sch in finished m \/ exists i m', tstep warns warned handler processor i m = Some m'.
Proof.
  intros OH. cbn zeta. destruct (run_world ps sch) as (w & R & _). eapply progress; [exact R|]. apply run_guarded; [exact OH|]. apply init_guarded.
Qed.
Lemma threads_bounded ps : only_reads handler -> exists bound, forall sch, steps_made warns warned handler processor sch (threads_init (start_locked t now s0) ps) <= bound.
Proof.
  intros OH. exists (cost warns warned handler processor (threads_init (start_locked t now s0) ps)). intros sch. pose proof (steps_bounded warns warned handler processor sch OH (threads_init (start_locked t now s0) ps)). lia.
Qed.
End Results.

(** ** Forks *)
Section Fork.
Variables (warns : pyval * pyval -> nat) (warned : sop -> nat) (handler processor : list scall).
Notation tstep := (tstep warns warned handler processor).
Notation tmove := (tmove warns warned handler processor).
Notation enter := (enter handler).
(** Where frames that read the ended span can be *)
Definition stack_ok (st : list frame) : Prop := views (tl st) = [] \/ exists n x st', st = FLeave :: FView n x :: st' /\ views st' = [].
Lemma stack_ok_calm st : views st = [] -> stack_ok st.
Proof. intros V. left. destruct st as [|f st]; [reflexivity|]. cbn in *. destruct (is_view f); [discriminate V|exact V]. Qed.
Lemma step_stacks t m m' : Forall stack_ok (m_threads m) -> tstep t m = Some m' -> Forall stack_ok (m_threads m').
Proof.
  intros G E. unfold Model_SpanThreads.tstep in E. destruct (nth_error (m_threads m) t) as [[|f st]|] eqn:N; try discriminate.
  destruct (split_threads _ _ _ N) as (a & b & T & _ & P). unfold moved in E.
  assert (Gs : stack_ok (f :: st)) by (rewrite Forall_forall in G; apply G; eapply nth_error_In; exact N).
  assert (K : forall s lk st' log, stack_ok st' -> Forall stack_ok (m_threads (Machine s lk (put_nth t st' (m_threads m)) (m_log m ++ log)))).
  { intros s lk st' log H. cbn. rewrite P. rewrite T in G. apply Forall_app in G. destruct G as [G1 G2]. inversion G2; subst. apply Forall_app. split; [assumption|]. constructor; assumption. }
  assert (C : f <> FLeave -> views st = []) by (intros NL; destruct Gs as [V|(n & x & st' & E1 & _)]; [exact V|congruence]).
  assert (CN : forall new, f <> FLeave -> views new = [] -> stack_ok (new ++ st)) by (intros new NL V; apply stack_ok_calm; rewrite views_app, V; exact (C NL)).
  assert (CH : forall n l, f <> FLeave -> views l = [] -> stack_ok (repeat (FCalls handler) n ++ l ++ st)) by (intros n l NL V; rewrite app_assoc; apply CN; [exact NL|]; rewrite views_app, views_handlers; exact V).
  destruct f as [[|[o|k] l]|o|[|kv l]|kv l|k v l| |n x].
  - injection E as <-. apply K. apply (CN []); [discriminate|reflexivity].
  - destruct (takes_lock (sp_limits (m_span m)) o); injection E as <-; apply K; [apply (CH _ [FEnter o; FCalls l])|apply (CH _ [FCalls l])]; discriminate || reflexivity.
  - injection E as <-. apply K. apply (CN [FCalls l]); [discriminate|reflexivity].
  - destruct (m_lock m); [discriminate|]. destruct (enter o (m_span m)) as [s' fs] eqn:En. injection E as <-. apply K.
    assert (NV : views fs = [] \/ fs = [FLeave; FView None None]).
    { destruct o; cbn in En; try (injection En as <- <-; destruct (is_ended (m_span m)); left; reflexivity).
      - destruct (is_ended (m_span m)); injection En as <- <-; now left.
      - injection En as <- <-; destruct (sp_start (m_span m)); now left.
      - injection En as <- <-; destruct (sp_start (m_span m)); [destruct (is_ended (m_span m))|]; auto. }
    destruct NV as [NV| ->]; [apply CN; [discriminate|exact NV]|]. right. exists None, None, st. split; [reflexivity|]. apply C. discriminate.
  - injection E as <-. apply K. apply (CN [FLeave]); [discriminate|reflexivity].
  - destruct (ba_immutable (sp_attrs (m_span m))); [|destruct (ba_maxlen (sp_attrs (m_span m))) as [[|ml]|]]; injection E as <-; apply K; first [apply (CN [FItems l])|apply (CH _ [FClean kv l])]; discriminate || reflexivity.
  - destruct (valid_key (fst kv)) as [k|]; [destruct (clean_attribute _ _ _) as [v|]|]; injection E as <-; apply K; first [apply (CN [FItems l])|apply (CN [FStore k v l])]; discriminate || reflexivity.
  - injection E as <-. apply K. apply (CN [FItems l]); [discriminate|reflexivity].
  - injection E as <-. apply K. destruct Gs as [V|(n & x & st' & E1 & V)]; [now apply stack_ok_calm|]. injection E1 as ->. now left.
  - destruct n as [n|]; [destruct x as [x|]|]; injection E as <-; apply K; left; cbn; apply C; discriminate.
Qed.
Lemma run_stacks sch : forall m, Forall stack_ok (m_threads m) -> Forall stack_ok (m_threads (fold_left tmove sch m)).
Proof.
  induction sch as [|t sch IH]; intros m R; cbn [fold_left]; [exact R|]. apply IH. unfold Model_SpanThreads.tmove. destruct (tstep t m) as [m'|] eqn:E; [|exact R]. now apply (step_stacks t m).
Qed.
Lemma init_stacks s ps : Forall stack_ok (m_threads (threads_init s ps)).
Proof. cbn. apply Forall_forall. intros st I. apply in_map_iff in I. destruct I as (p & <- & _). now left. Qed.

Lemma only_thread_frames {A} t (l : list (list A)) st : nth_error l t = Some st -> concat (only_thread t l) = st.
Proof.
  revert t. induction l as [|x l IH]; intros [|t] H; try discriminate; cbn in H |- *.
  - injection H as ->. assert (Z : concat (map (fun _ : list A => @nil A) l) = []) by (clear IH; induction l as [|y l IHl]; [reflexivity|exact IHl]). rewrite Z. apply app_nil_r.
  - now apply IH.
Qed.
Lemma ins_concat_nil (l : list (list frame)) st : ins (concat l) = [] -> In st l -> ins st = [].
Proof.
  induction l as [|x l IH]; [intros _ []|]. cbn. rewrite ins_app. intros H [->|I]; [now destruct (ins st)|]. apply IH; [|exact I]. now destruct (ins x).
Qed.
Lemma fork_related t m w : related m w -> Forall stack_ok (m_threads m) -> may_fork t m = true -> m_lock m = None -> related (span_fork t m) (SW (w_span w) 0 []).
Proof.
  intros (I & _ & _ & _ & S) G F L. unfold may_fork in F. destruct (nth_error (m_threads m) t) as [[|f st]|] eqn:N; try discriminate. destruct f; try discriminate.
  assert (Z : ins (concat (m_threads m)) = []) by (destruct (ins (concat (m_threads m))) as [|f [|? ?]]; [reflexivity|destruct I; contradiction|contradiction]).
  rewrite Z in I. destruct I as [_ I]. pose proof (nth_error_In _ _ N) as IN. pose proof (ins_concat_nil _ _ Z IN) as Zs.
  assert (V : views (FCalls l :: st) = []).
  { rewrite Forall_forall in G. destruct (G _ IN) as [V|(? & ? & ? & E & _)]; [exact V|discriminate E]. }
  unfold related, span_fork. cbn [m_threads m_span m_lock m_log w_span w_pending w_log]. rewrite (only_thread_frames _ _ _ N), Zs, V. split; [auto|]. split; [reflexivity|]. split; [|split; [reflexivity|exact S]].
  intros n st0 J. exfalso. assert (Q : In (FView n st0) (views (FCalls l :: st))) by (apply filter_In; auto). rewrite V in Q. destruct Q.
Qed.
Lemma guarded_only t l : Forall guarded l -> Forall guarded (only_thread t l).
Proof.
  revert t. induction l as [|x l IH]; intros [|t] H; cbn; try constructor; inversion H; subst; auto; [|exact I]. apply Forall_forall. intros y J. apply in_map_iff in J. destruct J as (? & <- & _). exact I.
Qed.
(** ** Schedules of calls without the calls of on_end before the fork *)
Lemma sw_same acts : forall w1 w2, w_span w1 = w_span w2 -> w_pending w1 = w_pending w2 -> ended_spans (w_log w1) = ended_spans (w_log w2) ->
  let r1 := fold_left sw_step acts w1 in let r2 := fold_left sw_step acts w2 in
  w_span r1 = w_span r2 /\ w_pending r1 = w_pending r2 /\ ended_spans (w_log r1) = ended_spans (w_log r2).
Proof.
  induction acts as [|a acts IH]; intros w1 w2 A B C; [auto|]. cbn [fold_left]. apply IH; destruct a as [o|]; cbn [sw_step]; rewrite <- ?A, <- ?B; try reflexivity; try exact C.
  - destruct (w_pending w1); [exact A|first [exact A|reflexivity]].
  - destruct (w_pending w1) eqn:Q; [congruence|reflexivity].
  - destruct (w_pending w1); [exact C|]. cbn [w_log]. unfold ended_spans in *. rewrite !flat_map_app, C, A. reflexivity.
Qed.
Lemma sw_ended acts : forall w, is_ended (w_span w) = true -> sp_start (w_span w) <> None -> w_pending w = 0 -> fold_left sw_step acts w = w.
Proof.
  induction acts as [|a acts IH]; intros w E S P; [reflexivity|]. cbn [fold_left]. assert (X : sw_step w a = w).
  { destruct a as [o|]; cbn [sw_step]; [|now rewrite P]. assert (EN : sp_end (w_span w) <> None) by (unfold is_ended in E; now destruct (sp_end (w_span w))). rewrite ended_stays by assumption. rewrite E. destruct w as [s n l]. cbn in *.
    f_equal. destruct o; try reflexivity. now destruct (sp_start s). }
  rewrite X. now apply IH.
Qed.
Lemma fold_end acts : forall w, w_span (fold_left sw_step acts w) = fold_left span_call (flat_map (fun a => match a with ACall o => [o] | AOnEnd => [] end) acts) (w_span w).
Proof.
  induction acts as [|a acts IH]; intros w; [reflexivity|]. cbn [fold_left flat_map]. rewrite IH. destruct a as [o|]; cbn [app fold_left sw_step w_span]; [reflexivity|]. now destruct (w_pending w).
Qed.
Variables (lim : slimits) (name : str) (ctx : span_context) (parent : option span_context) (kind : Z)
  (attrs : pairs) (links : list (option (option span_context * pairs))) (s0 : sdk_span) (t0 : option Z) (now : Z).
Hypothesis LIM : limits_ok lim.
Hypothesis NEW : new_span lim name ctx parent kind attrs links = Ok s0.
Lemma child_result ps sch1 t sch2 :
  let m1 := fold_left tmove sch1 (threads_init (start_locked t0 now s0) ps) in
  let m2 := fold_left tmove sch2 (span_fork t m1) in
  let acts := schedule_of (m_log m1) ++ schedule_of (m_log m2) in
  may_fork t m1 = true -> m_lock m1 = None ->
  (m_lock m2 = None -> carries lim name ctx parent kind attrs links (at_time t0 now) (until_end acts) (m_span m2) /\ sp_end (m_span m2) = first_end acts)
  /\ length (handed_over (m_log m2)) <= (match first_end (schedule_of (m_log m1)) with Some _ => 0 | None => 1 end)
  /\ (forall x, In x (handed_over (m_log m2)) -> carries lim name ctx parent kind attrs links (at_time t0 now) (until_end acts) x /\ sp_end x = first_end acts)
  /\ (finished m2 -> first_end (schedule_of (m_log m1)) = None -> first_end acts <> None -> length (handed_over (m_log m2)) = 1)
  /\ (only_reads handler -> finished m2 \/ exists i m', tstep i m2 = Some m').
Proof.
  cbn zeta. set (m1 := fold_left tmove sch1 (threads_init (start_locked t0 now s0) ps)). set (m2 := fold_left tmove sch2 (span_fork t m1)). intros MF LK.
  destruct (run_world warns warned handler processor s0 t0 now ps sch1) as (w1 & R1 & W1). fold m1 in R1, W1.
  assert (G1 : Forall stack_ok (m_threads m1)) by (apply run_stacks, init_stacks).
  pose proof (fork_related t m1 w1 R1 G1 MF LK) as RF.
  assert (R2 : related m2 (fold_left sw_step (schedule_of (m_log m2)) (SW (w_span w1) 0 []))) by (apply run_related; exact RF).
  set (w2 := fold_left sw_step (schedule_of (m_log m2)) (SW (w_span w1) 0 [])) in *.
  destruct (c24_once lim name ctx parent kind attrs links s0 t0 now (schedule_of (m_log m1)) LIM NEW) as (_ & EN1 & _ & ON1). rewrite <- W1 in EN1, ON1.
  destruct (c24_once lim name ctx parent kind attrs links s0 t0 now (schedule_of (m_log m1) ++ schedule_of (m_log m2)) LIM NEW) as (CA & EN & _ & ON). rewrite fold_left_app, <- W1 in CA, EN, ON.
  assert (SP : w_span (fold_left sw_step (schedule_of (m_log m2)) w1) = w_span w2) by (unfold w2; now rewrite !fold_end).
  rewrite SP in *.
  assert (PL : length (handed_over (m_log m2)) <= (match first_end (schedule_of (m_log m1)) with Some _ => 0 | None => 1 end)
    /\ (forall x, In x (handed_over (m_log m2)) -> x = w_span w2) /\ (w_pending w2 = 0 -> first_end (schedule_of (m_log m1)) = None -> first_end (schedule_of (m_log m1) ++ schedule_of (m_log m2)) <> None -> length (handed_over (m_log m2)) = 1)).
  { destruct R2 as (_ & _ & _ & HO & _). rewrite <- HO. destruct (first_end (schedule_of (m_log m1))) as [e|] eqn:FE.
    - assert (E : is_ended (w_span w1) = true) by (unfold is_ended; now rewrite EN1). destruct R1 as (_ & _ & _ & _ & S1).
      assert (X : w2 = SW (w_span w1) 0 []) by (apply sw_ended; auto). rewrite X. cbn. repeat split; [lia|intros x []|discriminate].
    - destruct ON1 as [P1 L1]. destruct (sw_same (schedule_of (m_log m2)) w1 (SW (w_span w1) 0 []) eq_refl P1 L1) as (_ & SP2 & SL2). fold w2 in SP2, SL2. rewrite SP2, SL2 in ON.
      destruct (first_end (schedule_of (m_log m1) ++ schedule_of (m_log m2))) as [e|]; destruct ON as [O1 O2].
      + split; [lia|]. split; [exact O2|]. intros P0 _ _. lia.
      + rewrite O2. cbn. split; [lia|]. split; [intros x []|]. congruence. }
  destruct PL as (PL1 & PL2 & PL3). split; [|split; [exact PL1|split; [|split]]].
  - intros L. destruct R2 as (I & _). destruct (ins (concat (m_threads m2))) as [|f [|? ?]]; [|destruct I; contradiction|contradiction]. destruct I as [_ ->]. now split.
  - intros x J. rewrite (PL2 x J). now split.
  - intros F FE FN. apply PL3; auto. destruct R2 as (_ & P & _). rewrite (finished_frames _ F) in P. exact P.
  - intros OH. eapply progress; [exact R2|]. apply run_guarded; [exact OH|]. cbn. apply guarded_only. apply run_guarded; [exact OH|]. apply init_guarded.
Qed.
End Fork.
