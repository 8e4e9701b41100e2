(** Blocks in coroutines and generators. *)
From Verif Require Import Spec_Frames Proof_Runtime Proof_Dict.
From Coq Require Import Lia.
Local Open Scope nat_scope.

Section P.
Variable sc : nat -> span_context.
Notation gstep := (gstep sc). Notation grun := (grun sc).

(** Any schedule: the tokens of the open blocks are unused, and they are different *)
Definition block_ok (rt : runtime) (b : blk) : Prop := nth_error (rt_toks rt) (bk_token b) = Some (Tok (bk_task b) (bk_before b) false).
Definition tokens_ok (w : gworld) : Prop :=
  (forall f b, In b (gw_frames w f) -> block_ok (gw_rt w) b)
  /\ (forall f, NoDup (map bk_token (gw_frames w f)))
  /\ (forall f g b c, In b (gw_frames w f) -> In c (gw_frames w g) -> f <> g -> bk_token b <> bk_token c).
Lemma tokens_step w e : tokens_ok w -> tokens_ok (gstep w e).
Proof.
  intros (K & N & D). destruct e as [u f|u f|u v].
  - cbn [Model_Frames.gstep]. unfold attach. cbn [gw_rt gw_frames].
    assert (L : forall g b, In b (gw_frames w g) -> bk_token b < length (rt_toks (gw_rt w))).
    { intros g b I. apply nth_error_Some. rewrite (K g b I). discriminate. }
    split; [|split].
    + intros g b I. cbn [gw_frames] in I. unfold set_frame in I. unfold block_ok. cbn [gw_rt rt_toks]. destruct (Nat.eqb_spec g f) as [->|NE].
      * destruct I as [<-|I]; cbn [bk_token bk_task bk_before].
        -- rewrite nth_error_app2, Nat.sub_diag by lia. reflexivity.
        -- rewrite nth_error_app1 by (eapply L; eassumption). now apply (K f).
      * rewrite nth_error_app1 by (eapply L; eassumption). now apply (K g).
    + intro g. unfold set_frame. cbn [gw_frames]. destruct (Nat.eqb_spec g f) as [->|NE]; [|apply N]. cbn [map bk_token]. constructor; [|apply N].
      intro I. apply in_map_iff in I as (b & E & I). apply L in I. lia.
    + intros g h b c I J NE. unfold set_frame in I, J. cbn [gw_frames] in I, J. destruct (Nat.eqb_spec g f) as [->|NG], (Nat.eqb_spec h f) as [->|NH]; try congruence.
      * destruct I as [<-|I]; [|now apply (D f h)]. cbn [bk_token]. apply L in J. lia.
      * destruct J as [<-|J]; [|now apply (D g f)]. cbn [bk_token]. apply L in I. lia.
      * now apply (D g h).
  - cbn [Model_Frames.gstep]. destruct (gw_frames w f) as [|b r] eqn:E; [now split|].
    assert (Nb := N f). rewrite E in Nb. cbn [map] in Nb. apply NoDup_cons_iff in Nb as [Nb Nr].
    assert (In0 : forall g c, In c (set_frame f r (gw_frames w) g) -> In c (gw_frames w g) /\ bk_token c <> bk_token b).
    { intros g c I. unfold set_frame in I. destruct (Nat.eqb_spec g f) as [->|NG].
      - split; [rewrite E; now right|]. intro X. apply Nb. rewrite <- X. now apply in_map.
      - split; [exact I|]. intro X. apply (D f g b c); [rewrite E; now left|exact I|congruence|congruence]. }
    split; [|split]; cbn [gw_rt gw_frames].
    + intros g c I. apply In0 in I as [I X]. specialize (K g c I). unfold block_ok, detach, var_reset in *.
      destruct (nth_error (rt_toks (gw_rt w)) (bk_token b)) as [k|] eqn:T; [|exact K]. destruct (tk_used k); [exact K|].
      destruct (Nat.eqb (tk_unit k) u); [|exact K]. cbn [rt_toks]. now rewrite nth_mark_used_ne.
    + intro g. unfold set_frame. destruct (Nat.eqb_spec g f); [exact Nr|apply N].
    + intros g h c d I J NE. apply In0 in I as [I _], J as [J _]. now apply (D g h).
  - cbn [Model_Frames.gstep]. split; [exact K|now split].
Qed.
Lemma tokens_run l w : tokens_ok w -> tokens_ok (grun l w).
Proof. revert w. induction l as [|e l IH]; intros w H; [exact H|]. apply IH. now apply tokens_step. Qed.
Lemma tokens_init : tokens_ok gw_init.
Proof. split; [intros f b []|]. split; [intro; constructor|intros f g b c []]. Qed.
Lemma leave_exact w u f b r : tokens_ok w -> gw_frames w f = b :: r ->
  get_current u (gw_rt (gstep w (GLeave u f))) = (if Nat.eqb (bk_task b) u then bk_before b else get_current u (gw_rt w))
  /\ forall v, v <> u -> get_current v (gw_rt (gstep w (GLeave u f))) = get_current v (gw_rt w).
Proof.
  intros (K & _) E. specialize (K f b). rewrite E in K. specialize (K (or_introl eq_refl)). unfold block_ok in K.
  cbn [Model_Frames.gstep]. rewrite E. cbn [gw_rt]. unfold detach, var_reset. rewrite K. cbn [tk_used tk_unit tk_old].
  destruct (Nat.eqb_spec (bk_task b) u) as [EQ|NE]; [|now split]. subst u. unfold get_current, set_cur. cbn [rt_cur]. rewrite Nat.eqb_refl. split; [reflexivity|].
  intros v NV. destruct (Nat.eqb_spec v (bk_task b)); congruence.
Qed.

(** Nested schedules *)
Definition ctxt (o : option nat) : context := match o with None => [] | Some n => [(SPAN_KEY, gspan sc n)] end.
Definition under (p : places) (u : nat) (r : list (nat * nat)) : option nat := match r with (_, n) :: _ => Some n | [] => pl_from p u end.
Record agrees (w : gworld) (p : places) : Prop := {
  ag_tokens : tokens_ok w;
  ag_cur : forall u, get_current u (gw_rt w) = ctxt (innermost p u);
  ag_count : length (gw_parents w) = length (pl_parents p);
  ag_parents : gw_parents w = map (option_map sc) (pl_parents p);
  ag_ended : gw_ended w = pl_ended p;
  ag_blocks : forall u pre f n r, pl_open p u = pre ++ (f, n) :: r -> exists b, In b (gw_frames w f) /\ bk_span b = n /\ bk_task b = u /\ bk_before b = ctxt (under p u r);
  ag_owned : forall f b, In b (gw_frames w f) -> In (f, bk_span b) (pl_open p (bk_task b)) /\ bk_span b < length (pl_parents p);
  ag_sorted : forall f b r pre, gw_frames w f = pre ++ b :: r -> forall c, In c r -> bk_span c < bk_span b;
  ag_desc : forall u pre f n r, pl_open p u = pre ++ (f, n) :: r -> forall g m, In (g, m) r -> m < n;
  ag_one : forall u v f g n, In (f, n) (pl_open p u) -> In (g, n) (pl_open p v) -> u = v;
  ag_lt : forall u f n, In (f, n) (pl_open p u) -> n < length (pl_parents p);
  ag_from : forall u n, pl_from p u = Some n -> n < length (pl_parents p)
}.
Lemma agrees_init : agrees gw_init no_places.
Proof.
  constructor; try reflexivity; try (intros; contradiction).
  - apply tokens_init.
  - intros u [|x pre] f n r E; discriminate.
  - intros f b r [|x pre] E; discriminate.
  - intros u [|x pre] f n r E; discriminate.
  - intros; discriminate.
Qed.
Lemma ctxt_set n o : set_value SPAN_KEY (gspan sc n) (ctxt o) = ctxt (Some n).
Proof. destruct o; reflexivity. Qed.
Lemma ctxt_current o : current_span_context (ctxt o) = match o with Some n => sc n | None => INVALID_SPAN_CONTEXT end.
Proof. destruct o; reflexivity. Qed.
Lemma agrees_step w p e p' : (forall n, n < length (pl_parents p) -> sc_is_valid (sc n) = true) -> agrees w p -> nests p e p' -> agrees (gstep w e) p'.
Proof.
  intros valid [T C L P E B O S Q One Lt Fr] H.
  assert (In0 : forall u n, innermost p u = Some n -> n < length (pl_parents p)).
  { intros u n X. unfold innermost in X. destruct (pl_open p u) as [|[f m] r] eqn:Y; [now apply Fr in X|]. injection X as <-. apply (Lt u f m). rewrite Y. now left. } pose proof (tokens_step w e T) as T'. destruct H as [p u f|p u f n r Hu Hm|p u f Hn|p u v Hv].
  - cbn [Model_Frames.gstep] in *. unfold attach in *. constructor; cbn [gw_rt gw_frames gw_parents gw_ended pl_open pl_from pl_parents pl_ended] in *; [exact T'|..].
    + intro v. unfold get_current, set_cur. cbn [rt_cur]. unfold innermost, upd. cbn [pl_open pl_from]. destruct (Nat.eqb_spec v u) as [->|NE].
      * rewrite L. fold (get_current u (gw_rt w)). rewrite C. apply ctxt_set.
      * apply C.
    + rewrite !app_length. cbn. now rewrite L.
    + rewrite map_app, P. f_equal. cbn. rewrite C, ctxt_current. destruct (innermost p u) as [k|] eqn:Ek; [rewrite valid by (eapply In0; exact Ek); reflexivity|reflexivity].
    + exact E.
    + intros v pre g n r Hv. unfold upd in Hv. unfold set_frame, under. cbn [pl_from]. fold (under p v r).
      assert (X : pl_open p v = pre ++ (g, n) :: r \/ (v = u /\ pre = [] /\ g = f /\ n = length (pl_parents p) /\ r = pl_open p u)
                  \/ (v = u /\ exists pre', pl_open p u = pre' ++ (g, n) :: r)).
      { destruct (Nat.eqb_spec v u) as [->|NE]; [|now left]. destruct pre as [|x pre]; [injection Hv as <- <- <-; right; left; now repeat split|].
        injection Hv as _ Hv. right. right. split; [reflexivity|]. now exists pre. }
      destruct X as [X|[(-> & _ & -> & -> & ->)|(-> & pre' & X)]].
      * destruct (B _ _ _ _ _ X) as (b & I & J). exists b. split; [|exact J]. destruct (Nat.eqb_spec g f) as [->|]; [now right|exact I].
      * rewrite Nat.eqb_refl. eexists. split; [left; reflexivity|]. cbn [bk_span bk_task bk_before]. split; [exact L|]. split; [reflexivity|]. rewrite C. reflexivity.
      * destruct (B _ _ _ _ _ X) as (b & I & J). exists b. split; [|exact J]. destruct (Nat.eqb_spec g f) as [->|]; [now right|exact I].
    + intros g b I. unfold set_frame in I. rewrite app_length. cbn [length]. assert (X : In b (gw_frames w g) \/ (g = f /\ b = Blk (length (gw_parents w)) (length (rt_toks (gw_rt w))) u (get_current u (gw_rt w)))).
      { destruct (Nat.eqb_spec g f) as [->|]; [|now left]. destruct I as [<-|I]; [now right|now left]. }
      destruct X as [X|[-> ->]].
      * apply O in X as [X Y]. split; [|lia]. unfold upd. destruct (Nat.eqb_spec (bk_task b) u) as [EQ|]; [rewrite <- EQ; now right|exact X].
      * cbn [bk_span bk_task]. rewrite L. split; [|lia]. unfold upd. rewrite Nat.eqb_refl. now left.
    + intros g b r pre Hg c I. unfold set_frame in Hg. destruct (Nat.eqb_spec g f) as [->|]; [|now apply (S g b r pre)].
      destruct pre as [|x pre].
      * injection Hg as <- <-. cbn [bk_span]. apply O in I as [_ I]. lia.
      * injection Hg as _ Hg. now apply (S f b r pre).
    + intros v pre g n r Hv h m I. unfold upd in Hv. destruct (Nat.eqb_spec v u) as [->|NE]; [|now apply (Q v pre g n r Hv h)].
      destruct pre as [|x pre]; [injection Hv as <- <- <-; now apply Lt in I|]. injection Hv as _ Hv. now apply (Q u pre g n r Hv h).
    + assert (X : forall v g n, In (g, n) (upd u ((f, length (pl_parents p)) :: pl_open p u) (pl_open p) v) ->
        (v = u /\ n = length (pl_parents p)) \/ In (g, n) (pl_open p v)).
      { intros v g n I. unfold upd in I. destruct (Nat.eqb_spec v u) as [->|]; [|now right]. destruct I as [[= <- <-]|I]; [now left|now right]. }
      intros v v' g h n I J. apply X in I as [[-> ->]|I], J as [[-> E2]|J]; [reflexivity|apply Lt in J; lia|subst n; apply Lt in I; lia|now apply (One v v' g h n)].
    + intros v g n I. rewrite app_length. cbn [length]. unfold upd in I. destruct (Nat.eqb_spec v u) as [->|]; [|apply Lt in I; lia].
      destruct I as [[= <- <-]|I]; [lia|apply Lt in I; lia].
    + intros v n I. rewrite app_length. apply Fr in I. lia.
  - assert (F : exists b r', gw_frames w f = b :: r' /\ bk_span b = n /\ bk_task b = u /\ bk_before b = ctxt (under p u r)).
    { destruct (B u [] f n r Hu) as (b & I & E1 & E2 & E3). apply in_split in I as (pre & r' & I). destruct pre as [|x pre]; [now exists b, r'|].
      exfalso. pose proof (S f x (pre ++ b :: r') [] I b) as X. assert (Ib : In b (pre ++ b :: r')) by (apply in_or_app; right; now left). specialize (X Ib).
      destruct (O f x) as [Ox _]; [rewrite I; now left|]. apply Hm in Ox. lia. }
    destruct F as (b & r' & F & E1 & E2 & E3). pose proof (leave_exact w u f b r' T F) as [X1 X2]. rewrite E2, Nat.eqb_refl, E3 in X1.
    assert (Gs : gstep w (GLeave u f) = GW (detach u (bk_token b) (gw_rt w)) (set_frame f r' (gw_frames w)) (gw_parents w) (gw_ended w ++ [bk_span b])).
    { cbn [Model_Frames.gstep]. now rewrite F. }
    rewrite Gs in *. constructor; cbn [gw_rt gw_frames gw_parents gw_ended pl_open pl_from pl_parents pl_ended] in *; [exact T'|..].
    + intro v. unfold innermost, upd. cbn [pl_open pl_from]. destruct (Nat.eqb_spec v u) as [->|NE]; [exact X1|]. rewrite X2 by exact NE. apply C.
    + exact L.
    + exact P.
    + now rewrite E, E1.
    + intros v pre g m s Hv. unfold upd in Hv. unfold under. cbn [pl_from]. fold (under p v s).
      assert (X : exists pre', pl_open p v = pre' ++ (g, m) :: s /\ m <> n).
      { destruct (Nat.eqb_spec v u) as [->|NE].
        - exists ((f, n) :: pre). split; [rewrite Hu, Hv; reflexivity|]. pose proof (Q u [] f n r Hu g m) as X.
          assert (I : In (g, m) r) by (rewrite Hv; apply in_or_app; right; now left). specialize (X I). lia.
        - exists pre. split; [exact Hv|]. intros ->. apply NE. apply (One v u g f n); [rewrite Hv; apply in_or_app; right; now left|rewrite Hu; now left]. }
      destruct X as (pre' & X & NE). destruct (B _ _ _ _ _ X) as (c & I & J1 & J2 & J3). exists c. split; [|now repeat split].
      unfold set_frame. destruct (Nat.eqb_spec g f) as [->|]; [|exact I]. rewrite F in I. destruct I as [<-|I]; [congruence|exact I].
    + intros g c I. assert (X : In c (gw_frames w g) /\ bk_span c <> n).
      { unfold set_frame in I. destruct (Nat.eqb_spec g f) as [->|NE].
        - split; [rewrite F; now right|]. pose proof (S f b r' [] F c I). lia.
        - split; [exact I|]. intros X. destruct (O g c I) as [Oc _]. rewrite X in Oc.
          assert (Y : In (f, n) (pl_open p u)) by (rewrite Hu; now left). pose proof (One _ _ _ _ _ Oc Y) as Z. rewrite Z, Hu in Oc.
          destruct Oc as [[= ?]|Oc]; [congruence|]. apply (Q u [] f n r Hu) in Oc. lia. }
      destruct X as [X NE]. apply O in X as [X Y]. split; [|exact Y]. unfold upd. destruct (Nat.eqb_spec (bk_task c) u) as [EQ|]; [|exact X].
      rewrite EQ, Hu in X. destruct X as [[= _ X]|X]; [congruence|exact X].
    + intros g c s pre Hg d I. unfold set_frame in Hg. destruct (Nat.eqb_spec g f) as [->|]; [|now apply (S g c s pre)].
      apply (S f c s (b :: pre)); [rewrite F, Hg; reflexivity|exact I].
    + intros v pre g m s Hv h k I. unfold upd in Hv. destruct (Nat.eqb_spec v u) as [->|NE]; [|now apply (Q v pre g m s Hv h)].
      apply (Q u ((f, n) :: pre) g m s) with h; [rewrite Hu, Hv; reflexivity|exact I].
    + assert (X : forall v g m, In (g, m) (upd u r (pl_open p) v) -> In (g, m) (pl_open p v)).
      { intros v g m I. unfold upd in I. destruct (Nat.eqb_spec v u) as [->|]; [rewrite Hu; now right|exact I]. }
      intros v v' g h m I J. now apply (One v v' g h m); apply X.
    + intros v g m I. apply (Lt v g). unfold upd in I. destruct (Nat.eqb_spec v u) as [->|]; [rewrite Hu; now right|exact I].
    + exact Fr.
  - assert (F : gw_frames w f = []).
    { destruct (gw_frames w f) as [|b r] eqn:F; [reflexivity|]. exfalso. destruct (O f b) as [X _]; [rewrite F; now left|]. exact (Hn _ _ X). }
    cbn [Model_Frames.gstep]. rewrite F. now constructor.
  - constructor; cbn [Model_Frames.gstep gw_rt gw_frames gw_parents gw_ended pl_open pl_from pl_parents pl_ended] in *; auto.
    + intro x. unfold get_current. cbn [rt_step rt_cur]. unfold set_cur, innermost, upd. cbn [pl_open pl_from]. destruct (Nat.eqb_spec x v) as [->|NE]; [|apply C].
      rewrite Hv. apply C.
    + intros x pre f n r Hx. destruct (B x pre f n r Hx) as (b & I & J1 & J2 & J3). exists b. split; [exact I|]. split; [exact J1|]. split; [exact J2|].
      rewrite J3. f_equal. unfold under, upd. cbn [pl_from]. destruct r as [|[? ?] ?]; [|reflexivity]. destruct (Nat.eqb_spec x v) as [->|]; [|reflexivity].
      rewrite Hv in Hx. now destruct pre.
    + intros x n X. unfold upd in X. destruct (Nat.eqb_spec x v); [now apply In0 in X|now apply Fr in X].
Qed.
Lemma nests_more p e p' : nests p e p' -> length (pl_parents p) <= length (pl_parents p').
Proof. destruct 1; cbn [pl_parents]; rewrite ?app_length; lia. Qed.
Lemma nested_more p l p' : nested_run p l p' -> length (pl_parents p) <= length (pl_parents p').
Proof. induction 1 as [|p e p1 l p2 H _ IH]; [lia|]. apply nests_more in H. lia. Qed.
Lemma agrees_run l : forall w p p', agrees w p -> nested_run p l p' -> (forall n, n < length (pl_parents p') -> sc_is_valid (sc n) = true) -> agrees (grun l w) p'.
Proof.
  induction l as [|e l IH]; intros w p p' A H V; inversion H as [|p0 e0 p1 l0 p2 H1 H2]; subst; [exact A|]. eapply IH; [|eassumption|exact V].
  eapply agrees_step; [|eassumption|eassumption]. intros n L. apply V. apply nests_more in H1. apply nested_more in H2. lia.
Qed.

(** Own tasks *)
Lemma own_nested l : own_tasks l -> exists p, nested_run no_places l p.
Proof.
  clear sc.
  assert (G : forall l pre p, own_tasks (pre ++ l) -> (forall u f m, In (f, m) (pl_open p u) -> f = u) -> (forall u, pl_open p u <> [] -> In (GEnter u u) pre) ->
    (forall u pre f n r, pl_open p u = pre ++ (f, n) :: r -> forall g m, In (g, m) r -> m < n) -> (forall u f n, In (f, n) (pl_open p u) -> n < length (pl_parents p)) ->
    exists p', nested_run p l p').
  { clear l. induction l as [|e l IH]; intros pre p [F A] O K D Lt; [exists p; constructor|].
    assert (Fe : own_frame e) by (rewrite Forall_forall in F; apply F; apply in_or_app; right; now left).
    assert (Nx : own_tasks ((pre ++ [e]) ++ l)) by (rewrite <- app_assoc; now split).
    assert (St : exists p1, nests p e p1 /\ (forall u f m, In (f, m) (pl_open p1 u) -> f = u) /\ (forall u, pl_open p1 u <> [] -> In (GEnter u u) (pre ++ [e])) /\
      (forall u pre f n r, pl_open p1 u = pre ++ (f, n) :: r -> forall g m, In (g, m) r -> m < n) /\ (forall u f n, In (f, n) (pl_open p1 u) -> n < length (pl_parents p1))).
    { destruct e as [u f|u f|u v]; cbn in Fe; [subst f|subst f|].
      - eexists. split; [apply nests_enter|]. cbn [pl_open pl_parents]. unfold upd. split; [|split; [|split]].
        + intros v f m I. destruct (Nat.eqb_spec v u) as [->|]; [|now apply (O v f m)]. destruct I as [[= <- _]|I]; [reflexivity|now apply (O u f m)].
        + intros v X. apply in_or_app. destruct (Nat.eq_dec v u) as [EQ|NE]; [subst v; right; now left|left; apply K; now destruct (Nat.eqb_spec v u)].
        + intros v pr g n r Hv h m I. destruct (Nat.eqb_spec v u) as [->|]; [|now apply (D v pr g n r Hv h)].
          destruct pr as [|x pr]; [injection Hv as <- <- <-; now apply Lt in I|]. injection Hv as _ Hv. now apply (D u pr g n r Hv h).
        + intros v g n I. rewrite app_length. cbn [length]. destruct (Nat.eqb_spec v u) as [->|]; [|apply Lt in I; lia].
          destruct I as [[= _ <-]|I]; [lia|apply Lt in I; lia].
      - destruct (pl_open p u) as [|[f n] r] eqn:E.
        + exists p. split; [apply nests_none; intros v m I; pose proof (O v u m I); subst v; rewrite E in I; destruct I|].
          split; [exact O|]. split; [|now split]. intros v X. apply in_or_app. left. now apply K.
        + assert (f = u) by (apply (O u f n); rewrite E; now left). subst f. eexists. split.
          { eapply nests_leave; [exact E|]. intros v m I. pose proof (O v u m I). subst v. rewrite E in I. destruct I as [[= <-]|I]; [lia|].
            apply (D u [] u n r E) in I. lia. }
          cbn [pl_open pl_parents]. unfold upd. split; [|split; [|split]].
          * intros v g m I. destruct (Nat.eqb_spec v u) as [->|]; [apply (O u g m); rewrite E; now right|now apply (O v g m)].
          * intros v X. apply in_or_app. left. apply K. destruct (Nat.eqb_spec v u) as [EQ|NE]; [subst v; rewrite E; discriminate|exact X].
          * intros v pr g k s Hv h m I. destruct (Nat.eqb_spec v u) as [->|]; [|now apply (D v pr g k s Hv h)].
            apply (D u ((u, n) :: pr) g k s) with h; [rewrite E, Hv; reflexivity|exact I].
          * intros v g k I. apply (Lt v g). destruct (Nat.eqb_spec v u) as [->|]; [rewrite E; now right|exact I].
      - assert (E : pl_open p v = []).
        { destruct (pl_open p v) as [|x y] eqn:E; [reflexivity|]. exfalso. apply (A pre u v l v eq_refl). apply K. rewrite E. discriminate. }
        eexists. split; [now apply nests_task|]. cbn [pl_open pl_parents]. split; [exact O|]. split; [|now split].
        intros x X. apply in_or_app. left. now apply K. }
    destruct St as (p1 & H1 & O1 & K1 & D1 & L1). destruct (IH (pre ++ [e]) p1 Nx O1 K1 D1 L1) as [p' H']. exists p'. econstructor; eassumption. }
  intro H. apply (G l [] no_places H); try (intros; contradiction). intros u [|x pre] f n r X; discriminate.
Qed.

(** Any schedule: spans and tokens have the same numbers *)
Definition numbers_ok (w : gworld) : Prop :=
  length (rt_toks (gw_rt w)) = length (gw_parents w) /\ (forall f b, In b (gw_frames w f) -> bk_span b = bk_token b /\ bk_span b < length (gw_parents w))
  /\ (forall n, In n (gw_ended w) -> n < length (gw_parents w)).
Lemma mark_length t l : length (mark_used t l) = length l.
Proof. revert t. induction l as [|k l IH]; intros [|t]; cbn; auto. Qed.
Lemma detach_length u t rt : length (rt_toks (detach u t rt)) = length (rt_toks rt).
Proof.
  unfold detach, var_reset. destruct (nth_error (rt_toks rt) t) as [k|]; [|reflexivity]. destruct (tk_used k); [reflexivity|].
  destruct (Nat.eqb (tk_unit k) u); [|reflexivity]. cbn [rt_toks]. apply mark_length.
Qed.
Lemma numbers_step w e : numbers_ok w -> numbers_ok (gstep w e).
Proof.
  intros (L & B & E). destruct e as [u f|u f|u v]; cbn [Model_Frames.gstep].
  - unfold attach. split; [|split]; cbn [gw_rt gw_frames gw_parents gw_ended rt_toks]; rewrite ?app_length; cbn [length].
    + now rewrite L.
    + intros g b I. unfold set_frame in I. destruct (Nat.eqb_spec g f) as [->|]; [|apply B in I; lia]. destruct I as [<-|I]; [cbn; lia|apply B in I; lia].
    + intros n I. apply E in I. lia.
  - destruct (gw_frames w f) as [|b r] eqn:F; [now split|]. split; [|split]; cbn [gw_rt gw_frames gw_parents gw_ended].
    + now rewrite detach_length.
    + intros g c I. apply (B g). unfold set_frame in I. destruct (Nat.eqb_spec g f) as [->|]; [rewrite F; now right|exact I].
    + intros n I. apply in_app_iff in I as [I|[<-|[]]]; [now apply E|]. apply (B f). rewrite F. now left.
  - now split.
Qed.
Lemma numbers_run l : forall w, numbers_ok w -> numbers_ok (grun l w).
Proof. induction l as [|e l IH]; intros w H; [exact H|]. apply IH. now apply numbers_step. Qed.
Lemma numbers_init : numbers_ok gw_init.
Proof. split; [reflexivity|]. split; [intros f b []|intros n []]. Qed.
(** A block of a frame that does nothing stays open, and its span does not end *)
Lemma idle_step w e f b : tokens_ok w -> numbers_ok w -> idle f e -> In b (gw_frames w f) -> ~ In (bk_span b) (gw_ended w) ->
  gw_frames (gstep w e) f = gw_frames w f /\ ~ In (bk_span b) (gw_ended (gstep w e)).
Proof.
  intros (K & N & D) (L & B & E) Id I NE. destruct e as [u g|u g|u v]; cbn [Model_Frames.gstep idle] in *.
  - unfold attach. cbn [gw_frames gw_ended]. unfold set_frame. destruct (Nat.eqb_spec f g); [congruence|]. now split.
  - destruct (gw_frames w g) as [|c r] eqn:F; [now split|]. cbn [gw_frames gw_ended]. unfold set_frame. destruct (Nat.eqb_spec f g); [congruence|]. split; [reflexivity|].
    rewrite in_app_iff. intros [X|[X|[]]]; [now apply NE|]. assert (Ic : In c (gw_frames w g)) by (rewrite F; now left).
    apply (D f g b c I Ic); [congruence|]. apply B in I as [I _], Ic as [Ic _]. congruence.
  - now split.
Qed.
Lemma idle_run l f b : forall w, tokens_ok w -> numbers_ok w -> Forall (idle f) l -> In b (gw_frames w f) -> ~ In (bk_span b) (gw_ended w) ->
  gw_frames (grun l w) f = gw_frames w f /\ ~ In (bk_span b) (gw_ended (grun l w)).
Proof.
  induction l as [|e l IH]; intros w T N Id I NE; [now split|]. apply Forall_cons_iff in Id as [Ie Id]. destruct (idle_step w e f b T N Ie I NE) as [F X].
  destruct (IH (gstep w e) (tokens_step w e T) (numbers_step w e N) Id) as [G Y]; [now rewrite F|exact X|]. split; [|exact Y]. now rewrite <- F.
Qed.
Definition ok (w : gworld) : Prop := tokens_ok w /\ numbers_ok w.
Lemma ok_run l : ok (grun l gw_init).
Proof. split; [apply tokens_run, tokens_init|apply numbers_run, numbers_init]. Qed.
Lemma enter_facts w u f : ok w -> let w1 := gstep w (GEnter u f) in let n := length (gw_parents w) in
  (exists b, gw_frames w1 f = b :: gw_frames w f /\ bk_span b = n /\ bk_task b = u /\ bk_before b = get_current u (gw_rt w))
  /\ ~ In n (gw_ended w1) /\ gcurrent u w1 = sc n
  /\ nth_error (gw_parents w1) n = Some (if sc_is_valid (gcurrent u w) then Some (gcurrent u w) else None).
Proof.
  intros (T & L & B & E). cbn [Model_Frames.gstep]. unfold attach. cbn [gw_frames gw_ended gw_parents]. split; [|split; [|split]].
  - eexists. split; [unfold set_frame; rewrite Nat.eqb_refl; reflexivity|]. now repeat split.
  - intro I. apply E in I. lia.
  - unfold gcurrent, get_current, set_cur. cbn [gw_rt rt_cur]. rewrite Nat.eqb_refl. unfold current_span_context, get_current_span, get_value, set_value.
    now rewrite dget_dset_eq.
  - rewrite nth_error_app2, Nat.sub_diag by lia. reflexivity.
Qed.
(** A block of a frame that does nothing else in it *)
Lemma around w u f l u' : ok w -> Forall (idle f) l ->
  let n := length (gw_parents w) in let w2 := grun l (gstep w (GEnter u f)) in let w3 := gstep w2 (GLeave u' f) in
  ~ In n (gw_ended w2) /\ In n (gw_ended w3) /\
  get_current u' (gw_rt w3) = (if Nat.eqb u u' then get_current u (gw_rt w) else get_current u' (gw_rt w2)).
Proof.
  intros K Id n w2 w3. destruct (enter_facts w u f K) as ((b & F & E1 & E2 & E3) & X & _). destruct K as [T N].
  assert (T1 := tokens_step w (GEnter u f) T). assert (N1 := numbers_step w (GEnter u f) N).
  destruct (idle_run l f b (gstep w (GEnter u f)) T1 N1 Id) as [G Y]; [rewrite F; now left|now rewrite E1|]. rewrite F in G. rewrite E1 in Y.
  fold w2 in G, Y. split; [exact Y|]. split.
  - unfold w3. cbn [Model_Frames.gstep]. rewrite G. cbn [gw_ended]. rewrite E1. apply in_or_app. right. now left.
  - pose proof (leave_exact w2 u' f b _ (tokens_run l _ T1) G) as [Z _]. fold w3 in Z. now rewrite E2, E3 in Z.
Qed.
End P.
