(** Proofs for C34-C37. *)
From Verif Require Import Spec_Processor Proof_Runtime.
Local Open Scope nat_scope.

Local Arguments handed_over : simpl never.
Local Arguments Nat.leb : simpl never.
Local Arguments Nat.ltb : simpl never.
Local Arguments Nat.sub : simpl never.

Section Batch.
Variable item : Type.
Variable sampled : item -> bool.
Variable maxq maxb : nat.
Hypothesis Hq : 1 <= maxq.
Hypothesis Hb : 1 <= maxb.

Notation bsp := (bsp item).
Notation wpc := (wpc item).
Notation step := (bsp_step item sampled maxq maxb).

Definition fr_is (r : nat) (fr : freq) : Prop := match fr with Some (r', _) => r' = r | None => False end.

Definition k_holds (k : cont) (r : nat) : Prop :=
  match k with KOnce => False | KFlush r' _ => r' = r | KDrain a b => fr_is r a \/ fr_is r b end.
Definition holds (w : wpc) (r : nat) : Prop :=
  match w with
  | WTest fr | WEmpty fr | WCheck2 fr | WExport fr | WNotify fr | WFinal fr | WFin2 fr => fr_is r fr
  | WLoop r' _ => r' = r
  | WPop k _ | WSend k _ => k_holds k r
  | WDrain a b | WFin1 a b => fr_is r a \/ fr_is r b
  | _ => False
  end.
Definition fr_need (fr : freq) (g r n0 : nat) : Prop :=
  match fr with Some (r', n) => r' = r -> n0 <= g + n | None => True end.
Definition need (w : wpc) (g r n0 : nat) : Prop :=
  match w with
  | WTest fr | WEmpty fr | WCheck2 fr | WExport fr => fr_need fr g r n0
  | WLoop r' n => r' = r -> n0 <= g + n
  | WPop (KFlush r' n) b | WSend (KFlush r' n) b => r' = r -> n0 + length b <= g + n
  | WNotify fr | WFin2 fr => fr_is r fr -> n0 <= g
  | WFin1 a b => fr_is r a \/ fr_is r b -> n0 <= g
  | _ => True
  end.
Definition fin (w : wpc) : Prop := match w with WFin1 _ _ | WFin2 _ | WEnd => True | _ => False end.
Definition final (w : wpc) : Prop :=
  match w with
  | WFinal _ | WDrain _ _ | WPop (KDrain _ _) _ | WSend (KDrain _ _) _ | WFin1 _ _ | WFin2 _ | WEnd => True
  | _ => False
  end.
Definition locked (w : wpc) : bool :=
  match w with WCheck | WGet | WTest _ | WGet2 | WEmpty _ | WCheck2 _ => true | _ => false end.
Definition wok (w : wpc) (q : list item) : Prop :=
  match w with
  | WCheck2 _ | WExport None | WPop _ [] => q <> []
  | WPop _ b => length b <= maxb
  | WSend _ b => 1 <= length b <= maxb
  | _ => True
  end.
Definition sett (n : nat) (gone : list (item * fate)) : Prop :=
  n <= length gone /\ forall i x f, i < n -> nth_error gone i = Some (x, f) -> f <> InFlight.

Definition tinv (s : bsp) (t : nat) : Prop :=
  match b_thr s t with
  | TAppend x => sampled x = true
  | TPoke x | TOnEndRet x true => In x (b_acc s)
  | TOnEndRet x false => sampled x = false \/ b_done s = true
  | TFlush n0 | TFlushReq n0 => n0 <= length (b_acc s)
  | TFlushWait r n0 =>
      n0 <= length (b_acc s) /\ r < b_next s /\ (In r (b_set s) -> sett n0 (b_gone s))
      /\ need (b_wpc s) (length (b_gone s)) r n0
  | TFlushRet n0 false true => sett n0 (b_gone s)
  | TShut n0 f => n0 <= length (b_acc s) /\ (f = true -> fin (b_wpc s) -> sett n0 (b_gone s))
  | TShutPoke n0 f | TShutJoin n0 f =>
      n0 <= length (b_acc s) /\ (f = true -> fin (b_wpc s) -> sett n0 (b_gone s)) /\ b_done s = true
  | TShutExp n0 f | TShutRet n0 f =>
      b_wpc s = WEnd /\ (f = true -> sett n0 (b_gone s))
  | _ => True
  end.

Record ginv (s : bsp) : Prop := GInv {
  g_acc : b_acc s = map fst (b_gone s) ++ b_queue s;
  g_log : handed_over (b_log s) ++ assembling (b_wpc s)
          = map fst (filter (fun p => was_taken (snd p)) (b_gone s));
  g_fly : map fst (filter (fun p => in_flight (snd p)) (b_gone s)) = current_batch (b_wpc s);
  g_len : length (b_queue s) <= maxq;
  g_wok : wok (b_wpc s) (b_queue s);
  g_bat : forall b, In (XExport b) (b_log s) -> 1 <= length b <= maxb;
  g_req : forall r, b_req s = Some r -> r < b_next s /\ ~ In r (b_set s) /\ ~ holds (b_wpc s) r;
  g_set : forall r, In r (b_set s) -> r < b_next s;
  g_hld : forall r, holds (b_wpc s) r -> r < b_next s;
  g_fin : final (b_wpc s) -> b_done s = true;
  g_lck : b_lock s = locked (b_wpc s);
  g_shp : exists bs n, b_log s = map XExport bs ++ repeat XShutdown n /\ (b_wpc s = WEnd \/ n = 0);
  g_smp : forall x, In x (b_acc s) -> sampled x = true
}.
Definition inv (s : bsp) : Prop := ginv s /\ forall t, tinv s t.

(** *** Lists *)
Lemma sett_le n g : sett n g -> n <= length g. Proof. firstorder. Qed.
Lemma sett_app n g e : sett n g -> sett n (g ++ e).
Proof.
  intros [H1 H2]; split; [rewrite app_length; lia|].
  intros i x f Hi. rewrite nth_error_app1 by lia. eauto.
Qed.
Lemma sett_land n g : sett n g -> sett n (map (fun p : item * fate => (fst p, landed (snd p))) g).
Proof.
  intros [H1 H2]; split; [rewrite map_length; lia|].
  intros i x f Hi. rewrite nth_error_map. destruct (nth_error g i) as [[y h]|] eqn:E; [|discriminate].
  cbn. intros H; injection H as <- <-. destruct h; cbn; discriminate.
Qed.
Lemma no_fly_sett n (g : list (item * fate)) :
  map fst (filter (fun p => in_flight (snd p)) g) = [] -> n <= length g -> sett n g.
Proof.
  intros H Hn; split; [exact Hn|]. intros i x f Hi E ->.
  apply nth_error_In in E.
  assert (Hin : In (x, InFlight) (filter (fun p => in_flight (snd p)) g)) by (apply filter_In; auto).
  apply (in_map fst) in Hin. rewrite H in Hin. exact Hin.
Qed.
Lemma land_taken (g : list (item * fate)) :
  map fst (filter (fun p => was_taken (snd p)) (map (fun p => (fst p, landed (snd p))) g))
  = map fst (filter (fun p => was_taken (snd p)) g).
Proof. induction g as [|[x f] g IH]; cbn; [reflexivity|]. destruct f; cbn; congruence. Qed.
Lemma land_fly (g : list (item * fate)) :
  map fst (filter (fun p => in_flight (snd p)) (map (fun p => (fst p, landed (snd p))) g)) = [].
Proof. induction g as [|[x f] g IH]; cbn; [reflexivity|]. destruct f; cbn; congruence. Qed.
Lemma land_fst (g : list (item * fate)) :
  map fst (map (fun p => (fst p, landed (snd p))) g) = map fst g.
Proof. rewrite map_map. apply map_ext. reflexivity. Qed.
Lemma need_mono w g g' r n0 : g <= g' -> need w g r n0 -> need w g' r n0.
Proof.
  intros Hg. destruct w; cbn; unfold fr_need; try (destruct fr as [[? ?]|]); try (destruct k); cbn; try lia; auto;
    intros H ?; try (specialize (H ltac:(assumption))); lia.
Qed.
Lemma handed_app l1 l2 : handed_over (item:=item) (l1 ++ l2) = handed_over l1 ++ handed_over l2.
Proof. unfold handed_over. apply flat_map_app. Qed.
Lemma handed_repeat n : handed_over (item:=item) (repeat XShutdown n) = [].
Proof. induction n; cbn; auto. Qed.

Lemma inv_init d p : inv (bsp_init item d p).
Proof.
  split.
  - constructor; cbn; auto; try lia; try tauto; try discriminate.
    + intros r Hr. destruct p; [|discriminate]. injection Hr as <-. split; [lia|tauto].
    + exists [], 0. split; auto.
  - intros t. exact I.
Qed.

Lemma inv_fork s : inv s -> inv (bsp_fork item s).
Proof.
  intros [G _]. split.
  - constructor; cbn; auto; try lia; try tauto; try discriminate.
    + intros r Hr. destruct (g_req s G r Hr) as (A & B & _). auto.
    + apply (g_set s G).
    + exists [], 0. split; auto.
  - intros t. exact I.
Qed.

(** Queue length in terms of accepted and gone. *)
Lemma acc_len s : ginv s -> length (b_acc s) = length (b_gone s) + length (b_queue s).
Proof. intros H. rewrite (g_acc s H), app_length, map_length. reflexivity. Qed.


(** What a worker step must do for the threads. *)
Lemma worker_threads s s' :
  b_thr s' = b_thr s -> b_acc s' = b_acc s -> b_done s' = b_done s -> b_next s' = b_next s ->
  b_wpc s <> WEnd ->
  (forall n, sett n (b_gone s) -> sett n (b_gone s')) ->
  (forall r n0, n0 <= length (b_acc s) -> need (b_wpc s) (length (b_gone s)) r n0 ->
     need (b_wpc s') (length (b_gone s')) r n0
     /\ (In r (b_set s') -> In r (b_set s) \/ sett n0 (b_gone s'))) ->
  (fin (b_wpc s') -> fin (b_wpc s) \/ forall n0, n0 <= length (b_acc s) -> sett n0 (b_gone s')) ->
  (forall t, tinv s t) -> forall t, tinv s' t.
Proof.
  intros Ht Ha Hd Hn Hw Hs Hneed Hfin H t. specialize (H t). unfold tinv in *.
  rewrite Ht, Ha, Hd, Hn.
  destruct (b_thr s t) as [| | | |x taken| | | | | | | | |]; auto.
  - destruct H as (A & B & C & D). destruct (Hneed r n0 A D) as [E F].
    split; [|split; [|split]]; auto. intros Hin. destruct (F Hin); auto.
  - destruct was_done, res; auto.
  - destruct H as (A & B). split; auto. intros Hf Hfi. destruct (Hfin Hfi) as [G|G]; auto.
  - destruct H as (A & B & C). split; [|split]; auto; intros Hf Hfi; destruct (Hfin Hfi) as [G|G]; auto.
  - destruct H as (A & B & C). split; [|split]; auto; intros Hf Hfi; destruct (Hfin Hfi) as [G|G]; auto.
  - tauto.
  - tauto.
Qed.

Ltac shp := try (match goal with H : exists bs n, _ /\ _ |- exists bs n, _ /\ _ =>
  destruct H as (? & ? & ? & [?|?]); [discriminate|do 2 eexists; split; eauto] end).

Definition wstep_ok (s : bsp) : Prop := forall s', worker_step item maxb s = Some s' -> inv s'.

Lemma threads_plain s s' :
  b_thr s' = b_thr s -> b_acc s' = b_acc s -> b_done s' = b_done s -> b_next s' = b_next s ->
  b_gone s' = b_gone s -> b_set s' = b_set s ->
  b_wpc s <> WEnd -> ~ fin (b_wpc s') ->
  (forall r n0, n0 <= length (b_acc s) -> need (b_wpc s) (length (b_gone s)) r n0 ->
     need (b_wpc s') (length (b_gone s)) r n0) ->
  (forall t, tinv s t) -> forall t, tinv s' t.
Proof.
  intros A B C D G S W F N H. eapply worker_threads; eauto; rewrite ?G, ?S; auto.
  tauto.
Qed.

Lemma w_top s : inv s -> b_wpc s = WTop -> wstep_ok s.
Proof.
  intros [HG HT] E s' H. unfold worker_step in H. rewrite E in H. injection H as <-.
  split.
  - destruct HG. rewrite E in *. destruct (b_done s) eqn:D; constructor; cbn; auto; try tauto; shp; try discriminate.
  - apply (threads_plain s); auto; rewrite ?E; cbn; try discriminate; destruct (b_done s) eqn:D; cbn; auto.
Qed.
Lemma w_acquire s : inv s -> b_wpc s = WAcquire -> wstep_ok s.
Proof.
  intros [HG HT] E s' H. unfold worker_step in H. rewrite E in H.
  destruct (b_lock s) eqn:L; [discriminate|]. injection H as <-.
  split.
  - destruct HG. rewrite E in *. constructor; cbn; auto; shp; tauto.
  - apply (threads_plain s); auto; rewrite ?E; cbn; auto; discriminate.
Qed.
Lemma w_check s : inv s -> b_wpc s = WCheck -> wstep_ok s.
Proof.
  intros [HG HT] E s' H. unfold worker_step in H. rewrite E in H. injection H as <-.
  split.
  - destruct HG. rewrite E in *. destruct (b_done s) eqn:D; constructor; cbn; auto; try tauto; shp; try discriminate.
  - apply (threads_plain s); auto; rewrite ?E; cbn; try discriminate; destruct (b_done s) eqn:D; cbn; auto.
Qed.
Lemma w_get s : inv s -> b_wpc s = WGet -> wstep_ok s.
Proof.
  intros [HG HT] E s' H. unfold worker_step in H. rewrite E in H. injection H as <-.
  split.
  - destruct HG. rewrite E in *. constructor; cbn; auto; try tauto; shp; try discriminate.
    intros r. destruct (b_req s) as [r'|] eqn:R; cbn; [|tauto]. intros <-. apply (g_req0 r' eq_refl).
  - apply (threads_plain s); auto; rewrite ?E; cbn; try discriminate; auto.
    intros r n0 Hn _. rewrite (acc_len s HG) in Hn.
    destruct (b_req s); cbn; auto.
Qed.
Lemma w_test s fr : inv s -> b_wpc s = WTest fr -> wstep_ok s.
Proof.
  intros [HG HT] E s' H. unfold worker_step in H. rewrite E in H. injection H as <-.
  split.
  - destruct HG. rewrite E in *.
    destruct fr as [[r n]|]; [|destruct (Nat.ltb_spec (length (b_queue s)) maxb)];
      constructor; cbn in *; auto; try tauto; shp; try discriminate.
    intros Q. rewrite Q in *. cbn in *. lia.
  - apply (threads_plain s); auto; rewrite ?E; try discriminate; cbn [b_wpc wgoto];
    (destruct fr as [[r n]|]; [|destruct (Nat.ltb_spec (length (b_queue s)) maxb)]; cbn; auto).
Qed.
Lemma w_wait s : inv s -> b_wpc s = WWait -> wstep_ok s.
Proof.
  intros [HG HT] E s' H. unfold worker_step in H. rewrite E in H.
  destruct (b_lock s) eqn:L; [discriminate|]. injection H as <-.
  split.
  - destruct HG. rewrite E in *. constructor; cbn; auto; shp; tauto.
  - apply (threads_plain s); auto; rewrite ?E; cbn; auto; discriminate.
Qed.
Lemma w_get2 s : inv s -> b_wpc s = WGet2 -> wstep_ok s.
Proof.
  intros [HG HT] E s' H. unfold worker_step in H. rewrite E in H. injection H as <-.
  split.
  - destruct HG. rewrite E in *. constructor; cbn; auto; try tauto; shp; try discriminate.
    intros r. destruct (b_req s) as [r'|] eqn:R; cbn; [|tauto]. intros <-. apply (g_req0 r' eq_refl).
  - apply (threads_plain s); auto; rewrite ?E; cbn; try discriminate; auto.
    intros r n0 Hn _. rewrite (acc_len s HG) in Hn.
    destruct (b_req s); cbn; auto.
Qed.

(** Setting the event of a request all whose waiters are satisfied. *)
Lemma notify_ginv fr s w : ginv s ->
  handed_over (b_log s) ++ assembling w = handed_over (b_log s) ++ assembling (b_wpc s) ->
  current_batch w = current_batch (b_wpc s) -> wok w (b_queue s) ->
  (forall r, fr_is r fr -> holds (b_wpc s) r) -> (forall r, holds w r -> holds (b_wpc s) r) ->
  (final w -> b_done s = true) -> b_wpc s <> WEnd ->
  ginv (wlock item (locked w) (wgoto item w (notify item fr s))).
Proof.
  intros HG A C W F Hh Hf Hne. destruct HG.
  destruct fr as [[r n]|]; cbn in *.
  - constructor; cbn; auto; try congruence.
    + intros r' Hr. specialize (g_req0 r' Hr) as (P & Q & R). split; [|split]; auto.
      intros [->|Hin]; auto.
    + intros r' [<-|Hin]; auto.
    + destruct g_shp0 as (bs & k & H1 & [H2|H2]); [contradiction|exists bs, k; auto].
  - constructor; cbn; auto; try congruence.
    + intros r' Hr. specialize (g_req0 r' Hr) as (P & Q & R). split; [|split]; auto.
    + destruct g_shp0 as (bs & k & H1 & [H2|H2]); [contradiction|exists bs, k; auto].
Qed.
Lemma notify_threads fr s w : (forall t, tinv s t) ->
  b_wpc s <> WEnd ->
  (forall r n0, n0 <= length (b_acc s) -> need (b_wpc s) (length (b_gone s)) r n0 ->
     need w (length (b_gone s)) r n0 /\ (fr_is r fr -> sett n0 (b_gone s))) ->
  (fin w -> fin (b_wpc s)) ->
  forall t, tinv (wgoto item w (notify item fr s)) t.
Proof.
  intros HT Hne Hn Hf. apply (worker_threads s); auto;
    try (destruct fr as [[? ?]|]; reflexivity).
  - destruct fr as [[? ?]|]; auto.
  - intros r n0 A B. destruct (Hn r n0 A B) as [C D].
    destruct fr as [[r' k]|]; cbn in *; auto.
    split; auto. intros [->|Hin]; auto.
Qed.

Lemma wlock_comm l w s : wgoto item w (wlock item l s) = wlock item l (wgoto item w s).
Proof. reflexivity. Qed.
Lemma tinv_lock l s t : tinv s t -> tinv (wlock item l s) t.
Proof. auto. Qed.


Lemma wlock_id l s : b_lock s = l -> wlock item l s = s.
Proof. intros <-. destruct s; reflexivity. Qed.
Lemma wgn_lock w fr s : b_lock (wgoto item w (notify item fr s)) = b_lock s.
Proof. destruct fr as [[? ?]|]; reflexivity. Qed.
Lemma notify_lock l fr s : wlock item l (notify item fr s) = notify item fr (wlock item l s).
Proof. destruct fr as [[? ?]|]; reflexivity. Qed.

Lemma w_empty s fr : inv s -> b_wpc s = WEmpty fr -> wstep_ok s.
Proof.
  intros [HG HT] E s' H. unfold worker_step in H. rewrite E in H. injection H as <-.
  destruct (b_queue s) as [|x q] eqn:Q; cbn [is_nil].
  - pose proof (acc_len s HG) as Hlen. rewrite Q in Hlen. cbn in Hlen.
    pose proof (g_fly s HG) as Hfly. rewrite E in Hfly. cbn in Hfly.
    rewrite wlock_comm. split.
    + apply (notify_ginv fr s WTop HG); cbn; rewrite ?E; cbn; auto; try tauto; shp; try discriminate.
    + intros t. apply tinv_lock. revert t.
      apply notify_threads; auto; rewrite ?E; cbn; try discriminate; try tauto.
      intros r n0 A B. split; auto. intros Hf. apply no_fly_sett; auto. lia.
  - split.
    + destruct HG. rewrite E in *. constructor; cbn; auto; try tauto; shp; try discriminate. congruence.
    + apply (threads_plain s); auto; rewrite ?E; cbn; auto; discriminate.
Qed.
Lemma w_check2 s fr : inv s -> b_wpc s = WCheck2 fr -> wstep_ok s.
Proof.
  intros [HG HT] E s' H. unfold worker_step in H. rewrite E in H. injection H as <-.
  split.
  - destruct HG. rewrite E in *. cbn in *. destruct (b_done s) eqn:D; constructor; cbn; auto; try tauto; shp; try discriminate.
    destruct fr; auto.
  - apply (threads_plain s); auto; rewrite ?E; cbn; try discriminate; destruct (b_done s) eqn:D; cbn; auto.
Qed.
Lemma w_export s fr : inv s -> b_wpc s = WExport fr -> wstep_ok s.
Proof.
  intros [HG HT] E s' H. unfold worker_step in H. rewrite E in H. injection H as <-.
  split.
  - destruct HG. rewrite E in *. cbn in *. destruct fr as [[r n]|]; constructor; cbn; auto; try tauto; shp; try discriminate.
  - apply (threads_plain s); auto; rewrite ?E; cbn; try discriminate; destruct fr as [[r n]|]; cbn; auto.
Qed.
Lemma w_loop s r n : inv s -> b_wpc s = WLoop r n -> wstep_ok s.
Proof.
  intros [HG HT] E s' H. unfold worker_step in H. rewrite E in H. injection H as <-.
  split.
  - destruct HG. rewrite E in *. cbn in *.
    destruct (b_queue s) as [|x q] eqn:Q; cbn [is_nil];
      constructor; cbn; auto; rewrite ?Q; try tauto; try discriminate; auto; shp.
  - pose proof (acc_len s HG) as Hlen.
    apply (threads_plain s); auto; rewrite ?E; cbn; try discriminate;
      destruct (b_queue s) as [|x q] eqn:Q; cbn [is_nil]; cbn in *; auto.
    + intros. lia.
    + intros r' n0 A B C. specialize (B C). lia.
Qed.
Lemma w_pop s k b : inv s -> b_wpc s = WPop k b -> wstep_ok s.
Proof.
  intros [HG HT] E s' H. unfold worker_step in H. rewrite E in H.
  destruct (b_queue s) as [|x q] eqn:Q; cbn [is_nil negb andb] in H;
    [rewrite andb_false_r in H|rewrite andb_true_r in H;
       destruct (Nat.ltb_spec (length b) maxb) as [Hlt|Hge]]; injection H as <-.
  - (* empty: export *)
    assert (Hbne : b <> []) by (intros ->; pose proof (g_wok s HG) as W; rewrite E in W; exact (W Q)).
    split.
    + destruct HG. rewrite E in *. cbn in *.
      constructor; cbn; auto; try tauto.
      * rewrite handed_app. change (handed_over [XExport b]) with (b ++ []). rewrite !app_nil_r. exact g_log0.
      * destruct b; [congruence|]. cbn in *. lia.
      * intros b'. rewrite in_app_iff. intros [Hin|[Hin|[]]]; auto. injection Hin as <-.
        destruct b; [congruence|]. cbn in *. lia.
      * destruct g_shp0 as (bs & n & H1 & [H2|H2]); [discriminate|]. subst n.
        exists (bs ++ [b]), 0. cbn in *. rewrite app_nil_r in *. rewrite map_app, H1. auto.
    + apply (threads_plain s); auto; rewrite ?E; cbn; auto; discriminate.
  - (* pop *)
    assert (Ha : b_acc s = map fst (b_gone s ++ [(x, InFlight)]) ++ q).
    { rewrite (g_acc s HG), Q, map_app, <- app_assoc. reflexivity. }
    split.
    + destruct HG. unfold pop. rewrite E in *. rewrite Q in *. cbn in *.
      constructor; cbn; auto; try tauto.
      * rewrite filter_app, map_app. cbn. rewrite app_assoc. f_equal. exact g_log0.
      * rewrite filter_app, map_app. cbn. f_equal. exact g_fly0.
      * lia.
      * destruct (b ++ [x]) eqn:B; [destruct b; discriminate|]. rewrite <- B, app_length. cbn. lia.
      * destruct g_shp0 as (bs & n & H1 & [H2|H2]); [discriminate|]. eauto.
    + unfold pop. rewrite Q. cbn [firstn].
      apply (worker_threads s); auto; cbn; rewrite ?E; cbn; try discriminate; try tauto.
      * intros n Hn. apply sett_app, Hn.
      * intros r n0 A B. split; auto. destruct k; auto.
        intros C. specialize (B C). rewrite !app_length. cbn. lia.
  - (* batch full: export *)
    split.
    + destruct HG. rewrite E in *. cbn in *.
      constructor; cbn; auto; try tauto.
      * rewrite handed_app. change (handed_over [XExport b]) with (b ++ []). rewrite !app_nil_r. exact g_log0.
      * destruct b; cbn in *; lia.
      * intros b'. rewrite in_app_iff. intros [Hin|[Hin|[]]]; auto. injection Hin as <-.
        destruct b; cbn in *; lia.
      * destruct g_shp0 as (bs & n & H1 & [H2|H2]); [discriminate|]. subst n.
        exists (bs ++ [b]), 0. cbn in *. rewrite app_nil_r in *. rewrite map_app, H1. auto.
    + apply (threads_plain s); auto; rewrite ?E; cbn; auto; discriminate.
Qed.
Lemma w_send s k b : inv s -> b_wpc s = WSend k b -> wstep_ok s.
Proof.
  intros [HG HT] E s' H. unfold worker_step in H. rewrite E in H. injection H as <-.
  split.
  - destruct HG. rewrite E in *. cbn [assembling current_batch] in *. rewrite app_nil_r in g_log0.
    destruct g_shp0 as (bs & m & H1 & [H2|H2]); [discriminate|].
    destruct k as [|r n|fr sfr]; [|destruct (Nat.leb_spec (n - length b) 0)|];
      (constructor; cbn in *; rewrite ?app_nil_r; auto; try tauto; shp; try discriminate;
       [rewrite land_fst; auto|rewrite land_taken; auto|rewrite land_fly; auto|exists bs, m; auto]).
  - apply (worker_threads s); auto; cbn; rewrite ?E; cbn; try discriminate.
    + intros n. apply sett_land.
    + intros r n0 A B. split; auto. rewrite map_length.
      destruct k as [|r' n|fr sfr]; cbn in *; [tauto| |exact I].
      destruct (Nat.leb_spec (n - length b) 0); cbn; intros C; specialize (B C); lia.
    + destruct k as [|r' n|fr sfr]; [|destruct (Nat.leb (n - length b) 0)|]; cbn; tauto.
Qed.
Lemma w_notify s fr : inv s -> b_wpc s = WNotify fr -> wstep_ok s.
Proof.
  intros [HG HT] E s' H. unfold worker_step in H. rewrite E in H. injection H as <-.
  pose proof (g_fly s HG) as Hfly. rewrite E in Hfly. cbn in Hfly.
  pose proof (g_lck s HG) as Hlk. rewrite E in Hlk. cbn in Hlk.
  split.
  - rewrite <- (wlock_id false (wgoto item WTop (notify item fr s))) by (rewrite wgn_lock; exact Hlk).
    apply (notify_ginv fr s WTop HG); cbn; rewrite ?E; cbn; auto; try tauto; shp; try discriminate.
  - apply notify_threads; auto; rewrite ?E; cbn; try discriminate; try tauto.
    intros r n0 A B. split; auto. intros Hf. apply no_fly_sett; auto.
Qed.
Lemma w_final s fr : inv s -> b_wpc s = WFinal fr -> wstep_ok s.
Proof.
  intros [HG HT] E s' H. unfold worker_step in H. rewrite E in H.
  destruct (b_lock s) eqn:L; [discriminate|]. cbn in H. injection H as <-.
  split.
  - destruct HG. rewrite E in *. constructor; cbn; auto; try tauto; shp; try discriminate.
    intros r [Hr|Hr]; [auto|]. destruct (b_req s) as [r'|] eqn:R; cbn in Hr; [|tauto]. subst r'. apply (g_req0 r eq_refl).
  - apply (threads_plain s); auto; rewrite ?E; cbn; auto; discriminate.
Qed.
Lemma w_drain s fr sfr : inv s -> b_wpc s = WDrain fr sfr -> wstep_ok s.
Proof.
  intros [HG HT] E s' H. unfold worker_step in H. rewrite E in H. injection H as <-.
  pose proof (acc_len s HG) as Hlen.
  pose proof (g_fly s HG) as Hfly. rewrite E in Hfly. cbn in Hfly.
  split.
  - destruct HG. rewrite E in *. cbn in *.
    destruct (b_queue s) as [|x q] eqn:Q; cbn [is_nil];
      constructor; cbn; auto; rewrite ?Q; try tauto; try discriminate; auto; shp.
  - destruct (b_queue s) as [|x q] eqn:Q; cbn [is_nil].
    + apply (worker_threads s); auto; cbn; rewrite ?E; cbn; try discriminate.
      * intros r n0 A B. split; auto. intros _. cbn in *. lia.
      * intros _. right. intros n0 A. apply no_fly_sett; auto. cbn in *; lia.
    + apply (threads_plain s); auto; rewrite ?E; cbn; auto; discriminate.
Qed.
Lemma w_fin1 s fr sfr : inv s -> b_wpc s = WFin1 fr sfr -> wstep_ok s.
Proof.
  intros [HG HT] E s' H. unfold worker_step in H. rewrite E in H. injection H as <-.
  pose proof (g_fly s HG) as Hfly. rewrite E in Hfly. cbn in Hfly.
  pose proof (g_lck s HG) as Hlk. rewrite E in Hlk. cbn in Hlk.
  split.
  - rewrite <- (wlock_id false (wgoto item _ (notify item fr s))) by (rewrite wgn_lock; exact Hlk).
    apply (notify_ginv fr s (WFin2 sfr) HG); cbn; rewrite ?E; cbn; auto; try tauto; shp; try discriminate.
    intros _. apply (g_fin s HG). rewrite E. exact I.
  - apply notify_threads; auto; rewrite ?E; cbn; try discriminate; try tauto.
    intros r n0 A B. split; auto. intros Hf. apply no_fly_sett; auto.
Qed.
Lemma w_fin2 s sfr : inv s -> b_wpc s = WFin2 sfr -> wstep_ok s.
Proof.
  intros [HG HT] E s' H. unfold worker_step in H. rewrite E in H. injection H as <-.
  pose proof (g_fly s HG) as Hfly. rewrite E in Hfly. cbn in Hfly.
  pose proof (g_lck s HG) as Hlk. rewrite E in Hlk. cbn in Hlk.
  split.
  - rewrite <- (wlock_id false (wgoto item _ (notify item sfr s))) by (rewrite wgn_lock; exact Hlk).
    apply (notify_ginv sfr s WEnd HG); cbn; rewrite ?E; cbn; auto; try tauto; shp; try discriminate.
    intros _. apply (g_fin s HG). rewrite E. exact I.
  - apply notify_threads; auto; rewrite ?E; cbn; try discriminate; try tauto.
    intros r n0 A B. split; auto. intros Hf. apply no_fly_sett; auto.
Qed.

Lemma worker_inv s s' : inv s -> worker_step item maxb s = Some s' -> inv s'.
Proof.
  intros HI H. destruct (b_wpc s) eqn:E.
  - exact (w_top s HI E s' H).
  - exact (w_acquire s HI E s' H).
  - exact (w_check s HI E s' H).
  - exact (w_get s HI E s' H).
  - exact (w_test s _ HI E s' H).
  - exact (w_wait s HI E s' H).
  - exact (w_get2 s HI E s' H).
  - exact (w_empty s _ HI E s' H).
  - exact (w_check2 s _ HI E s' H).
  - exact (w_export s _ HI E s' H).
  - exact (w_loop s _ _ HI E s' H).
  - exact (w_pop s _ _ HI E s' H).
  - exact (w_send s _ _ HI E s' H).
  - exact (w_notify s _ HI E s' H).
  - exact (w_final s _ HI E s' H).
  - exact (w_drain s _ _ HI E s' H).
  - exact (w_fin1 s _ _ HI E s' H).
  - exact (w_fin2 s _ HI E s' H).
  - unfold worker_step in H. rewrite E in H. discriminate.
Qed.

(** *** Steps of the other threads *)

(** A step of thread [t] that changes only its own program counter. *)
Lemma goto_inv s t p : inv s -> tinv (tgoto item t p s) t -> inv (tgoto item t p s).
Proof.
  intros [HG HT] Hp. split.
  - destruct HG. constructor; auto.
  - intros t'. destruct (Nat.eq_dec t' t) as [->|Hne]; [exact Hp|].
    specialize (HT t'). unfold tinv in *. cbn. unfold tset.
    destruct (Nat.eqb_spec t' t); [contradiction|]. exact HT.
Qed.
Lemma tset_same t p f : tset item t p f t = p.
Proof. unfold tset. rewrite Nat.eqb_refl. reflexivity. Qed.
Lemma tset_other t t' p f : t' <> t -> tset item t p f t' = f t'.
Proof. intros H. unfold tset. destruct (Nat.eqb_spec t' t); [contradiction|reflexivity]. Qed.

Lemma push_inv s x : inv s -> sampled x = true -> inv (push item maxq x s) /\ In x (b_acc (push item maxq x s)).
Proof.
  intros [HG HT] Hx. pose proof (acc_len s HG) as Hlen.
  assert (Hin : forall l : list item, In x (l ++ [x])) by (intros; apply in_or_app; cbn; auto).
  assert (Hsmp : forall y, In y (b_acc s ++ [x]) -> sampled y = true).
  { intros y. rewrite in_app_iff. intros [Hy|[<-|[]]]; [exact (g_smp s HG y Hy)|exact Hx]. }
  assert (Hwok : forall q', q' <> [] -> wok (b_wpc s) q').
  { intros q' Hq'. pose proof (g_wok s HG) as W. destruct (b_wpc s); cbn in *; auto.
    destruct fr; auto. destruct b; auto. }
  assert (Hthr : forall q' g', (forall n, sett n (b_gone s) -> sett n g') -> length (b_gone s) <= length g' ->
    forall t, tinv (BSP q' (b_done s) (b_lock s) (b_req s) (b_next s) (b_set s) (b_wpc s) (b_thr s)
             (b_log s) (b_acc s ++ [x]) g') t).
  { intros q' g' Hs Hg t. specialize (HT t). unfold tinv in *. cbn [b_thr b_acc b_next b_set b_gone b_wpc b_done].
    rewrite app_length. cbn [length]. pose proof (fun y : item => in_or_app (b_acc s) [x] y) as Hio.
    destruct (b_thr s t); try exact HT; auto.
    - destruct taken; auto.
    - lia.
    - lia.
    - destruct HT as (A & B & C & D). split; [lia|]. split; [auto|]. split; [auto|]. eapply need_mono; eauto.
    - destruct was_done, res; auto.
    - destruct HT as (A & B). split; [lia|auto].
    - destruct HT as (A & B & C). split; [lia|auto].
    - destruct HT as (A & B & C). split; [lia|auto].
    - destruct HT as (A & B). split; auto.
    - destruct HT as (A & B). split; auto. }
  unfold push. destruct (b_queue s) as [|y q] eqn:Q.
  - split; [|cbn; auto]. split; [|apply Hthr; auto].
    destruct HG. constructor; cbn in *; auto.
    + rewrite g_acc0, Q, app_nil_r. reflexivity.
    + apply Hwok. discriminate.
  - destruct (Nat.leb_spec maxq (length (y :: q))) as [Hfull|Hfree].
    + split; [|cbn; auto]. split.
      * destruct HG. constructor; cbn [b_acc b_gone b_queue b_log b_wpc b_req b_set b_next b_done b_lock]; auto.
        -- rewrite g_acc0, Q, map_app, <- !app_assoc. reflexivity.
        -- rewrite filter_app, map_app. cbn. rewrite app_nil_r. exact g_log0.
        -- rewrite filter_app, map_app. cbn. rewrite app_nil_r. exact g_fly0.
        -- rewrite app_length. rewrite Q in g_len0. cbn in *. lia.
        -- apply Hwok. destruct q; discriminate.
      * apply Hthr; [intros n; apply sett_app|]. rewrite app_length. lia.
    + split; [|cbn; auto]. split; [|apply Hthr; auto].
      destruct HG. constructor; cbn [b_acc b_gone b_queue b_log b_wpc b_req b_set b_next b_done b_lock]; auto.
      * rewrite g_acc0, Q, <- app_assoc. reflexivity.
      * cbn in *. rewrite app_length. cbn. lia.
      * apply Hwok. discriminate.
Qed.
Lemma newreq_inv s : inv s -> b_req s = None ->
  inv (BSP (b_queue s) (b_done s) (b_lock s) (Some (b_next s)) (S (b_next s)) (b_set s)
         (b_wpc s) (b_thr s) (b_log s) (b_acc s) (b_gone s)).
Proof.
  intros [HG HT] Hr. split.
  - destruct HG. constructor; cbn; auto.
    all: try (intros r H; injection H as <-; split; [lia|]; split;
      [intros Hin; specialize (g_set0 _ Hin); lia|intros Hh; specialize (g_hld0 _ Hh); lia]).
    all: intros r Hh; (specialize (g_set0 r Hh) || specialize (g_hld0 r Hh)); lia.
  - intros t. specialize (HT t). unfold tinv in *. cbn. destruct (b_thr s t); auto.
    destruct HT as (A & B & C & D). auto.
Qed.
Lemma setdone_inv s : inv s ->
  inv (BSP (b_queue s) true (b_lock s) (b_req s) (b_next s) (b_set s)
         (b_wpc s) (b_thr s) (b_log s) (b_acc s) (b_gone s)).
Proof.
  intros [HG HT]. split.
  - destruct HG. constructor; cbn; auto.
  - intros t. specialize (HT t). unfold tinv in *. cbn. destruct (b_thr s t); auto.
    + destruct taken; auto.
    + tauto.
    + tauto.
Qed.
Lemma shutlog_inv s : inv s -> b_wpc s = WEnd ->
  inv (BSP (b_queue s) (b_done s) (b_lock s) (b_req s) (b_next s) (b_set s)
         (b_wpc s) (b_thr s) (b_log s ++ [XShutdown]) (b_acc s) (b_gone s)).
Proof.
  intros [HG HT] E. split.
  - destruct HG. constructor; cbn; auto.
    + rewrite handed_app. change (handed_over [XShutdown]) with (@nil item). rewrite app_nil_r. exact g_log0.
    + intros b. rewrite in_app_iff. intros [Hin|[Hin|[]]]; [auto|discriminate].
    + destruct g_shp0 as (bs & n & H1 & _). exists bs, (S n). split; [|auto].
      rewrite H1, <- app_assoc. f_equal. change [XShutdown] with (repeat (@XShutdown item) 1).
      rewrite <- repeat_app. f_equal. lia.
  - intros t. specialize (HT t). exact HT.
Qed.

Lemma need_new s r n0 : ginv s -> ~ holds (b_wpc s) r -> need (b_wpc s) (length (b_gone s)) r n0.
Proof.
  intros HG H. destruct (b_wpc s); cbn in *; auto; try tauto;
    try (destruct fr as [[r' n]|]; cbn in *; auto; intros ->; tauto).
  - destruct k; cbn in *; auto. intros; subst; tauto.
  - destruct k; cbn in *; auto. intros; subst; tauto.
Qed.

Lemma thread_inv s t s' : inv s -> thread_step item sampled maxq maxb t s = Some s' -> inv s'.
Proof.
  intros HI H. pose proof (proj2 HI t) as Ht. unfold tinv in Ht. unfold thread_step in H.
  destruct (b_thr s t) as [|x|x|x|x tk|n0|n0|r n0|n0 wd res|n0 f|n0 f|n0 f|n0 f|n0 f] eqn:E; try discriminate.
  - injection H as <-. apply goto_inv; [exact HI|]. unfold tinv. cbn. rewrite tset_same.
    destruct (b_done s) eqn:D; [|destruct (sampled x) eqn:S]; cbn; auto.
  - injection H as <-. destruct (push_inv s x HI Ht) as [P1 P2].
    apply goto_inv; [exact P1|]. unfold tinv. cbn. rewrite tset_same. exact P2.
  - destruct (_ && _); [discriminate|]. injection H as <-. apply goto_inv; [exact HI|].
    unfold tinv. cbn. rewrite tset_same. exact Ht.
  - injection H as <-. apply goto_inv; [exact HI|]. unfold tinv. cbn. rewrite tset_same.
    destruct (b_done s); auto.
  - destruct (b_lock s) eqn:L; [discriminate|]. destruct (b_req s) as [r|] eqn:R; injection H as <-.
    + apply goto_inv; [exact HI|]. unfold tinv. cbn. rewrite tset_same.
      destruct (g_req s (proj1 HI) r R) as (A & B & C).
      split; [exact Ht|]. split; [exact A|]. split; [tauto|]. apply need_new; [exact (proj1 HI)|exact C].
    + apply goto_inv; [pose proof (newreq_inv s HI R) as P; rewrite L in P; exact P|]. unfold tinv. cbn. rewrite tset_same.
      split; [exact Ht|]. split; [lia|]. split.
      * intros Hin. pose proof (g_set s (proj1 HI) _ Hin). lia.
      * apply need_new; [exact (proj1 HI)|]. intros Hh. pose proof (g_hld s (proj1 HI) _ Hh). lia.
  - destruct (existsb (Nat.eqb r) (b_set s)) eqn:X; [|discriminate]. injection H as <-.
    apply goto_inv; [exact HI|]. unfold tinv. cbn. rewrite tset_same.
    apply existsb_exists in X. destruct X as (r' & Hin & Heq). apply Nat.eqb_eq in Heq. subst r'. tauto.
  - injection H as <-. apply goto_inv; [apply setdone_inv, HI|]. unfold tinv. cbn. rewrite tset_same.
    destruct Ht. auto.
  - destruct (b_lock s); [discriminate|]. injection H as <-. apply goto_inv; [exact HI|].
    unfold tinv. cbn. rewrite tset_same. exact Ht.
  - destruct (b_wpc s) eqn:W; try discriminate. injection H as <-. apply goto_inv; [exact HI|].
    unfold tinv. cbn. rewrite tset_same. destruct Ht as (A & B & C). split; [exact W|]. intros Hf. apply B; [exact Hf|exact I].
  - injection H as <-. destruct Ht as (A & B). apply goto_inv; [apply shutlog_inv; auto|].
    unfold tinv. cbn. rewrite tset_same. auto.
Qed.

Lemma step_inv s e s' : inv s -> step s e = Some s' -> inv s'.
Proof.
  intros HI H. destruct e as [|t c|t|t]; cbn in H.
  - eapply worker_inv; eauto.
  - destruct (in_no_call item (b_thr s t)); [|discriminate]. injection H as <-.
    apply goto_inv; [exact HI|]. unfold tinv. cbn. rewrite tset_same.
    destruct c; cbn; auto. split; [auto|]. intros Hd Hf.
    assert (b_done s = true).
    { apply (g_fin s (proj1 HI)). destruct (b_wpc s); cbn in *; tauto. }
    rewrite H in Hd. discriminate.
  - eapply thread_inv; eauto.
  - destruct (b_thr s t) eqn:E; try discriminate. injection H as <-.
    apply goto_inv; [exact HI|]. unfold tinv. cbn. rewrite tset_same. exact I.
Qed.
Lemma reach_inv s : bsp_reach item sampled maxq maxb s -> inv s.
Proof. induction 1; [apply inv_init|eapply step_inv; eauto|now apply inv_fork]. Qed.

(** *** The properties *)

Lemma sett_settled s n : ginv s -> sett n (b_gone s) -> settled n s.
Proof.
  intros HG [H1 H2] i x Hi Hx. rewrite (g_acc s HG) in Hx.
  rewrite nth_error_app1 in Hx by (rewrite map_length; lia).
  rewrite nth_error_map in Hx. destruct (nth_error (b_gone s) i) as [[y f]|] eqn:E; [|discriminate].
  cbn in Hx. injection Hx as ->. specialize (H2 i x f Hi E). destruct f; auto. congruence.
Qed.

Lemma c34_conservation s : bsp_reach item sampled maxq maxb s ->
  b_acc s = map fst (b_gone s) ++ b_queue s
  /\ handed_over (b_log s) ++ assembling (b_wpc s)
     = map fst (filter (fun p => was_taken (snd p)) (b_gone s))
  /\ map fst (filter (fun p => in_flight (snd p)) (b_gone s)) = current_batch (b_wpc s)
  /\ (forall x, In x (b_acc s) -> sampled x = true)
  /\ (forall t x taken, b_thr s t = TOnEndRet x taken ->
        if taken then In x (b_acc s) else sampled x = false \/ b_done s = true).
Proof.
  intros H. apply reach_inv in H. destruct H as [HG HT]. split; [apply HG|]. split; [apply HG|].
  split; [apply HG|]. split; [apply HG|].
  intros t x taken E. specialize (HT t). unfold tinv in HT. rewrite E in HT. exact HT.
Qed.

Lemma c35_bounds s : bsp_reach item sampled maxq maxb s ->
  length (b_queue s) <= maxq
  /\ forall b, In (XExport b) (b_log s) -> 1 <= length b <= maxb.
Proof. intros H. apply reach_inv in H. destruct H as [HG HT]. split; apply HG. Qed.

Lemma c36_flush s t n0 : bsp_reach item sampled maxq maxb s ->
  b_thr s t = TFlushRet n0 false true -> settled n0 s.
Proof.
  intros H E. apply reach_inv in H. destruct H as [HG HT]. specialize (HT t). unfold tinv in HT.
  rewrite E in HT. apply sett_settled; auto.
Qed.

Lemma c37_shutdown s t n0 first : bsp_reach item sampled maxq maxb s ->
  b_thr s t = TShutRet n0 first ->
  b_wpc s = WEnd /\ (first = true -> settled n0 s).
Proof.
  intros H E. apply reach_inv in H. destruct H as [HG HT]. specialize (HT t). unfold tinv in HT.
  rewrite E in HT. destruct HT as [A B]. split; [exact A|]. intros Hf. apply sett_settled; auto.
Qed.
Lemma c37_log s : bsp_reach item sampled maxq maxb s ->
  exists bs n, b_log s = map XExport bs ++ repeat XShutdown n.
Proof.
  intros H. apply reach_inv in H. destruct H as [HG _]. destruct (g_shp s HG) as (bs & n & A & _). eauto.
Qed.

(** *** What a single step does to the history *)
Lemma step_history s e s' : bsp_reach item sampled maxq maxb s -> step s e = Some s' ->
  (b_acc s' = b_acc s \/ exists t x, e = EStep t /\ b_thr s t = TAppend x /\ b_acc s' = b_acc s ++ [x])
  /\ (b_gone s' = b_gone s
      \/ (e = EWork /\ b_gone s' = map (fun p => (fst p, landed (snd p))) (b_gone s)
          /\ exists k b, b_wpc s = WSend k b)
      \/ (e = EWork /\ exists x q, b_queue s = x :: q /\ b_queue s' = q
            /\ b_gone s' = b_gone s ++ [(x, InFlight)])
      \/ (exists t x y q, e = EStep t /\ b_thr s t = TAppend x /\ b_queue s = y :: q
            /\ length (b_queue s) = maxq /\ b_queue s' = q ++ [x]
            /\ b_gone s' = b_gone s ++ [(y, Evicted)])).
Proof.
  intros HR H. apply reach_inv in HR. pose proof (g_len s (proj1 HR)) as Hlen.
  destruct e as [|t c|t|t]; cbn in H.
  - assert (Hacc : b_acc s' = b_acc s).
    { unfold worker_step in H.
      destruct (b_wpc s); try destruct (b_lock s); try destruct (b_done s); try destruct (_ && _);
        try discriminate; injection H as <-; try reflexivity;
        unfold pop; try (destruct (b_queue s)); cbn; try (destruct fr as [[? ?]|]); try (destruct sfr as [[? ?]|]); reflexivity. }
    split; [auto|].
    unfold worker_step in H.
    destruct (b_wpc s) eqn:E; try match type of H with context [b_lock s] => destruct (b_lock s) end;
      try match type of H with context [if b_done s then _ else _] => destruct (b_done s) end; try discriminate;
      try (injection H as <-; left; try reflexivity; 
           try (destruct (is_nil (b_queue s))); cbn; try (destruct fr as [[? ?]|]); try (destruct sfr as [[? ?]|]); reflexivity);
      try (injection H as <-; right; left; split; [reflexivity|]; split; [reflexivity|]; eauto; fail).
    + destruct (_ && _) eqn:C; injection H as <-.
      * apply andb_prop in C. destruct C as [_ C]. unfold pop.
        destruct (b_queue s) as [|x q] eqn:Q; [discriminate|]. right; right; left. split; [reflexivity|].
        exists x, q. auto.
      * left. reflexivity.
  - destruct (in_no_call item (b_thr s t)); [|discriminate]. injection H as <-. split; left; reflexivity.
  - unfold thread_step in H. destruct (b_thr s t) eqn:E; try discriminate.
    + injection H as <-. split; left; reflexivity.
    + injection H as <-. unfold push. destruct (b_queue s) as [|y q] eqn:Q.
      * cbn. split; [right; eauto|left; reflexivity].
      * destruct (Nat.leb_spec maxq (length (y :: q))).
        -- cbn [b_acc b_gone b_queue tgoto]. split; [right; eauto|]. right; right; right.
           exists t, x, y, q. repeat split; auto. lia.
        -- cbn. split; [right; eauto|left; reflexivity].
    + destruct (_ && _); [discriminate|]. injection H as <-. split; left; reflexivity.
    + injection H as <-. split; left; reflexivity.
    + destruct (b_lock s); [discriminate|]. destruct (b_req s); injection H as <-; split; left; reflexivity.
    + destruct (existsb _ _); [|discriminate]. injection H as <-. split; left; reflexivity.
    + injection H as <-. split; left; reflexivity.
    + destruct (b_lock s); [discriminate|]. injection H as <-. split; left; reflexivity.
    + destruct (b_wpc s); try discriminate. injection H as <-. split; left; reflexivity.
    + injection H as <-. split; left; reflexivity.
  - destruct (b_thr s t); try discriminate. injection H as <-. split; left; reflexivity.
Qed.

(** *** Progress *)
Lemma worker_enabled s : inv s -> b_wpc s <> WEnd -> exists s', worker_step item maxb s = Some s'.
Proof.
  intros [HG _] Hne. pose proof (g_lck s HG) as L. unfold worker_step.
  destruct (b_wpc s) eqn:E; cbn in L; try rewrite L; cbn; eauto; try congruence.
  destruct (_ && _); eauto.
Qed.

Lemma progress s t : bsp_reach item sampled maxq maxb s -> in_no_call item (b_thr s t) = false ->
  exists s', step s EWork = Some s' \/ step s (EStep t) = Some s' \/ step s (ETimeout t) = Some s'.
Proof.
  intros HR Ht. apply reach_inv in HR. pose proof (g_lck s (proj1 HR)) as L.
  assert (HW : b_lock s = true -> exists s', step s EWork = Some s').
  { intros HL. rewrite HL in L. apply worker_enabled; [exact HR|]. intros E. rewrite E in L. discriminate. }
  cbn. unfold thread_step. destruct (b_thr s t) eqn:E; try discriminate; eauto.
  - destruct (_ && _) eqn:C; eauto. apply andb_prop in C. destruct C as [_ C].
    destruct (HW C) as [s' H]. eauto.
  - destruct (b_lock s) eqn:B; [destruct (HW eq_refl) as [s' H]; eauto|]. destruct (b_req s); eauto.
  - destruct (b_lock s) eqn:B; [destruct (HW eq_refl) as [s' H]; eauto|]. eauto.
  - destruct (b_wpc s) eqn:W; eauto;
      (destruct (worker_enabled s HR) as [s' H]; [rewrite W; discriminate|]; eauto).
Qed.

(** *** Once shut down, the worker ends *)
Definition rank (w : wpc) : nat :=
  match w with
  | WEnd => 0 | WFin2 _ => 1 | WFin1 _ _ => 2 | WDrain _ _ => 3 | WFinal _ => 4
  | WPop (KDrain _ _) [] => 2 | WPop (KDrain _ _) _ => 5 | WSend (KDrain _ _) _ => 4
  | WTop => 5 | WNotify _ => 6 | WLoop _ _ => 7
  | WPop _ [] => 6 | WPop _ _ => 9 | WSend _ _ => 8
  | WExport _ => 8 | WCheck2 _ => 9 | WEmpty _ => 10 | WGet2 => 11 | WWait => 12
  | WTest _ => 13 | WGet => 14 | WCheck => 15 | WAcquire => 16
  end.
Definition measure (s : bsp) : nat := rank (b_wpc s) + 10 * length (b_queue s).

Lemma rank_pop k b : rank (WPop k b) <= 9 /\ (b <> [] -> rank (WSend k b) < rank (WPop k b)).
Proof. destruct k, b; cbn; split; try lia; intros; congruence. Qed.
Lemma rank_pop_nil k : rank (WPop k []) >= 2 /\ rank (WPop k []) <= 6. Proof. destruct k; cbn; lia. Qed.
Lemma notify_queue fr s : b_queue (notify item fr s) = b_queue s.
Proof. destruct fr as [[? ?]|]; reflexivity. Qed.

Lemma worker_decreases s s' : inv s -> b_done s = true -> worker_step item maxb s = Some s' ->
  measure s' < measure s /\ b_done s' = true.
Proof.
  intros [HG _] D H. unfold worker_step in H. unfold measure.
  pose proof (g_wok s HG) as W.
  destruct (b_wpc s) eqn:E; rewrite ?D in H; try discriminate.
  - injection H as <-. cbn. split; [lia|exact D].
  - destruct (b_lock s); [discriminate|]. injection H as <-. cbn; split; [lia|exact D].
  - injection H as <-. cbn; split; [lia|exact D].
  - injection H as <-. cbn; split; [lia|exact D].
  - injection H as <-. cbn. split; [|exact D]. destruct fr; [cbn; lia|]. destruct (Nat.ltb _ _); cbn; lia.
  - destruct (b_lock s); [discriminate|]. injection H as <-. cbn; split; [lia|exact D].
  - injection H as <-. cbn; split; [lia|exact D].
  - injection H as <-. destruct (is_nil (b_queue s)); cbn.
    + rewrite notify_queue. split; [lia|]. destruct fr as [[? ?]|]; exact D.
    + split; [lia|exact D].
  - injection H as <-. cbn. split; [lia|exact D].
  - injection H as <-. cbn. split; [|exact D]. destruct fr as [[? ?]|]; cbn; lia.
  - injection H as <-. cbn. split; [|exact D]. destruct (is_nil (b_queue s)); cbn; lia.
  - destruct (b_queue s) as [|x q] eqn:Q; cbn [is_nil negb andb] in H;
      [rewrite andb_false_r in H|rewrite andb_true_r in H; destruct (Nat.ltb_spec (length b) maxb)];
      injection H as <-.
    + cbn [b_wpc wgoto b_queue call_export b_done]. rewrite Q. split; [|exact D].
      destruct b as [|y b]; [exfalso; exact (W eq_refl)|]. apply Nat.add_lt_mono_r. apply rank_pop. discriminate.
    + unfold pop. rewrite Q. cbn [b_wpc wgoto b_queue b_done length firstn]. split; [|exact D].
      pose proof (rank_pop_nil k).
      assert (rank (WPop k (b ++ [x])) <= 9) by apply rank_pop.
      assert (rank (WPop k b) >= 2) by (destruct k, b; cbn; lia). lia.
    + cbn [b_wpc wgoto b_queue call_export b_done]. rewrite Q. split; [|exact D].
      destruct b as [|y b]; [cbn in *; lia|]. apply Nat.add_lt_mono_r. apply rank_pop. discriminate.
  - injection H as <-. cbn. split; [|exact D].
    destruct k as [|r n|fr sfr]; cbn; try lia. destruct (Nat.leb _ _); cbn; lia.
  - injection H as <-. cbn. rewrite notify_queue. split; [lia|]. destruct fr as [[? ?]|]; exact D.
  - destruct (b_lock s); [discriminate|]. injection H as <-. cbn; split; [lia|exact D].
  - injection H as <-. cbn. split; [|exact D]. destruct (is_nil (b_queue s)); cbn; lia.
  - injection H as <-. cbn. rewrite notify_queue. split; [lia|]. destruct fr as [[? ?]|]; exact D.
  - injection H as <-. cbn. rewrite notify_queue. split; [lia|]. destruct sfr as [[? ?]|]; exact D.
Qed.

Lemma worker_ends_aux m : forall s, inv s -> b_done s = true -> measure s <= m ->
  exists n, b_wpc (bsp_run item sampled maxq maxb (repeat EWork n) s) = WEnd.
Proof.
  induction m as [|m IH]; intros s HI D Hm.
  - exists 0. cbn. unfold measure in Hm. destruct (b_wpc s) eqn:E; cbn in Hm; try lia; auto;
      destruct k, b; cbn in Hm; lia.
  - assert (Hdec : b_wpc s = WEnd \/ b_wpc s <> WEnd) by (destruct (b_wpc s); auto; right; discriminate).
    destruct Hdec as [E|E]; [exists 0; exact E|].
    destruct (worker_enabled s HI E) as [s' Hs].
    destruct (worker_decreases s s' HI D Hs) as [Hlt D'].
    destruct (IH s') as [n Hn]; [eapply worker_inv; eauto|exact D'|lia|].
    exists (S n). cbn [repeat bsp_run bsp_step]. rewrite Hs. exact Hn.
Qed.
Lemma worker_ends s : bsp_reach item sampled maxq maxb s -> b_done s = true ->
  exists n, b_wpc (bsp_run item sampled maxq maxb (repeat EWork n) s) = WEnd.
Proof. intros HR D. eapply worker_ends_aux; [apply reach_inv, HR|exact D|apply le_n]. Qed.

(** *** A flush request is served as long as nobody shuts the processor down *)
Definition rank_a (w : wpc) : nat :=
  match w with
  | WGet | WGet2 => 1 | WCheck => 2 | WWait => 2 | WAcquire => 3 | WTop => 4 | WNotify _ => 5
  | WLoop _ _ => 6 | WPop _ [] => 5 | WPop _ _ => 8 | WSend _ _ => 7
  | WExport _ => 7 | WCheck2 _ => 8 | WTest _ => 8 | WEmpty _ => 9
  | _ => 0
  end.
Definition rank_b (w : wpc) : nat :=
  match w with
  | WNotify _ => 1 | WLoop _ _ => 2 | WPop _ [] => 1 | WPop _ _ => 4 | WSend _ _ => 3
  | WExport _ => 3 | WTest _ => 4 | WCheck2 _ => 4 | WEmpty _ => 5 | _ => 0
  end.
(** The request is in the worker's hands / still on the processor. *)
Definition pending (r : nat) (s : bsp) : Prop := b_req s = Some r \/ holds (b_wpc s) r.

Definition meas2 (r : nat) (s : bsp) : nat :=
  match b_req s with
  | Some r' => if Nat.eqb r r' then 20 + rank_a (b_wpc s) else rank_b (b_wpc s)
  | None => rank_b (b_wpc s)
  end + 10 * length (b_queue s).

Lemma rank_a_pop k b : rank_a (WPop k b) <= 8 /\ rank_a (WPop k b) >= 5.
Proof. destruct b; cbn; lia. Qed.
Lemma rank_b_pop k b : rank_b (WPop k b) <= 4 /\ rank_b (WPop k b) >= 1.
Proof. destruct b; cbn; lia. Qed.

Lemma flush_decreases r s s' : inv s -> b_done s = false -> pending r s ->
  worker_step item maxb s = Some s' ->
  In r (b_set s') \/ (pending r s' /\ b_done s' = false /\ meas2 r s' < meas2 r s).
Proof.
  intros [HG _] D HP H. unfold worker_step in H. unfold meas2, pending in *.
  pose proof (g_wok s HG) as W. pose proof (g_fin s HG) as F. rewrite D in F.
  destruct (b_wpc s) eqn:E; rewrite ?D in H; cbn in F; try (exfalso; specialize (F I); discriminate).
  - (* WTop *) injection H as <-. cbn. right. destruct HP as [HP|[]]. rewrite HP, Nat.eqb_refl. cbn.
    (repeat split; auto; lia).
  - destruct (b_lock s); [discriminate|]. injection H as <-. right. destruct HP as [HP|[]]. cbn.
    rewrite HP, Nat.eqb_refl. cbn. (repeat split; auto; lia).
  - injection H as <-. right. destruct HP as [HP|[]]. cbn.
    rewrite HP, Nat.eqb_refl. cbn. (repeat split; auto; lia).
  - injection H as <-. right. destruct HP as [HP|[]]. cbn.
    rewrite HP, Nat.eqb_refl. cbn. (repeat split; auto; lia).
  - (* WTest *) injection H as <-. right. cbn.
    destruct fr as [[r' n]|]; [|destruct (Nat.ltb (length (b_queue s)) maxb)]; cbn in *;
      (split; [tauto|split; [exact D|]]);
      (destruct (b_req s) as [r2|]; [destruct (Nat.eqb_spec r r2)|]; cbn; try lia).
  - destruct (b_lock s); [discriminate|]. injection H as <-. right. destruct HP as [HP|[]]. cbn.
    rewrite HP, Nat.eqb_refl. cbn. (repeat split; auto; lia).
  - injection H as <-. right. destruct HP as [HP|[]]. cbn.
    rewrite HP, Nat.eqb_refl. cbn. (repeat split; auto; lia).
  - (* WEmpty *) injection H as <-. destruct (is_nil (b_queue s)); cbn.
    + destruct HP as [HP|HP].
      * right. destruct fr as [[r' n]|]; cbn; rewrite HP, Nat.eqb_refl; cbn; repeat split; auto; lia.
      * left. destruct fr as [[r' n]|]; cbn in *; [auto|tauto].
    + right. split; [exact HP|]. split; [exact D|].
      destruct (b_req s) as [r2|]; [destruct (Nat.eqb_spec r r2)|]; cbn; lia.
  - (* WCheck2 *) injection H as <-. right. cbn. split; [exact HP|]. split; [exact D|].
      destruct (b_req s) as [r2|]; [destruct (Nat.eqb_spec r r2)|]; cbn; lia.
  - (* WExport *) injection H as <-. right. cbn. destruct fr as [[r' n]|]; cbn in *;
      (split; [exact HP|split; [exact D|]]);
      destruct (b_req s) as [r2|]; try destruct (Nat.eqb_spec r r2); cbn; lia.
  - (* WLoop *) injection H as <-. right. cbn. destruct (is_nil (b_queue s)); cbn in *;
      (split; [exact HP|split; [exact D|]]);
      destruct (b_req s) as [r2|]; try destruct (Nat.eqb_spec r r2); cbn; lia.
  - (* WPop *) destruct (b_queue s) as [|x q] eqn:Q; cbn [is_nil negb andb] in H;
      [rewrite andb_false_r in H|rewrite andb_true_r in H; destruct (Nat.ltb_spec (length b) maxb)];
      injection H as <-; right.
    + split; [exact HP|]. split; [exact D|]. cbn [b_req b_wpc wgoto b_queue call_export b_done]. rewrite Q.
      destruct b as [|y b]; [exfalso; exact (W eq_refl)|].
      destruct (b_req s) as [r2|]; try destruct (Nat.eqb_spec r r2); cbn; lia.
    + unfold pop. rewrite Q. cbn [b_req b_wpc wgoto b_queue b_done length firstn].
      split; [exact HP|]. split; [exact D|].
      pose proof (rank_a_pop k b). pose proof (rank_b_pop k b).
      pose proof (rank_a_pop k (b ++ [x])). pose proof (rank_b_pop k (b ++ [x])).
      destruct (b_req s) as [r2|]; try destruct (Nat.eqb_spec r r2); lia.
    + split; [exact HP|]. split; [exact D|]. cbn [b_req b_wpc wgoto b_queue call_export b_done]. rewrite Q.
      destruct b as [|y b]; [cbn in *; lia|].
      destruct (b_req s) as [r2|]; try destruct (Nat.eqb_spec r r2); cbn; lia.
  - (* WSend *) injection H as <-. right. cbn.
    destruct k as [|r' n|fr sfr]; [|destruct (Nat.leb _ _)|exfalso; specialize (F I); discriminate];
      cbn in *; (split; [exact HP|split; [exact D|]]);
      destruct (b_req s) as [r2|]; try destruct (Nat.eqb_spec r r2); cbn; lia.
  - (* WNotify *) injection H as <-. cbn.
    destruct HP as [HP|HP].
    + right. destruct fr as [[r' n]|]; cbn; rewrite HP, Nat.eqb_refl; cbn; repeat split; auto; lia.
    + left. destruct fr as [[r' n]|]; cbn in *; [auto|tauto].
Qed.
Lemma flush_served_aux m : forall r s, inv s -> b_done s = false -> pending r s -> meas2 r s <= m ->
  exists n, In r (b_set (bsp_run item sampled maxq maxb (repeat EWork n) s)).
Proof.
  induction m as [|m IH]; intros r s HI D HP Hm;
    (assert (E : b_wpc s <> WEnd) by
       (intros E; pose proof (g_fin s (proj1 HI)) as F; rewrite E in F; specialize (F I); congruence));
    destruct (worker_enabled s HI E) as [s' Hs];
    destruct (flush_decreases r s s' HI D HP Hs) as [Hin|(HP' & D' & Hlt)]; try lia;
    try (exists 1; cbn [repeat bsp_run bsp_step]; rewrite Hs; exact Hin).
  destruct (IH r s') as [n Hn]; [eapply worker_inv; eauto|exact D'|exact HP'|lia|].
  exists (S n). cbn [repeat bsp_run bsp_step]. rewrite Hs. exact Hn.
Qed.

(** A waiting flusher's request is pending, or its event is set, or the worker was told to end. *)
Lemma waiting_pending s : bsp_reach item sampled maxq maxb s -> forall t r n0,
  b_thr s t = TFlushWait r n0 -> In r (b_set s) \/ pending r s \/ b_done s = true.
Proof.
  intros HR. induction HR as [d p|s e s' HR IH H|s HR IH]; intros t r n0 Ht; [discriminate| |discriminate].
  pose proof (reach_inv s HR) as HI.
  destruct (b_done s') eqn:D'; [auto|].
  assert (D : b_done s = false).
  { destruct (b_done s) eqn:D; [|reflexivity]. exfalso.
    destruct e as [|t' c|t'|t']; cbn in H.
    - destruct (worker_decreases s s' HI D H). congruence.
    - destruct (in_no_call item (b_thr s t')); [|discriminate]. injection H as <-. cbn in D'. congruence.
    - unfold thread_step in H. destruct (b_thr s t'); try discriminate;
        try (injection H as <-; cbn in D'; congruence).
      + injection H as <-. unfold push in D'. cbn in D'.
        destruct (b_queue s); [|destruct (Nat.leb _ _)]; cbn in D'; congruence.
      + destruct (_ && _); [discriminate|]. injection H as <-. cbn in D'; congruence.
      + destruct (b_lock s); [discriminate|]. destruct (b_req s); injection H as <-; cbn in D'; congruence.
      + destruct (existsb _ _); [|discriminate]. injection H as <-. cbn in D'; congruence.
      + destruct (b_lock s); [discriminate|]. injection H as <-; cbn in D'; congruence.
      + destruct (b_wpc s); try discriminate. injection H as <-; cbn in D'; congruence.
    - destruct (b_thr s t'); try discriminate. injection H as <-; cbn in D'; congruence. }
  destruct e as [|t' c|t'|t']; cbn in H.
  - assert (Hthr : b_thr s' = b_thr s).
    { clear -H. unfold worker_step in H.
      destruct (b_wpc s); try match type of H with context [b_lock s] => destruct (b_lock s) end;
        try discriminate;
        try match type of H with context [if b_done s then _ else _] => destruct (b_done s) end;
        try match type of H with context [if _ && _ then _ else _] => destruct (_ && _) end;
        injection H as <-; try reflexivity; unfold pop; try (destruct (b_queue s)); cbn;
        try (destruct fr as [[? ?]|]); try (destruct sfr as [[? ?]|]); reflexivity. }
    rewrite Hthr in Ht. destruct (IH t r n0 Ht) as [Hin|[HP|Hd]]; [|clear IH|congruence].
    + left. clear -H Hin. unfold worker_step in H.
      destruct (b_wpc s); try match type of H with context [b_lock s] => destruct (b_lock s) end;
        try discriminate;
        try match type of H with context [if b_done s then _ else _] => destruct (b_done s) end;
        try match type of H with context [if _ && _ then _ else _] => destruct (_ && _) end;
        injection H as <-; try exact Hin; unfold pop; try (destruct (b_queue s)); cbn;
        try (destruct fr as [[? ?]|]); try (destruct sfr as [[? ?]|]); cbn; auto.
    + destruct (flush_decreases r s s' HI D HP H) as [Hin|(HP' & _)]; auto.
  - destruct (in_no_call item (b_thr s t')); [|discriminate]. injection H as <-. cbn in Ht. unfold tset in Ht.
    destruct (Nat.eqb t t'); [destruct c; discriminate|]. destruct (IH t r n0 Ht) as [Q|[Q|Q]]; [left; exact Q|right; left; exact Q|congruence].
  - destruct (Nat.eq_dec t t') as [<-|Hne].
    + unfold thread_step in H. destruct (b_thr s t) eqn:E; try discriminate.
      * injection H as <-. cbn in Ht. rewrite tset_same in Ht.
        destruct (b_done s); [discriminate|]. destruct (sampled x); discriminate.
      * injection H as <-. cbn in Ht. rewrite tset_same in Ht. discriminate.
      * destruct (_ && _); [discriminate|]. injection H as <-. cbn in Ht. rewrite tset_same in Ht. discriminate.
      * injection H as <-. cbn in Ht. rewrite tset_same in Ht. rewrite D in Ht. discriminate.
      * destruct (b_lock s); [discriminate|]. destruct (b_req s) as [r'|] eqn:R; injection H as <-;
          cbn in Ht; rewrite tset_same in Ht; injection Ht as <- <-; right; left; left; cbn; auto.
      * destruct (existsb _ _); [|discriminate]. injection H as <-. cbn in Ht. rewrite tset_same in Ht. discriminate.
      * injection H as <-. cbn in Ht. rewrite tset_same in Ht. discriminate.
      * destruct (b_lock s); [discriminate|]. injection H as <-. cbn in Ht. rewrite tset_same in Ht. discriminate.
      * destruct (b_wpc s); try discriminate. injection H as <-. cbn in Ht. rewrite tset_same in Ht. discriminate.
      * injection H as <-. cbn in Ht. rewrite tset_same in Ht. discriminate.
    + assert (Ht0 : b_thr s t = TFlushWait r n0 /\ b_set s' = b_set s /\ b_wpc s' = b_wpc s
                    /\ (b_req s' = b_req s \/ b_req s = None)).
      { clear -H Ht Hne. unfold thread_step in H. destruct (b_thr s t'); try discriminate;
          try match type of H with context [if _ && _ then _ else _] => destruct (_ && _) end;
          try match type of H with context [b_lock s] => destruct (b_lock s) end;
          try match type of H with context [match b_wpc s with _ => _ end] => destruct (b_wpc s) eqn:EW end;
          try match type of H with context [match b_req s with _ => _ end] => destruct (b_req s) eqn:EQ end;
          try match type of H with context [existsb _ _] => destruct (existsb _ _) end;
          try discriminate; injection H as <-; unfold push in *;
          try (destruct (b_queue s); [|destruct (Nat.leb _ _)]);
          cbn in Ht; rewrite tset_other in Ht by exact Hne; cbn; auto. }
      destruct Ht0 as (Ht0 & A & B & C). destruct (IH t r n0 Ht0) as [Hin|[HP|Hd]]; [left; congruence| |congruence].
      right; left. unfold pending in *. rewrite B. destruct HP as [HP|HP]; [|auto].
      left. destruct C as [C|C]; congruence.
  - destruct (b_thr s t') eqn:E; try discriminate. injection H as <-. cbn in Ht. unfold tset in Ht.
    destruct (Nat.eqb t t'); [discriminate|]. destruct (IH t r n0 Ht) as [Q|[Q|Q]]; [left; exact Q|right; left; exact Q|congruence].
Qed.

Lemma flush_served s t r n0 : bsp_reach item sampled maxq maxb s -> b_done s = false ->
  b_thr s t = TFlushWait r n0 ->
  exists n, In r (b_set (bsp_run item sampled maxq maxb (repeat EWork n) s)).
Proof.
  intros HR D Ht. destruct (waiting_pending s HR t r n0 Ht) as [Hin|[HP|Hd]]; [exists 0; exact Hin| |congruence].
  eapply flush_served_aux; eauto. apply reach_inv, HR.
Qed.
End Batch.
