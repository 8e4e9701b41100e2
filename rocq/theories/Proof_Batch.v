(** Lemmas on the batch processor, for any items: what one step does to the accepted items and to those on their way to
    the queue, and what has become of the items when a call of force_flush or shutdown has returned. *)
From Verif Require Import Spec_Processor Proof_Processor.
From Coq Require Import Lia.
Local Open Scope nat_scope.

Lemma NoDup_map_inj {A B} (f : A -> B) l x y : NoDup (map f l) -> In x l -> In y l -> f x = f y -> x = y.
Proof.
  induction l as [|z l IH]; cbn; [tauto|]. intros N. inversion N as [|? ? N1 N2]. subst. intros [->|I] [->|J] E; auto.
  - destruct N1. rewrite E. now apply in_map.
  - destruct N1. rewrite <- E. now apply in_map.
Qed.
Lemma NoDup_map_filter {A B} (f : A -> B) p l : NoDup (map f l) -> NoDup (map f (filter p l)).
Proof.
  induction l as [|x l IH]; cbn; [auto|]. intros N. inversion N as [|? ? N1 N2]. subst. destruct (p x); cbn; [constructor|]; auto.
  intros I. apply N1. apply in_map_iff in I. destruct I as (y & E & I). apply filter_In in I. apply in_map_iff. exists y. tauto.
Qed.
Lemma NoDup_prefix {A} (l k : list A) : NoDup (l ++ k) -> NoDup l.
Proof.
  induction l as [|x l IH]; [constructor|]. cbn. intros N. inversion N as [|? ? N1 N2]. subst. constructor; [|auto].
  intros I. apply N1, in_or_app. now left.
Qed.

Section Batch.
Variable item : Type.
Variable item_sampled : item -> bool.
Variable maxq maxb : nat.

Definition carried (s : bsp item) (t : nat) : option item :=
  match b_thr s t with TOnEnd x | TAppend x => Some x | _ => None end.
Lemma proc_cases s e s' : bsp_step item item_sampled maxq maxb s e = Some s' ->
  (b_done s = true -> b_done s' = true)
  /\ ((b_acc s' = b_acc s /\ (forall t, carried s' t = carried s t) /\ forall t x, e <> ECall t (COnEnd x))
      \/ (exists t x, e = ECall t (COnEnd x) /\ b_acc s' = b_acc s /\ b_done s' = b_done s /\ carried s t = None /\ carried s' t = Some x
            /\ forall t', t' <> t -> carried s' t' = carried s t')
      \/ (exists t x, b_acc s' = b_acc s /\ carried s t = Some x /\ carried s' t = None
            /\ (forall t', t' <> t -> carried s' t' = carried s t') /\ (b_done s' = true \/ item_sampled x = false))
      \/ (exists t x, b_acc s' = b_acc s ++ [x] /\ carried s t = Some x /\ carried s' t = None
            /\ forall t', t' <> t -> carried s' t' = carried s t')).
Proof.
  assert (TS : forall t p f, tset item t p f t = p) by (intros; unfold tset; now rewrite Nat.eqb_refl).
  assert (TO : forall t t' p f, t' <> t -> tset item t p f t' = f t').
  { intros t t' p f N. unfold tset. apply Nat.eqb_neq in N. now rewrite N. }
  assert (SAME : forall t p (f : nat -> tpc item) t', match p with TOnEnd x | TAppend x => Some x | _ => None end
                   = match f t with TOnEnd x | TAppend x => Some x | _ => None end ->
                   match tset item t p f t' with TOnEnd x | TAppend x => Some x | _ => None end
                   = match f t' with TOnEnd x | TAppend x => Some x | _ => None end).
  { intros t p f t' Q. destruct (Nat.eq_dec t' t) as [->|N]; [rewrite TS; exact Q|now rewrite TO]. }
  destruct e as [|t c|t|t]; cbn [bsp_step]; intros H.
  - assert (K : b_acc s' = b_acc s /\ b_done s' = b_done s /\ b_thr s' = b_thr s).
    { unfold worker_step in H. destruct (b_wpc s);
        try match type of H with context [if b_lock s then _ else _] => destruct (b_lock s) end; try discriminate;
        try match type of H with context [take_req] => unfold take_req in H end;
        try match type of H with context [if b_done s then _ else _] => destruct (b_done s) eqn:? end;
        try match type of H with context [_ && _] => destruct (_ && _) end;
        try match type of H with context [is_nil (b_queue s)] => destruct (is_nil (b_queue s)) end;
        injection H as <-; unfold pop; try destruct (b_queue s); unfold notify; cbn;
        repeat match goal with |- context [match ?fr with Some _ => _ | None => _ end] => destruct fr as [[? ?]|] end;
        cbn; auto. }
    destruct K as (A & D & T). split; [congruence|]. left. split; [exact A|]. split; [intros; unfold carried; now rewrite T|].
    intros; discriminate.
  - destruct (in_no_call item (b_thr s t)) eqn:Q; [|discriminate]. injection H as <-. split; [auto|].
    assert (C0 : carried s t = None) by (unfold carried; destruct (b_thr s t); try discriminate; reflexivity).
    destruct c as [x| |].
    + right. left. exists t, x. split; [reflexivity|]. split; [reflexivity|]. split; [reflexivity|]. split; [exact C0|].
      unfold carried. cbn [b_thr tgoto]. split; [now rewrite TS|]. intros t' N. now rewrite TO.
    + left. split; [reflexivity|]. split; [|discriminate]. intros t'. unfold carried in *. cbn [b_thr tgoto]. apply SAME. now rewrite C0.
    + left. split; [reflexivity|]. split; [|discriminate]. intros t'. unfold carried in *. cbn [b_thr tgoto]. apply SAME. now rewrite C0.
  - unfold thread_step in H. destruct (b_thr s t) as [|x|x|x|x tk|n0|n0|r n0|n0 wd rs|n0 f|n0 f|n0 f|n0 f|n0 f] eqn:E; try discriminate.
    + (* the test *)
      injection H as <-. split; [auto|]. unfold carried.
      destruct (b_done s) eqn:D; [|destruct (item_sampled x) eqn:Sx].
      * right. right. left. exists t, x. cbn [b_acc b_thr b_done tgoto]. rewrite E, TS. split; [reflexivity|]. split; [reflexivity|].
        split; [reflexivity|]. split; [intros; now rewrite TO|auto].
      * left. cbn [b_acc b_thr b_done tgoto]. split; [reflexivity|]. split; [|discriminate]. intros t'. apply SAME. now rewrite E.
      * right. right. left. exists t, x. cbn [b_acc b_thr b_done tgoto]. rewrite E, TS. split; [reflexivity|]. split; [reflexivity|].
        split; [reflexivity|]. split; [intros; now rewrite TO|auto].
    + injection H as <-. unfold push, carried.
      assert (K : forall t', t' <> t -> tset item t (TPoke x) (b_thr s) t' = b_thr s t') by (intros; now apply TO).
      destruct (b_queue s) as [|y q]; [|destruct (Nat.leb maxq _)]; cbn [b_acc b_thr b_done tgoto]; (split; [auto|]); right; right; right;
        exists t, x; rewrite E, TS; (split; [reflexivity|]); (split; [reflexivity|]); (split; [reflexivity|]); intros t' N; now rewrite K.
    + destruct (_ && _); [discriminate|]. injection H as <-. split; [auto|]. left. split; [reflexivity|]. split; [|discriminate].
      intros t'. unfold carried. cbn [b_thr tgoto]. apply SAME. now rewrite E.
    + injection H as <-. split; [auto|]. left. split; [reflexivity|]. split; [|discriminate].
      intros t'. unfold carried. cbn [b_thr tgoto]. apply SAME. rewrite E. now destruct (b_done s).
    + destruct (b_lock s); [discriminate|]. destruct (b_req s); injection H as <-; (split; [auto|]); left; (split; [reflexivity|]);
        (split; [|discriminate]); intros t'; unfold carried; cbn [b_thr tgoto]; apply SAME; now rewrite E.
    + destruct (existsb _ _); [|discriminate]. injection H as <-. split; [auto|]. left. split; [reflexivity|]. split; [|discriminate].
      intros t'. unfold carried. cbn [b_thr tgoto]. apply SAME. now rewrite E.
    + injection H as <-. split; [auto|]. left. split; [reflexivity|]. split; [|discriminate].
      intros t'. unfold carried. cbn [b_thr tgoto]. apply SAME. now rewrite E.
    + destruct (b_lock s); [discriminate|]. injection H as <-. split; [auto|]. left. split; [reflexivity|]. split; [|discriminate].
      intros t'. unfold carried. cbn [b_thr tgoto]. apply SAME. now rewrite E.
    + destruct (b_wpc s); try discriminate. injection H as <-. split; [auto|]. left. split; [reflexivity|]. split; [|discriminate].
      intros t'. unfold carried. cbn [b_thr tgoto]. apply SAME. now rewrite E.
    + injection H as <-. split; [auto|]. left. split; [reflexivity|]. split; [|discriminate].
      intros t'. unfold carried. cbn [b_thr tgoto]. apply SAME. now rewrite E.
  - destruct (b_thr s t) eqn:E; try discriminate. injection H as <-. split; [auto|]. left. split; [reflexivity|]. split; [|discriminate].
    intros t'. unfold carried. cbn [b_thr tgoto]. apply SAME. now rewrite E.
Qed.

(** ** Calls that have returned *)
Section Sizes.
Hypothesis Q1 : 1 <= maxq.
Hypothesis B1 : 1 <= maxb.
(** Only a full queue evicts. *)
Lemma evicted_full s : bsp_reach item item_sampled maxq maxb s -> forall i, In (i, Evicted) (b_gone s) -> maxq < length (b_acc s).
Proof.
  induction 1 as [d p|s e s' R IH H|s R IH]; [intros i []| |intros i []]. intros i I.
  destruct (c34_conservation item item_sampled maxq maxb Q1 B1 _ (br_step _ _ _ _ _ _ _ R H)) as (A' & _).
  destruct (c34_conservation item item_sampled maxq maxb Q1 B1 _ R) as (A & _).
  destruct (step_history item item_sampled maxq maxb Q1 B1 s e s' R H) as (HA & HG).
  assert (LE : length (b_acc s) <= length (b_acc s')).
  { destruct HA as [->|(t & x & _ & _ & ->)]; [lia|]. rewrite app_length. lia. }
  destruct HG as [E|[(_ & E & _)|[(_ & x & q & _ & _ & E)|(t & x & y & q & _ & _ & Eq & L & Eq' & E)]]].
  - rewrite E in I. specialize (IH _ I). lia.
  - rewrite E in I. apply in_map_iff in I. destruct I as ([j f] & J & I). cbn in J. injection J as -> J. destruct f; try discriminate.
    specialize (IH _ I). lia.
  - rewrite E in I. apply in_app_or in I. destruct I as [I|[I|[]]]; [specialize (IH _ I); lia|discriminate].
  - rewrite A', E, Eq', app_length, map_length, !app_length. cbn [length]. rewrite Eq in L. cbn [length] in L. lia.
Qed.

End Sizes.

(** *** A call of force_flush or shutdown that thread [t] is in *)
Definition in_flush (d1 : bool) (n0 : nat) (p : tpc item) : Prop :=
  match p with
  | TFlush m => m = n0
  | TFlushReq m | TFlushWait _ m => m = n0 /\ d1 = false
  | TFlushRet m wd _ => m = n0 /\ (wd = false -> d1 = false)
  | _ => False
  end.
Definition in_shutdown (d1 : bool) (n0 : nat) (p : tpc item) : Prop :=
  match p with
  | TShut m f | TShutPoke m f | TShutJoin m f | TShutExp m f | TShutRet m f => m = n0 /\ f = negb d1
  | _ => False
  end.
Definition still (In_call : bool -> nat -> tpc item -> Prop) (d1 : bool) (acc1 : list item) (t : nat) (b : bsp item) : Prop :=
  In_call d1 (length acc1) (b_thr b t) /\ (d1 = true -> b_done b = true) /\ exists l, b_acc b = acc1 ++ l.
Lemma other_thread s e s' t : bsp_step item item_sampled maxq maxb s e = Some s' ->
  (match e with EWork => True | ECall t' _ | EStep t' | ETimeout t' => t' <> t end) -> b_thr s' t = b_thr s t.
Proof.
  assert (TO : forall t' p f, t' <> t -> tset item t' p f t = f t).
  { intros t' p f N. unfold tset. destruct (Nat.eqb t t') eqn:Q; [apply Nat.eqb_eq in Q; congruence|reflexivity]. }
  destruct e as [|t' c|t'|t']; cbn [bsp_step]; intros H N.
  - unfold worker_step in H. destruct (b_wpc s);
        try match type of H with context [if b_lock s then _ else _] => destruct (b_lock s) end; try discriminate;
        try match type of H with context [take_req] => unfold take_req in H end;
        try match type of H with context [if b_done s then _ else _] => destruct (b_done s) eqn:? end;
        try match type of H with context [_ && _] => destruct (_ && _) end;
        try match type of H with context [is_nil (b_queue s)] => destruct (is_nil (b_queue s)) end;
        injection H as <-; unfold pop; try destruct (b_queue s); unfold notify; cbn;
        repeat match goal with |- context [match ?fr with Some _ => _ | None => _ end] => destruct fr as [[? ?]|] end;
        reflexivity.
  - destruct (in_no_call item (b_thr s t')); [|discriminate]. injection H as <-. cbn [b_thr tgoto]. now apply TO.
  - unfold thread_step in H. destruct (b_thr s t'); try discriminate;
      try match type of H with context [_ && _] => destruct (_ && _) end; try discriminate;
      try match type of H with context [if b_lock s then _ else _] => destruct (b_lock s) end; try discriminate;
      try match type of H with context [match b_req s with _ => _ end] => destruct (b_req s) end;
      try match type of H with context [existsb _ _] => destruct (existsb _ _) end; try discriminate;
      try match type of H with context [match b_wpc s with _ => _ end] => destruct (b_wpc s) end; try discriminate;
      injection H as <-; cbn [b_thr tgoto]; rewrite TO by exact N; try reflexivity.
    unfold push. destruct (b_queue s); [reflexivity|]. destruct (Nat.leb _ _); reflexivity.
  - destruct (b_thr s t'); try discriminate. injection H as <-. cbn [b_thr tgoto]. now apply TO.
Qed.
Definition kept_in (In_call : bool -> nat -> tpc item -> Prop) : Prop :=
  forall d1 n0 s t s', In_call d1 n0 (b_thr s t) -> (d1 = true -> b_done s = true) ->
    (bsp_step item item_sampled maxq maxb s (EStep t) = Some s' \/ bsp_step item item_sampled maxq maxb s (ETimeout t) = Some s') ->
    In_call d1 n0 (b_thr s' t).
Lemma flush_kept : kept_in in_flush.
Proof.
  intros d1 n0 s t s' H D [E|E]; cbn [bsp_step] in E.
  - unfold thread_step in E. destruct (b_thr s t) eqn:T; try contradiction; try discriminate.
    + injection E as <-. cbn [b_thr tgoto]. unfold tset. rewrite Nat.eqb_refl. cbn in H. subst. destruct (b_done s) eqn:Q; cbn.
      * split; [reflexivity|discriminate].
      * split; [reflexivity|]. destruct d1; [|reflexivity]. specialize (D eq_refl). discriminate.
    + destruct (b_lock s); [discriminate|]. destruct (b_req s); injection E as <-; cbn [b_thr tgoto]; unfold tset; rewrite Nat.eqb_refl; exact H.
    + destruct (existsb _ _); [|discriminate]. injection E as <-. cbn [b_thr tgoto]. unfold tset. rewrite Nat.eqb_refl. cbn in *. tauto.
  - destruct (b_thr s t) eqn:T; try contradiction; try discriminate. injection E as <-. cbn [b_thr tgoto]. unfold tset.
    rewrite Nat.eqb_refl. cbn in *. tauto.
Qed.
Lemma shutdown_kept : kept_in in_shutdown.
Proof.
  intros d1 n0 s t s' H D [E|E]; cbn [bsp_step] in E.
  - unfold thread_step in E. destruct (b_thr s t) eqn:T; try contradiction; try discriminate.
    + injection E as <-. cbn [b_thr tgoto]. unfold tset. rewrite Nat.eqb_refl. exact H.
    + destruct (b_lock s); [discriminate|]. injection E as <-. cbn [b_thr tgoto]. unfold tset. rewrite Nat.eqb_refl. exact H.
    + destruct (b_wpc s); try discriminate. injection E as <-. cbn [b_thr tgoto]. unfold tset. rewrite Nat.eqb_refl. exact H.
    + injection E as <-. cbn [b_thr tgoto]. unfold tset. rewrite Nat.eqb_refl. exact H.
  - destruct (b_thr s t); try contradiction; discriminate.
Qed.
Lemma still_step IC d1 acc1 t b e b' : kept_in IC -> still IC d1 acc1 t b ->
  bsp_step item item_sampled maxq maxb b e = Some b' -> (forall c, e <> ECall t c) -> still IC d1 acc1 t b'.
Proof.
  intros K (H1 & H2 & l & H3) E N. destruct (proc_cases b e b' E) as (D & CS).
  assert (A : exists l, b_acc b' = acc1 ++ l).
  { destruct CS as [(A & _)|[(_ & _ & _ & A & _)|[(_ & _ & A & _)|(_ & x & A & _)]]]; rewrite A, H3; [eauto|eauto|eauto|].
    rewrite <- app_assoc. eauto. }
  split; [|split; [auto|exact A]].
  destruct e as [|t' c|t'|t'].
  - rewrite (other_thread _ _ _ t E I). exact H1.
  - rewrite (other_thread _ _ _ t E); [exact H1|]. intros ->. exact (N c eq_refl).
  - destruct (Nat.eq_dec t' t) as [->|NE]; [|rewrite (other_thread _ _ _ t E NE); exact H1]. eapply K; [exact H1|exact H2|auto].
  - destruct (Nat.eq_dec t' t) as [->|NE]; [|rewrite (other_thread _ _ _ t E NE); exact H1]. eapply K; [exact H1|exact H2|auto].
Qed.
End Batch.

(** ** Schedules *)
Section Runs.
Variable item : Type.
Variable item_sampled : item -> bool.
Variable maxq maxb : nat.
Notation step := (bsp_step item item_sampled maxq maxb).
Notation brun := (bsp_run item item_sampled maxq maxb).
Notation reach := (bsp_reach item item_sampled maxq maxb).

Lemma brun_app es es' s : brun (es ++ es') s = brun es' (brun es s).
Proof. revert s. induction es as [|e es IH]; intros s; [reflexivity|]. cbn [app bsp_run]. apply IH. Qed.
Lemma brun_reach es s : reach s -> reach (brun es s).
Proof.
  revert s. induction es as [|e es IH]; intros s R; [exact R|]. cbn [bsp_run]. apply IH.
  destruct (step s e) eqn:E; [eapply br_step; eassumption|exact R].
Qed.
Lemma brun_still IC d1 acc1 t es : kept_in item item_sampled maxq maxb IC -> (forall c, ~ In (ECall t c) es) -> forall s,
  still item IC d1 acc1 t s -> still item IC d1 acc1 t (brun es s).
Proof.
  intros K. induction es as [|e es IH]; intros N s S1; [exact S1|]. cbn [bsp_run]. apply IH; [intros c I; exact (N c (or_intror I))|].
  destruct (step s e) eqn:E; [|exact S1]. eapply still_step; [exact K|exact S1|exact E|]. intros c ->. exact (N c (or_introl eq_refl)).
Qed.
Hypothesis Q1 : 1 <= maxq.
Hypothesis B1 : 1 <= maxb.
(** What had been accepted before a call of force_flush or shutdown is settled when it has returned. *)
Lemma call_settles b t es : reach b -> in_no_call item (b_thr b t) = true -> (forall c, ~ In (ECall t c) es) ->
  forall b', (b' = brun (ECall t CFlush :: es) b /\ exists n0, b_thr b' t = TFlushRet n0 false true)
          \/ (b' = brun (ECall t CShutdown :: es) b /\ b_done b = false /\ exists n0 f, b_thr b' t = TShutRet n0 f) ->
  b_done b = false /\ exists l, b_acc b' = b_acc b ++ l /\ settled (length (b_acc b)) b'.
Proof.
  intros R NC N b' H. set (d1 := b_done b).
  assert (R' : reach b').
  { destruct H as [(-> & _)|(-> & _)]; now apply brun_reach. }
  destruct H as [(E & n0 & T)|(E & D & n0 & f & T)].
  - assert (S1 : still item (in_flush item) d1 (b_acc b) t (tgoto item t (TFlush (length (b_acc b))) b)).
    { unfold still. cbn [b_thr b_done b_acc tgoto]. unfold tset. rewrite Nat.eqb_refl. split; [reflexivity|]. split; [auto|].
      exists []. now rewrite app_nil_r. }
    pose proof (brun_still _ d1 _ t es (flush_kept item item_sampled maxq maxb) N _ S1) as (S2 & _ & l & S3).
    cbn [bsp_run bsp_step] in E. rewrite NC in E. rewrite <- E in S2, S3. rewrite T in S2. cbn in S2. destruct S2 as [-> S2].
    split; [auto|]. exists l. split; [exact S3|]. exact (c36_flush item item_sampled maxq maxb Q1 B1 _ t _ R' T).
  - assert (S1 : still item (in_shutdown item) d1 (b_acc b) t (tgoto item t (TShut (length (b_acc b)) (negb (b_done b))) b)).
    { unfold still. cbn [b_thr b_done b_acc tgoto]. unfold tset. rewrite Nat.eqb_refl. split; [split; reflexivity|]. split; [auto|].
      exists []. now rewrite app_nil_r. }
    pose proof (brun_still _ d1 _ t es (shutdown_kept item item_sampled maxq maxb) N _ S1) as (S2 & _ & l & S3).
    cbn [bsp_run bsp_step] in E. rewrite NC in E. rewrite <- E in S2, S3. rewrite T in S2. cbn in S2. destruct S2 as [-> ->].
    split; [exact D|]. exists l. split; [exact S3|].
    apply (proj2 (c37_shutdown item item_sampled maxq maxb Q1 B1 _ t _ _ R' T)). unfold d1. now rewrite D.
Qed.
(** An accepted item that is settled has been handed over or evicted. *)
Lemma settled_item b acc1 l x : reach b -> NoDup (b_acc b) -> b_acc b = acc1 ++ l -> In x acc1 -> settled (length acc1) b ->
  In x (handed_over (b_log b)) \/ In (x, Evicted) (b_gone b).
Proof.
  intros R ND EA I ST. apply In_nth_error in I. destruct I as [i I].
  assert (LI : i < length acc1) by (apply nth_error_Some; congruence).
  specialize (ST i x LI). rewrite EA, nth_error_app1 in ST by exact LI. specialize (ST I).
  destruct ST as [ST|ST]; [left|right; exact (nth_error_In _ _ ST)].
  destruct (c34_conservation item item_sampled maxq maxb Q1 B1 _ R) as (A & L & FL & _).
  apply nth_error_In in ST.
  assert (J : In x (map fst (filter (fun p => was_taken (snd p)) (b_gone b)))).
  { apply in_map_iff. exists (x, Exported). split; [reflexivity|]. apply filter_In. auto. }
  rewrite <- L in J. apply in_app_or in J. destruct J as [J|J]; [exact J|]. exfalso.
  assert (K : In x (current_batch (b_wpc b))) by (destruct (b_wpc b); try contradiction; exact J).
  rewrite <- FL in K. apply in_map_iff in K. destruct K as ([y f] & E & K). apply filter_In in K. destruct K as [K F]. cbn in E. subst y.
  assert (N : NoDup (map fst (b_gone b))).
  { apply (NoDup_prefix _ (b_queue b)). rewrite <- A. exact ND. }
  pose proof (NoDup_map_inj _ _ _ _ N ST K eq_refl) as Q. injection Q as <-. discriminate.
Qed.
End Runs.

Lemma NoDup_snoc {A} (l : list A) x : NoDup l -> ~ In x l -> NoDup (l ++ [x]).
Proof.
  intros N I. induction l as [|y l IH]; [repeat constructor; auto|]. inversion N as [|? ? N1 N2]. subst. cbn. constructor.
  - rewrite in_app_iff. intros [K|[K|[]]]; [tauto|]. subst. apply I. left. reflexivity.
  - apply IH; [assumption|]. intros K. apply I. now right.
Qed.
(** ** Numbered items, each handed in once; [P n x]: item [n] is [x] and has been handed in *)
Section Numbered.
Variable X : Type.
Notation item := (nat * X)%type.
Variable item_sampled : item -> bool.
Variable maxq maxb : nat.
Notation step := (bsp_step item item_sampled maxq maxb).
Notation reach := (bsp_reach item item_sampled maxq maxb).
Notation carried := (carried item).
Record ninv (P : nat -> X -> Prop) (b : bsp item) : Prop := NInv {
  n_acc : forall n x, In (n, x) (b_acc b) -> P n x;
  n_car : forall t n x, carried b t = Some (n, x) -> P n x;
  n_once : NoDup (map fst (b_acc b));
  n_one : forall t n x y, In (n, x) (b_acc b) -> carried b t = Some (n, y) -> False;
  n_two : forall t t' n x y, carried b t = Some (n, x) -> carried b t' = Some (n, y) -> t = t';
  n_all : forall n x, P n x -> item_sampled (n, x) = true ->
            In (n, x) (b_acc b) \/ (exists t, carried b t = Some (n, x)) \/ b_done b = true
}.
Lemma ninv_iff P P' b : (forall n x, P n x <-> P' n x) -> ninv P b -> ninv P' b.
Proof. intros H []. constructor; auto; intros; try (apply H; eauto); apply H in H0; eauto. Qed.
Lemma ninv_init P d p : (forall n x, ~ P n x) -> ninv P (bsp_init item d p).
Proof.
  intros N. constructor; try (intros; contradiction); try (intros; discriminate); [constructor|].
  intros n x H. destruct (N _ _ H).
Qed.
Lemma ninv_fork P b : (forall n x, ~ P n x) -> ninv P (bsp_fork item b).
Proof.
  intros N. constructor; try (intros; contradiction); try (intros; discriminate); [constructor|].
  intros n x H. destruct (N _ _ H).
Qed.
Lemma ninv_proc P b e b' : ninv P b -> step b e = Some b' -> (forall t x, e <> ECall t (COnEnd x)) -> ninv P b'.
Proof.
  intros I H NE. destruct (proc_cases item item_sampled maxq maxb b e b' H) as (D & [(A & C & _)|[(t & x & E & _)|[(t & x & A & C0 & C1 & C & R)|(t & x & A & C0 & C1 & C)]]]).
  - destruct I. constructor; rewrite ?A; auto.
    + intros t n x. rewrite C. eauto.
    + intros t n x y I. rewrite C. eauto.
    + intros t t' n x y. rewrite !C. eauto.
    + intros n x T S1. destruct (n_all0 n x T S1) as [K|[(t & K)|K]]; auto. right. left. exists t. now rewrite C.
  - destruct (NE _ _ E).
  - assert (CB : forall t' i, carried b' t' = Some i -> carried b t' = Some i).
    { intros t' i Q. destruct (Nat.eq_dec t' t) as [->|N]; [congruence|]. now rewrite <- C. }
    destruct I. constructor; rewrite ?A; auto.
    + intros t' n y Q. eauto.
    + intros t' n y z I Q. eauto.
    + intros t1 t2 n y z Q1 Q2. eauto.
    + intros n y T S1. destruct (n_all0 n y T S1) as [K|[(t' & K)|K]]; auto.
      destruct (Nat.eq_dec t' t) as [->|N]; [|right; left; exists t'; now rewrite C].
      rewrite C0 in K. injection K as ->. destruct R as [R|R]; [auto|congruence].
  - assert (CB : forall t' i, carried b' t' = Some i -> t' <> t /\ carried b t' = Some i).
    { intros t' i Q. destruct (Nat.eq_dec t' t) as [->|N]; [congruence|]. rewrite <- C; auto. }
    destruct I. constructor; rewrite ?A.
    + intros n y I. apply in_app_or in I. destruct I as [I|[I|[]]]; [eauto|]. subst x. eauto.
    + intros t' n y Q. apply CB in Q. destruct Q. eauto.
    + rewrite map_app. cbn [map]. apply NoDup_snoc; [assumption|]. intros I. apply in_map_iff in I. destruct I as ([n y] & E & I).
      destruct x as [n' y']. cbn in E. subst n'. eauto.
    + intros t' n y z I Q. apply CB in Q. destruct Q as [N Q]. apply in_app_or in I. destruct I as [I|[I|[]]]; [eauto|].
      subst x. apply N. eauto.
    + intros t1 t2 n y z Q1 Q2. apply CB in Q1, Q2. destruct Q1, Q2. eauto.
    + intros n y T S1. rewrite in_app_iff. destruct (n_all0 n y T S1) as [K|[(t' & K)|K]]; auto.
      destruct (Nat.eq_dec t' t) as [->|N]; [|right; left; exists t'; now rewrite C].
      rewrite C0 in K. injection K as ->. left. right. now left.
Qed.
(** An idle thread hands in a new item. *)
Lemma ninv_call P P' b t n x b' : ninv P b -> step b (ECall t (COnEnd (n, x))) = Some b' ->
  (forall y, ~ P n y) -> (forall m y, P' m y <-> P m y \/ (m, y) = (n, x)) -> ninv P' b'.
Proof.
  intros I H OLD NEW. set (it := (n, x)) in *.
  destruct (proc_cases item item_sampled maxq maxb _ _ _ H) as (_ & [(_ & _ & F)|[(t' & i & Eq & A & D & C0 & C1 & C)|[(t' & i & A & C0 & C1 & _)|(t' & i & A & _)]]]).
  { destruct (F t it eq_refl). }
  2: { exfalso. cbn [bsp_step] in H. destruct (in_no_call item (b_thr b t)); [|discriminate]. injection H as <-.
       unfold Proof_Batch.carried in C0, C1. cbn [b_thr tgoto] in C1. unfold tset in C1. destruct (Nat.eqb t' t) eqn:QQ; [discriminate|].
       rewrite C0 in C1. discriminate. }
  2: { exfalso. cbn [bsp_step] in H. destruct (in_no_call item (b_thr b t)); [|discriminate]. injection H as <-. cbn [b_acc tgoto] in A.
       assert (L : length (b_acc b) = length (b_acc b ++ [i])) by (now rewrite <- A). rewrite app_length in L. cbn in L. lia. }
  injection Eq as <- <-.
  assert (CB : forall t' i, carried b' t' = Some i -> (t' = t /\ i = it) \/ (t' <> t /\ carried b t' = Some i)).
  { intros t' i Q. destruct (Nat.eq_dec t' t) as [->|N]; [left|right; rewrite <- C; auto]. split; congruence. }
  destruct I. constructor; rewrite ?A.
  + intros m y I. apply NEW. left. eauto.
  + intros t' m y Q. apply NEW. destruct (CB _ _ Q) as [[_ Q1]|[_ Q1]]; [auto|left; eauto].
  + assumption.
  + intros t' m y z I Q. destruct (CB _ _ Q) as [[_ Q1]|[_ Q1]]; [|eauto].
    unfold it in Q1. injection Q1 as -> _. exact (OLD _ (n_acc0 _ _ I)).
  + intros t1 t2 m y z Q1 Q2. destruct (CB _ _ Q1) as [[-> E1]|[N1 E1]], (CB _ _ Q2) as [[-> E2]|[N2 E2]].
    * reflexivity.
    * unfold it in E1. injection E1 as -> _. destruct (OLD _ (n_car0 _ _ _ E2)).
    * unfold it in E2. injection E2 as -> _. destruct (OLD _ (n_car0 _ _ _ E1)).
    * eauto.
  + intros m y T S1. apply NEW in T. destruct T as [T|T].
    * destruct (n_all0 m y T S1) as [K|[(t' & K)|K]]; [auto| |right; right; congruence].
      right. left. exists t'. rewrite C; [exact K|]. intros ->. congruence.
    * right. left. exists t. now rewrite C1, T.
Qed.
Hypothesis Q1 : 1 <= maxq.
Hypothesis B1 : 1 <= maxb.
Lemma handed_acc b i : reach b -> In i (handed_over (b_log b)) -> In i (b_acc b).
Proof.
  intros R I. destruct (c34_conservation item item_sampled maxq maxb Q1 B1 _ R) as (A & L & _).
  rewrite A. apply in_or_app. left.
  assert (J : In i (map fst (filter (fun p => was_taken (snd p)) (b_gone b)))) by (rewrite <- L; apply in_or_app; now left).
  apply in_map_iff in J. destruct J as (y & <- & J). apply filter_In in J. apply in_map. tauto.
Qed.
Lemma handed_once P b : reach b -> ninv P b -> NoDup (map fst (handed_over (b_log b))).
Proof.
  intros R I. destruct (c34_conservation item item_sampled maxq maxb Q1 B1 _ R) as (A & L & _).
  apply (NoDup_prefix _ (map fst (assembling (b_wpc b)))). rewrite <- map_app, L, map_map. apply NoDup_map_filter.
  rewrite <- map_map. apply (NoDup_prefix _ (map fst (b_queue b))). rewrite <- map_app, <- A. apply (n_once _ _ I).
Qed.
End Numbered.
