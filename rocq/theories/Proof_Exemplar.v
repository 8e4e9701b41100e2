(** Proofs about exemplar reservoirs. *)
From Verif Require Import Proof_Dict Proof_Metrics Spec_Exemplar.
From Coq Require Import Lia.
Local Open Scope Z_scope.

(** ** Sorting the storage *)
Lemma flat_map_ext_in' {A B} (f g : A -> list B) l : (forall x, In x l -> f x = g x) -> flat_map f l = flat_map g l.
Proof.
  induction l as [|x l IH]; intro H; [reflexivity|]. cbn. rewrite H by now left. f_equal. apply IH.
  intros y I. apply H. now right.
Qed.
Definition listing (st : estorage) (l : list nat) : list (nat * ebucket) :=
  flat_map (fun i => match dget i st with Some b => [(i, b)] | None => [] end) l.
Lemma listing_ge st a n kb : In kb (listing st (seq a n)) -> (a <= fst kb)%nat.
Proof.
  unfold listing. rewrite in_flat_map. intros [i [I J]]. apply in_seq in I.
  destruct (dget i st); [|destruct J]. destruct J as [<-|[]]. cbn. lia.
Qed.
Lemma insert_front kb l : (forall x, In x l -> (fst kb < fst x)%nat) -> insert_key kb l = kb :: l.
Proof.
  destruct l as [|x l]; [reflexivity|]. intro H. cbn [insert_key]. specialize (H x (or_introl eq_refl)).
  apply Nat.ltb_lt in H. now rewrite H.
Qed.
Lemma listing_cons_out k b st a n : (k < a)%nat -> listing ((k, b) :: st) (seq a n) = listing st (seq a n).
Proof.
  intro H. unfold listing. apply flat_map_ext_in'. intros i I. apply in_seq in I. cbn.
  destruct (eq_dec i k); [lia|reflexivity].
Qed.
Lemma insert_listing k b st : ~ In k (keys st) -> forall n a, (a <= k < a + n)%nat ->
  insert_key (k, b) (listing st (seq a n)) = listing ((k, b) :: st) (seq a n).
Proof.
  intro F. induction n as [|n IH]; intros a H; [lia|]. cbn [seq].
  change (listing st (a :: seq (S a) n))
    with ((match dget a st with Some b => [(a, b)] | None => [] end) ++ listing st (seq (S a) n)).
  change (listing ((k, b) :: st) (a :: seq (S a) n))
    with ((match dget a ((k, b) :: st) with Some b => [(a, b)] | None => [] end) ++ listing ((k, b) :: st) (seq (S a) n)).
  cbn [dget]. destruct (eq_dec a k) as [->|E].
  - apply dget_keys in F. rewrite F, listing_cons_out by lia. cbn [app].
    apply insert_front. intros x I. apply listing_ge in I. cbn. lia.
  - destruct (dget a st) as [b0|]; cbn [app].
    + cbn [insert_key fst]. assert (X : Nat.ltb k a = false) by (apply Nat.ltb_ge; lia).
      rewrite X. f_equal. apply IH. lia.
    + apply IH. lia.
Qed.
Lemma sort_listing st n : NoDup (keys st) -> (forall i, In i (keys st) -> (i < n)%nat) ->
  sort_keys st = listing st (seq 0 n).
Proof.
  induction st as [|[k b] st IH]; intros ND B.
  - unfold listing. cbn. induction (seq 0 n); [reflexivity|assumption].
  - cbn [sort_keys]. inversion ND as [|? ? F ND']; subst. rewrite IH; [|assumption|intros i I; apply B; now right].
    apply insert_listing; [assumption|]. specialize (B k (or_introl eq_refl)). lia.
Qed.

(** ** What the slots hold.  [r]: the offers since the last collection, newest first, each with its slot. *)
Definition placed := list (meas * option nat).
Definition goes (i : nat) (c : option nat) : bool := match c with Some j => Nat.eqb j i | None => false end.
Fixpoint holder (i : nat) (r : placed) : option meas :=
  match r with [] => None | (m, c) :: r' => if goes i c then Some m else holder i r' end.
Fixpoint posn (i : nat) (r : placed) : option nat :=
  match r with [] => None | (m, c) :: r' => if goes i c then Some (length r') else posn i r' end.
Fixpoint ids_of (i : nat) (r : placed) : option (N * N) :=
  match r with
  | [] => None
  | (m, c) :: r' => if goes i c then match me_span m with Some (s, t, _) => Some (s, t) | None => ids_of i r' end
                    else ids_of i r'
  end.
Definition bucket_ids (b : ebucket) (o : option (N * N)) : Prop :=
  eb_span_id b = option_map fst o /\ eb_trace_id b = option_map snd o.
Definition inv (r : placed) (st : estorage) : Prop :=
  NoDup (keys st) /\ forall i,
  match holder i r with
  | None => ids_of i r = None
            /\ (dget i st = None \/ exists b, dget i st = Some b /\ eb_offered b = false /\ bucket_ids b None)
  | Some m => exists b, dget i st = Some b /\ eb_offered b = true
              /\ eb_value b = me_value m /\ eb_time b = me_time m /\ eb_attrs b = me_attrs m /\ bucket_ids b (ids_of i r)
  end.
Lemma inv_nil : inv [] [].
Proof. split; [constructor|]. intro i. cbn. split; [reflexivity|now left]. Qed.
Lemma inv_skip m r st : inv r st -> inv ((m, None) :: r) st.
Proof. intros [ND H]. split; [assumption|]. intro i. exact (H i). Qed.
Lemma inv_put m i r st : inv r st -> inv ((m, Some i) :: r) (store_offer i m st).
Proof.
  intros [ND H]. split; [now apply NoDup_dset|]. intro j. unfold store_offer. cbn [holder ids_of goes].
  destruct (Nat.eqb i j) eqn:E.
  - apply Nat.eqb_eq in E. subst j. rewrite dget_dset_eq. eexists. split; [reflexivity|].
    specialize (H i). unfold eb_offer. destruct (me_span m) as [[[s t] sm]|] eqn:Sp; cbn.
    + repeat split.
    + assert (X : bucket_ids (match dget i st with Some b => b | None => eb_new end) (ids_of i r)).
      { destruct (holder i r) as [m'|].
        - destruct H as (b & -> & _ & _ & _ & _ & G). exact G.
        - destruct H as [-> [->|(b & -> & _ & G)]]; [split; reflexivity|exact G]. }
      destruct X as [X Y]. do 4 (split; [reflexivity|]). split; assumption.
  - apply Nat.eqb_neq in E. rewrite dget_dset_ne by congruence. exact (H j).
Qed.
Definition collected (point : mattrs) (r : placed) (n : nat) : list exemplar :=
  flat_map (fun i => match holder i r with
                     | Some m => [Ex (filtered (me_attrs m) point) (me_value m) (me_time m)
                                     (option_map fst (ids_of i r)) (option_map snd (ids_of i r))]
                     | None => [] end) (seq 0 n).
Lemma dget_map_snd (f : ebucket -> ebucket) (st : estorage) i :
  dget i (map (fun kb => (fst kb, f (snd kb))) st) = option_map f (dget i st).
Proof. induction st as [|[k b] st IH]; [reflexivity|]. cbn. destruct (eq_dec i k); [reflexivity|exact IH]. Qed.
Lemma collect_spec point r st n : inv r st -> (forall i, In i (keys st) -> (i < n)%nat) ->
  let (st', es) := store_collect point st in
  inv [] st' /\ keys st' = keys st /\ es = collected point r n.
Proof.
  intros [ND H] B. unfold store_collect.
  assert (K : keys (map (fun kb => (fst kb, fst (eb_collect point (snd kb)))) st) = keys st).
  { unfold keys. rewrite map_map. reflexivity. }
  split; [split|split].
  - now rewrite K.
  - intro i. cbn. split; [reflexivity|].
    change (map (fun kb => (fst kb, fst (eb_collect point (snd kb)))) st)
      with (map (fun kb : nat * ebucket => (fst kb, (fun b => fst (eb_collect point b)) (snd kb))) st).
    rewrite dget_map_snd. specialize (H i). destruct (holder i r).
    + destruct H as (b & -> & O & _). right. eexists. split; [reflexivity|]. unfold eb_collect. rewrite O.
      split; [reflexivity|split; reflexivity].
    + destruct H as [_ [->|(b & -> & O & G)]]; [now left|right]. eexists. split; [reflexivity|].
      unfold eb_collect. rewrite O. split; assumption.
  - exact K.
  - rewrite (sort_listing st n ND B). unfold listing, collected.
    induction (seq 0 n) as [|i l IH]; [reflexivity|]. cbn [flat_map]. rewrite flat_map_app, IH. f_equal.
    specialize (H i). destruct (holder i r) as [m|].
    + destruct H as (b & -> & O & V & T & A & [G1 G2]). cbn. unfold eb_collect. rewrite O. cbn.
      now rewrite V, T, A, G1, G2.
    + destruct H as [_ [->|(b & -> & O & _)]]; [reflexivity|]. cbn. unfold eb_collect. now rewrite O.
Qed.
Lemma store_keys i m st j : In j (keys (store_offer i m st)) <-> j = i \/ In j (keys st).
Proof. unfold store_offer. apply In_keys_dset. Qed.

(** ** Histories *)
(** Slots, for a rule that gives the slot from the number of earlier offers, the measurement and the draw. *)
Fixpoint slots (pick : nat -> meas -> Z -> option nat) (rs : list (meas * Z)) : placed :=
  match rs with [] => [] | (m, d) :: r => (m, pick (length r) m d) :: slots pick r end.
Definition pick_simple (size : Z) (n : nat) (_ : meas) (d : Z) : option nat := simple_index size (Z.of_nat (S n)) d.
Definition pick_aligned (bounds : list Z) (_ : nat) (m : meas) (_ : Z) : option nat := Some (aligned_index bounds (me_value m)).
Lemma slots_length pick rs : length (slots pick rs) = length rs.
Proof. induction rs as [|[m d] rs IH]; [reflexivity|]. cbn. now rewrite IH. Qed.

Definition matches (size : Z) (n : nat) (rs : list (meas * Z)) (r : reservoir) : Prop :=
  exists st, r = Simple size (Z.of_nat (length rs)) st /\ inv (slots (pick_simple size) rs) st
  /\ forall i, In i (keys st) -> (i < n)%nat.
Lemma simple_index_lt size seen d i : 0 <= d -> 1 <= seen -> simple_index size seen d = Some i -> (i < Z.to_nat size)%nat.
Proof.
  intros D S0. unfold simple_index. destruct (Z.ltb_spec seen size); intro E.
  - injection E as <-. lia.
  - destruct (Z.ltb_spec d size); [|discriminate]. injection E as <-. lia.
Qed.
Lemma simple_offer size rs m d r : 0 <= d -> matches size (Z.to_nat size) rs r ->
  matches size (Z.to_nat size) ((m, d) :: rs) (offer m d r).
Proof.
  intros D (st & -> & I & B). unfold matches. cbn [offer].
  replace (Z.of_nat (length rs) + 1) with (Z.of_nat (length ((m, d) :: rs))) by (cbn [length]; lia).
  cbn [slots]. unfold pick_simple at 1. cbn [length].
  destruct (simple_index size (Z.of_nat (S (length rs))) d) as [i|] eqn:E.
  - eexists. split; [reflexivity|]. split; [now apply inv_put|]. intros j J. apply store_keys in J.
    destruct J as [->|J]; [|auto]. apply simple_index_lt in E; lia.
  - eexists. split; [reflexivity|]. split; [now apply inv_skip|assumption].
Qed.
Lemma simple_collect size rs point r : matches size (Z.to_nat size) rs r ->
  let (r', es) := rcollect point r in
  matches size (Z.to_nat size) [] r' /\ es = collected point (slots (pick_simple size) rs) (Z.to_nat size).
Proof.
  intros (st & -> & I & B). cbn [rcollect]. pose proof (collect_spec point _ st _ I B) as H.
  destruct (store_collect point st) as [st' es]. destruct H as (J & K & ->). split; [|reflexivity].
  exists st'. split; [reflexivity|]. split; [assumption|]. rewrite K. exact B.
Qed.
Definition matches_al (bounds : list Z) (rs : list (meas * Z)) (r : reservoir) : Prop :=
  exists st, r = Aligned bounds st /\ inv (slots (pick_aligned bounds) rs) st
  /\ forall i, In i (keys st) -> (i < S (length bounds))%nat.
Lemma aligned_index_le bounds v : (aligned_index bounds v <= length bounds)%nat.
Proof. induction bounds as [|b l IH]; cbn; [lia|]. destruct (v <=? b); lia. Qed.
Lemma aligned_offer bounds rs m d r : matches_al bounds rs r -> matches_al bounds ((m, d) :: rs) (offer m d r).
Proof.
  intros (st & -> & I & B). eexists. split; [reflexivity|]. split; [now apply inv_put|]. intros j J.
  apply store_keys in J. destruct J as [->|J]; [|auto]. pose proof (aligned_index_le bounds (me_value m)). lia.
Qed.
Lemma aligned_collect bounds rs point r : matches_al bounds rs r ->
  let (r', es) := rcollect point r in
  matches_al bounds [] r' /\ es = collected point (slots (pick_aligned bounds) rs) (S (length bounds)).
Proof.
  intros (st & -> & I & B). cbn [rcollect]. pose proof (collect_spec point _ st _ I B) as H.
  destruct (store_collect point st) as [st' es]. destruct H as (J & K & ->). split; [|reflexivity].
  exists st'. split; [reflexivity|]. split; [assumption|]. rewrite K. exact B.
Qed.

Definition nonneg (l : list (meas * Z)) : Prop := forall m d, In (m, d) l -> 0 <= d.
Lemma draws_nonneg l : draws_ok l -> nonneg l.
Proof. intros H m d I. apply In_nth_error in I as [i I]. specialize (H i m d I). lia. Qed.
Lemma history_simple size h : forall rs r acc,
  (forall iv, In iv (intervals (rev rs) h) -> nonneg (fst iv)) -> matches size (Z.to_nat size) rs r ->
  snd (fold_left rstep h (r, acc))
  = acc ++ map (fun iv => collected (snd iv) (slots (pick_simple size) (rev (fst iv))) (Z.to_nat size)) (intervals (rev rs) h).
Proof.
  induction h as [|[m d|point] h IH]; intros rs r acc D M.
  - cbn. now rewrite app_nil_r.
  - cbn [fold_left rstep fst snd intervals]. cbn [intervals] in D.
    change (rev rs ++ [(m, d)]) with (rev ((m, d) :: rs)) in *.
    destruct (Z.leb_spec 0 d) as [P|P].
    + apply IH; [exact D|]. now apply simple_offer.
    + (* a negative draw would be in the interval of the next collection, if there is one *)
      assert (X : intervals (rev ((m, d) :: rs)) h = []).
      { assert (I : In (m, d) (rev ((m, d) :: rs))) by (apply in_rev; rewrite rev_involutive; now left).
        revert D I. generalize (rev ((m, d) :: rs)). clear - P. induction h as [|[m' d'|pt] h IH]; intros l D I; [reflexivity| |].
        - cbn [intervals] in *. apply IH; [assumption|]. apply in_or_app. now left.
        - exfalso. specialize (D (l, pt) (or_introl eq_refl) m d I). lia. }
      rewrite X. cbn [map]. rewrite app_nil_r.
      assert (Y : forall l r a, intervals l h = [] -> snd (fold_left rstep h (r, a)) = a).
      { clear. induction h as [|[m' d'|pt] h IH]; intros l r a E; [reflexivity| |discriminate].
        cbn [fold_left rstep fst snd]. eapply IH. exact E. }
      eapply Y. exact X.
  - cbn [fold_left rstep fst snd intervals]. pose proof (simple_collect size rs point r M) as H.
    destruct (rcollect point r) as [r' es]. destruct H as [M' ->].
    rewrite (IH [] r'); [|intros iv I; apply D; now right|assumption].
    cbn [map fst snd rev]. rewrite rev_involutive, <- app_assoc. reflexivity.
Qed.
Lemma history_aligned bounds h : forall rs r acc, matches_al bounds rs r ->
  snd (fold_left rstep h (r, acc))
  = acc ++ map (fun iv => collected (snd iv) (slots (pick_aligned bounds) (rev (fst iv))) (S (length bounds))) (intervals (rev rs) h).
Proof.
  induction h as [|[m d|point] h IH]; intros rs r acc M.
  - cbn. now rewrite app_nil_r.
  - cbn [fold_left rstep fst snd intervals]. change (rev rs ++ [(m, d)]) with (rev ((m, d) :: rs)).
    apply IH. now apply aligned_offer.
  - cbn [fold_left rstep fst snd intervals]. pose proof (aligned_collect bounds rs point r M) as H.
    destruct (rcollect point r) as [r' es]. destruct H as [M' ->].
    rewrite (IH [] r') by assumption. cbn [map fst snd rev]. rewrite rev_involutive, <- app_assoc. reflexivity.
Qed.

(** ** The exemplars come from different measurements *)
Definition olist {A} (o : option A) : list A := match o with Some x => [x] | None => [] end.
Lemma filtered_spec point m e : ex_filtered e = filtered (me_attrs m) point ->
  match me_attrs m with
  | None => ex_filtered e = None
  | Some d => match ex_filtered e with
              | None => d = []
              | Some f => d <> [] /\ f = filter (fun kv => if in_dec eq_dec (fst kv) (keys point) then false else true) d
              end
  end.
Proof.
  intros ->. unfold filtered. destruct (me_attrs m) as [[|kv d]|]; [reflexivity| |reflexivity].
  split; [discriminate|]. apply filter_ext. intro x. destruct (in_dec eq_dec (fst x) (keys point)) as [I|I].
  - apply dmem_true in I. now rewrite I.
  - apply dmem_false in I. now rewrite I.
Qed.
Lemma holder_posn pick rs i : match holder i (slots pick rs), posn i (slots pick rs) with
  | Some m, Some p => nth_error (map fst (rev rs)) p = Some m
                      /\ exists d n, nth_error (rev rs) p = Some (m, d) /\ n = p /\ pick n m d = Some i
  | None, None => True
  | _, _ => False
  end.
Proof.
  induction rs as [|[m d] rs IH]; [exact I|]. cbn [slots holder posn].
  destruct (goes i (pick (length rs) m d)) eqn:G.
  - rewrite slots_length. cbn [rev]. split.
    + rewrite map_app, nth_error_app2, map_length, rev_length, Nat.sub_diag by now rewrite map_length, rev_length.
      reflexivity.
    + exists d, (length rs). split; [|split; [reflexivity|]].
      * rewrite nth_error_app2, rev_length, Nat.sub_diag by now rewrite rev_length. reflexivity.
      * unfold goes in G. destruct (pick (length rs) m d) as [j|]; [|discriminate]. apply Nat.eqb_eq in G. now subst.
  - destruct (holder i (slots pick rs)) as [m'|], (posn i (slots pick rs)) as [p|]; try exact IH.
    destruct IH as [E (d' & n & E1 & E2 & E3)]. cbn [rev]. split.
    + rewrite map_app, nth_error_app1; [assumption|]. rewrite <- nth_error_Some. congruence.
    + exists d', n. split; [|split; assumption]. rewrite nth_error_app1; [assumption|]. rewrite <- nth_error_Some. congruence.
Qed.
Lemma posn_inj pick rs i j p : posn i (slots pick rs) = Some p -> posn j (slots pick rs) = Some p -> i = j.
Proof.
  intros E F. pose proof (holder_posn pick rs i) as H. pose proof (holder_posn pick rs j) as K. rewrite E in H. rewrite F in K.
  destruct (holder i (slots pick rs)); [|destruct H]. destruct (holder j (slots pick rs)); [|destruct K].
  destruct H as [_ (d & n & A & -> & B)]. destruct K as [_ (d' & n' & A' & -> & B')]. congruence.
Qed.
Lemma NoDup_positions pick rs l : NoDup l -> NoDup (flat_map (fun i => olist (posn i (slots pick rs))) l).
Proof.
  induction l as [|i l IH]; intro ND; [constructor|]. inversion ND as [|? ? F ND']; subst. cbn [flat_map].
  destruct (posn i (slots pick rs)) as [p|] eqn:E; [|now apply IH]. cbn [olist app]. constructor; [|now apply IH].
  rewrite in_flat_map. intros [j [J P]]. destruct (posn j (slots pick rs)) as [q|] eqn:Q; [|destruct P].
  destruct P as [<-|[]]. apply F. replace i with j; [assumption|]. eapply posn_inj; eassumption.
Qed.
Lemma collected_taken pick point since n :
  taken_from point (map fst since) (collected point (slots pick (rev since)) n).
Proof.
  exists (flat_map (fun i => olist (posn i (slots pick (rev since)))) (seq 0 n)).
  split; [apply NoDup_positions, seq_NoDup|]. unfold collected.
  induction (seq 0 n) as [|i l IH]; [constructor|]. cbn [flat_map].
  apply Forall2_app; [|exact IH]. pose proof (holder_posn pick (rev since) i) as H. rewrite rev_involutive in H.
  destruct (holder i (slots pick (rev since))) as [m|], (posn i (slots pick (rev since))) as [p|]; try now destruct H.
  - constructor; [|constructor]. exists m. split; [apply H|]. split; [reflexivity|split; [reflexivity|]].
    now apply filtered_spec.
  - constructor.
Qed.
Lemma collected_length point r n : (length (collected point r n) <= n)%nat.
Proof.
  unfold collected. rewrite <- (seq_length n 0) at 2. induction (seq 0 n) as [|i l IH]; [cbn; lia|].
  cbn [flat_map]. rewrite app_length. cbn [length]. destruct (holder i r); cbn [length]; lia.
Qed.
Lemma Forall2_map_r {A B C} (P : A -> B -> Prop) (f : C -> B) (g : C -> A) l :
  (forall x, In x l -> P (g x) (f x)) -> Forall2 P (map g l) (map f l).
Proof.
  induction l as [|x l IH]; intro H; [constructor|]. constructor; [apply H; now left|].
  apply IH. intros y I. apply H. now right.
Qed.

(** The first measurements have slots of their own. *)
Lemma holder_in i m r : In (m, Some i) r -> holder i r <> None.
Proof.
  induction r as [|[m' c] r IH]; [intros []|]. cbn [holder]. intros [E|I].
  - injection E as -> ->. cbn [goes]. rewrite Nat.eqb_refl. discriminate.
  - destruct (goes i c); [discriminate|auto].
Qed.
Lemma slots_in pick rs : forall p m d, nth_error (rev rs) p = Some (m, d) -> In (m, pick p m d) (slots pick rs).
Proof.
  induction rs as [|[m' d'] rs IH]; intros p m d E; [destruct p; discriminate|]. cbn [rev slots] in *.
  destruct (Nat.ltb_spec p (length rs)) as [L|L].
  - rewrite nth_error_app1 in E by now rewrite rev_length. right. auto.
  - rewrite nth_error_app2, rev_length in E by now rewrite rev_length. destruct (p - length rs)%nat as [|q] eqn:Q; [|destruct q; discriminate].
    injection E as -> ->. left. f_equal. f_equal. lia.
Qed.
Lemma collected_many point r n j : (j <= n)%nat -> (forall i, (i < j)%nat -> holder i r <> None) -> (j <= length (collected point r n))%nat.
Proof.
  intros L F. unfold collected. replace n with (j + (n - j))%nat by lia. rewrite seq_app, flat_map_app, app_length.
  assert (X : forall a, (forall i, (a <= i < a + j)%nat -> holder i r <> None) -> (j <= length (flat_map (fun i => match holder i r with
    | Some m => [Ex (filtered (me_attrs m) point) (me_value m) (me_time m) (option_map fst (ids_of i r)) (option_map snd (ids_of i r))] | None => [] end) (seq a j)))%nat).
  { clear. induction j as [|j IH]; intros a F; [lia|]. cbn [seq flat_map]. rewrite app_length. specialize (IH (Datatypes.S a)).
    destruct (holder a r) eqn:E; [|exfalso; apply (F a); [lia|exact E]]. cbn [length]. assert (Y : forall i, (Datatypes.S a <= i < Datatypes.S a + j)%nat -> holder i r <> None) by (intros; apply F; lia).
    specialize (IH Y). lia. }
  specialize (X 0%nat). assert (Y : forall i, (0 <= i < 0 + j)%nat -> holder i r <> None) by (intros; apply F; lia). specialize (X Y). lia.
Qed.
Lemma collected_enough size point since : draws_ok since ->
  let es := collected point (slots (pick_simple size) (rev since)) (Z.to_nat size) in
  Z.min (Z.of_nat (length since)) (size - 1) <= Z.of_nat (length es) /\ (since <> [] -> 0 < size -> es <> []).
Proof.
  intros D es.
  assert (A : Z.min (Z.of_nat (length since)) (size - 1) <= Z.of_nat (length es)).
  { destruct (Z.leb_spec (Z.min (Z.of_nat (length since)) (size - 1)) 0) as [L|L]; [lia|].
    enough (Z.to_nat (Z.min (Z.of_nat (length since)) (size - 1)) <= length es)%nat by lia. apply collected_many; [lia|]. intros i Li.
    destruct (nth_error since i) as [[m d]|] eqn:E; [|apply nth_error_None in E; lia].
    apply (holder_in i m). pose proof (slots_in (pick_simple size) (rev since) i m d) as X. rewrite rev_involutive in X. specialize (X E).
    replace (pick_simple size i m d) with (Some i) in X; [exact X|]. unfold pick_simple, simple_index. destruct (Z.ltb_spec (Z.of_nat (Datatypes.S i)) size); [|lia]. f_equal. lia. }
  split; [exact A|]. intros NE SZ Z0. rewrite Z0 in A. cbn in A. destruct since as [|[m d] since]; [congruence|]. cbn [length] in A. assert (size = 1) by lia. subst size.
  assert (X : (1 <= length es)%nat); [|rewrite Z0 in X; cbn in X; lia]. apply collected_many; [cbn; lia|]. intros i Li. assert (i = 0)%nat by lia. subst i.
  apply (holder_in 0 m). pose proof (slots_in (pick_simple 1) (rev ((m, d) :: since)) 0 m d) as X. rewrite rev_involutive in X. specialize (X eq_refl).
  pose proof (D 0%nat m d eq_refl) as Dd. assert (d = 0) by lia. subst d. exact X.
Qed.
Lemma simple_sound size h : (forall iv, In iv (intervals [] h) -> draws_ok (fst iv)) ->
  Forall2 (fun iv es => Z.of_nat (length es) <= Z.max 0 size
      /\ Z.min (Z.of_nat (length (fst iv))) (size - 1) <= Z.of_nat (length es) /\ (fst iv <> [] -> 0 < size -> es <> [])
      /\ taken_from (snd iv) (map fst (fst iv)) es)
    (intervals [] h) (snd (rrun (simple_new size) h)).
Proof.
  intro D. unfold rrun. rewrite (history_simple size h []); cbn [app rev].
  - rewrite <- (map_id (intervals [] h)) at 1. apply Forall2_map_r. intros [since point] I. cbn [fst snd]. split; [|rewrite <- and_assoc; split].
    + pose proof (collected_length point (slots (pick_simple size) (rev since)) (Z.to_nat size)). lia.
    + apply collected_enough. exact (D _ I).
    + apply collected_taken.
  - intros iv I. apply draws_nonneg. auto.
  - exists []. split; [reflexivity|]. split; [apply inv_nil|intros i []].
Qed.

(** ** Aligned: the last measurement of each bucket *)
Lemma aligned_index_bucket bounds v i : sorted bounds -> (i <= length bounds)%nat ->
  Nat.eqb (aligned_index bounds v) i = in_bucket bounds i v.
Proof.
  revert i. induction bounds as [|b l IH]; intros i S0 L.
  - cbn in L. assert (i = 0)%nat by lia. subst. reflexivity.
  - assert (S1 : sorted l).
    { intros x y H. specialize (S0 (Datatypes.S x) (Datatypes.S y)). apply S0. cbn. lia. }
    cbn [aligned_index]. destruct (Z.leb_spec v b) as [V|V].
    + destruct i as [|i].
      * unfold in_bucket. cbn. symmetry. apply Z.leb_le. exact V.
      * cbn [Nat.eqb]. unfold in_bucket. symmetry. apply andb_false_intro1. cbn in L.
        destruct (nth_error (b :: l) i) as [lo|] eqn:E.
        -- apply Z.ltb_ge. pose proof (S0 0%nat i ltac:(cbn; lia)) as H.
           rewrite (nth_error_nth _ _ _ E) in H. change (nth 0 (b :: l) 0) with b in H. lia.
        -- apply nth_error_None in E. cbn in E. lia.
    + destruct i as [|i].
      * unfold in_bucket. cbn. symmetry. apply Z.leb_gt. exact V.
      * cbn [Nat.eqb]. rewrite IH by (try assumption; cbn in L; lia). unfold in_bucket. cbn [nth_error].
        destruct i as [|i]; [|reflexivity]. cbn [nth_error].
        assert (X : b <? v = true) by now apply Z.ltb_lt. now rewrite X.
Qed.
Lemma last_with_snoc {A} (p : A -> bool) l x : last_with p (l ++ [x]) = if p x then Some x else last_with p l.
Proof.
  unfold last_with. rewrite filter_app. cbn [filter]. destruct (p x).
  - now rewrite rev_app_distr.
  - now rewrite app_nil_r.
Qed.
Lemma holder_aligned bounds rs i : sorted bounds -> (i <= length bounds)%nat ->
  holder i (slots (pick_aligned bounds) rs) = last_with (fun m => in_bucket bounds i (me_value m)) (map fst (rev rs)).
Proof.
  intros S0 L. induction rs as [|[m d] rs IH]; [reflexivity|]. cbn [slots holder rev].
  rewrite map_app. cbn [map fst]. rewrite last_with_snoc. unfold pick_aligned at 1. cbn [goes].
  rewrite aligned_index_bucket by assumption. now rewrite IH.
Qed.
Lemma aligned_last bounds h : sorted bounds ->
  Forall2 (fun iv es =>
      Forall2 (exemplar_of (snd iv))
        (flat_map (fun i => match last_with (fun m => in_bucket bounds i (me_value m)) (map fst (fst iv)) with
                            | Some m => [m] | None => [] end) (seq 0 (Datatypes.S (length bounds)))) es
      /\ taken_from (snd iv) (map fst (fst iv)) es)
    (intervals [] h) (snd (rrun (aligned_new bounds) h)).
Proof.
  intro S0. unfold rrun. rewrite (history_aligned bounds h []); cbn [app rev].
  - rewrite <- (map_id (intervals [] h)) at 1. apply Forall2_map_r. intros [since point] _. cbn [fst snd].
    split; [|apply collected_taken]. unfold collected.
    assert (X : forall i, In i (seq 0 (Datatypes.S (length bounds))) -> (i <= length bounds)%nat)
      by (intros i I; apply in_seq in I; lia).
    induction (seq 0 (Datatypes.S (length bounds))) as [|i l IH]; [constructor|]. cbn [flat_map].
    apply Forall2_app; [|apply IH; intros j J; apply X; now right].
    rewrite holder_aligned by (try assumption; apply X; now left). rewrite rev_involutive.
    destruct (last_with _ (map fst since)) as [m|]; [|constructor]. constructor; [|constructor].
    split; [reflexivity|split; [reflexivity|]]. now apply filtered_spec.
  - exists []. split; [reflexivity|]. split; [apply inv_nil|intros i []].
Qed.
