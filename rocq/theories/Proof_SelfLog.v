(** Proofs about the SDK's log messages that come back to it. *)
From Verif Require Import Spec_SelfLog.
From Coq Require Import Lia.

Lemma push_last cap q m : push cap q m = last_of cap (q ++ [m]).
Proof.
  unfold push, last_of. rewrite firstn_rev, rev_involutive, app_length. cbn [length]. f_equal. lia.
Qed.
Lemma set_nth_app {A} (pre : list A) x y post : set_nth (length pre) x (pre ++ y :: post) = pre ++ x :: post.
Proof. induction pre; cbn; congruence. Qed.
Lemma nth_app {A} (pre : list A) y post : nth_error (pre ++ y :: post) (length pre) = Some y.
Proof. rewrite nth_error_app2 by lia. now rewrite Nat.sub_diag. Qed.
Lemma set_nth_same {A} i (x y : A) l : nth_error l i = Some y -> nth_error (set_nth i x l) i = Some x.
Proof. revert i; induction l; intros [|i]; cbn; try discriminate; auto. Qed.
Lemma set_nth_other {A} i j (x : A) l : j <> i -> nth_error (set_nth i x l) j = nth_error l j.
Proof. revert i j; induction l; intros [|i] [|j]; cbn; auto; try congruence. Qed.
Lemma set_nth_len {A} i (x : A) l : length (set_nth i x l) = length l.
Proof. revert i; induction l; intros [|i]; cbn; auto. Qed.

(** Processors keep their kind. *)
Definition kind (p : proc) : bool * bool * nat * nat :=
  match p with Simple d => (true, d, 0, 0) | Batch d s c _ => (false, d, s, c) end.
Definition kinds (w : world) := map kind (procs w).

Section E.
Variable exporter : nat -> list (nat * list msg) -> list msg -> list msg * bool.

(** ** What every logging call keeps *)
Definition keeps (f : world -> result * world) : Prop :=
  forall w r w', f w = (r, w') ->
    kinds w' = kinds w /\ length (out w) <= length (out w') /\ attached w <= attached w' /\ (r = Returned -> attached w' = attached w).
Lemma keeps_ret : keeps (fun w => (Returned, w)).
Proof. intros w r w' H. injection H as <- <-. auto. Qed.
Lemma keeps_then f g : keeps f -> keeps g -> keeps (fun w => then_ (f w) g).
Proof.
  intros F G w r w' H. destruct (f w) as [[|] w1] eqn:E; cbn in H.
  - apply F in E as (A1&A2&A3&A4). apply G in H as (B1&B2&B3&B4).
    specialize (A4 eq_refl). repeat split; try congruence; try lia. intro R. specialize (B4 R). lia.
  - injection H as <- <-. apply F in E as (A1&A2&A3&A4). repeat split; auto; discriminate.
Qed.
Lemma keeps_turn {A} (f : A -> world -> result * world) l : (forall a, keeps (f a)) -> keeps (in_turn f l).
Proof. intro F. induction l; cbn; [apply keeps_ret|]. now apply (keeps_then (f a)). Qed.


Lemma keeps_export log i b : (forall m, keeps (log m)) -> keeps (export_with exporter log i b).
Proof.
  intros L w r w' H. unfold export_with in H. destruct (exporter i (out w) b) as [said raises].
  set (w0 := World _ (out w ++ _) _) in H.
  assert (B : kinds w0 = kinds w /\ length (out w0) = S (length (out w)) /\ attached w0 = S (attached w)).
  { unfold w0, kinds; cbn. rewrite app_length; cbn. repeat split; lia. }
  destruct B as (B1&B2&B3). clearbody w0.
  assert (D : forall w1, kinds w1 = kinds w -> length (out w) <= length (out w1) -> S (attached w) <= attached w1 ->
     then_ (log Failed w1) (fun w' => (Returned, World (procs w') (out w') (attached w))) = (r, w') ->
     kinds w' = kinds w /\ length (out w) <= length (out w') /\ attached w <= attached w' /\
     (r = Returned -> attached w' = attached w)).
  { intros w1 K1 K2 K3 E. destruct (log Failed w1) as [[|] w3] eqn:E3; cbn in E; injection E as <- <-;
      apply L in E3 as (A1&A2&A3&A4).
    - unfold kinds in *; cbn. repeat split; try congruence; try lia.
    - repeat split; try congruence; try lia. }
  destruct (in_turn log said w0) as [[|] w1] eqn:E; apply (keeps_turn log said L) in E as (A1&A2&A3&A4).
  - destruct raises; [apply (D w1); try congruence; lia|].
    injection H as <- <-. unfold kinds in *; cbn. repeat split; try congruence; try lia.
  - apply (D w1); try congruence; lia.
Qed.
Lemma kinds_set i p q ps : nth_error ps i = Some q -> kind p = kind q -> map kind (set_nth i p ps) = map kind ps.
Proof. revert i; induction ps; intros [|i] H K; cbn in *; try discriminate; [congruence|]. f_equal. eauto. Qed.
Lemma keeps_emit log m i : (forall m, keeps (log m)) -> keeps (emit_one exporter log m i).
Proof.
  intros L w r w' H. unfold emit_one in H. destruct (nth_error (procs w) i) as [[[|]|[|] s c q]|] eqn:E.
  - now apply L in H.
  - now apply keeps_export in H.
  - injection H as <- <-. auto.
  - injection H as <- <-. unfold kinds; cbn. rewrite (kinds_set _ _ _ _ E) by reflexivity. auto.
  - injection H as <- <-. auto.
Qed.
Lemma keeps_log d : forall m, keeps (log_call exporter d m).
Proof.
  induction d; intros m w r w' H; cbn in H.
  - injection H as <- <-. repeat split; auto; discriminate.
  - revert H. apply keeps_turn. intro i. now apply keeps_emit.
Qed.

(** ** Where it never ends *)
Lemma kinds_nth w w' i p : kinds w' = kinds w -> nth_error (procs w) i = Some p ->
  exists p', nth_error (procs w') i = Some p' /\ kind p' = kind p.
Proof.
  unfold kinds. intros K H. assert (N : nth_error (map kind (procs w')) i = Some (kind p)).
  { rewrite K. now apply map_nth_error. }
  destruct (nth_error (procs w') i) as [p'|] eqn:E.
  - exists p'. split; auto. erewrite map_nth_error in N by eauto. congruence.
  - apply nth_error_None in E. assert (nth_error (map kind (procs w')) i = None) by (apply nth_error_None; now rewrite map_length).
    congruence.
Qed.
Lemma turn_raises {A} (f : A -> world -> result * world) a l w :
  (forall x, keeps (f x)) -> In a l -> (forall w', kinds w' = kinds w -> fst (f a w') = RecursionError) ->
  fst (in_turn f l w) = RecursionError.
Proof.
  intros K H R. revert w R. induction l as [|x l IH]; intros w R; [destruct H|]. cbn.
  destruct (f x w) as [[|] w1] eqn:E; cbn; auto. destruct H as [->|H].
  - specialize (R w eq_refl). rewrite E in R. discriminate.
  - apply IH; auto. intros w' Hw. apply R. apply K in E. destruct E. congruence.
Qed.
Lemma down_raises d : forall m w i, nth_error (procs w) i = Some (Simple true) -> fst (log_call exporter d m w) = RecursionError.
Proof.
  induction d; intros m w i H; cbn; auto. apply (turn_raises _ i).
  - intro x. apply keeps_emit, keeps_log.
  - apply in_seq. assert (nth_error (procs w) i <> None) by congruence. apply nth_error_Some in H0. lia.
  - intros w' K. destruct (kinds_nth _ _ _ _ K H) as (p&E&Kp). destruct p as [[|]|]; try discriminate.
    unfold emit_one. rewrite E. eauto.
Qed.
Lemma export_raises log i b w : fst (exporter i (out w) b) = [] -> snd (exporter i (out w) b) = true ->
  (forall w', kinds w' = kinds w -> fst (log Failed w') = RecursionError) -> fst (export_with exporter log i b w) = RecursionError.
Proof.
  intros S R L. unfold export_with. destruct (exporter i (out w) b) as [said r]. cbn in S, R. subst. cbn.
  match goal with |- context [log Failed ?w1] => specialize (L w1 eq_refl); destruct (log Failed w1) as [[|] ?] end; try discriminate. auto.
Qed.
Lemma export_raises' log i b w : snd (exporter i (out w) b) = true -> (forall m, keeps (log m)) ->
  (forall w', kinds w' = kinds w -> fst (log Failed w') = RecursionError) -> fst (export_with exporter log i b w) = RecursionError.
Proof.
  intros R K L. unfold export_with. destruct (exporter i (out w) b) as [said r]. cbn in R. subst.
  destruct (in_turn log said _) as [[|] w1] eqn:E; apply (keeps_turn log said K) in E as (A&_); specialize (L w1 A);
    destruct (log Failed w1) as [[|] ?]; try discriminate; auto.
Qed.
Lemma fail_raises d : forall m w i, nth_error (procs w) i = Some (Simple false) -> (forall h b, snd (exporter i h b) = true) ->
  fst (log_call exporter d m w) = RecursionError.
Proof.
  induction d; intros m w i H R; cbn; auto. apply (turn_raises _ i).
  - intro x. apply keeps_emit, keeps_log.
  - apply in_seq. assert (N : nth_error (procs w) i <> None) by congruence. apply nth_error_Some in N. lia.
  - intros w' K. destruct (kinds_nth _ _ _ _ K H) as (p&E&Kp). destruct p as [[|]|]; try discriminate.
    unfold emit_one. rewrite E. apply export_raises'; auto using keeps_log.
    intros w'' K'. destruct (kinds_nth _ _ _ _ K' E) as (p'&E'&Kp'). destruct p' as [[|]|]; try discriminate. eauto.
Qed.
(** An exporter that always raises and logs nothing *)
Lemma fail_alone d : (forall h b, exporter 0 h b = ([], true)) -> forall m o a,
  log_call exporter (S d) m (World [Simple false] o a)
  = (RecursionError, World [Simple false] (o ++ (0, [m]) :: repeat (0, [Failed]) d) (a + S d)).
Proof.
  intro R. induction d; intros m o a.
  - cbn. unfold emit_one; cbn. unfold export_with; cbn. rewrite R; cbn. do 2 f_equal; lia.
  - change (log_call exporter (S (S d)) m (World [Simple false] o a))
      with (in_turn (emit_one exporter (log_call exporter (S d)) m) [0] (World [Simple false] o a)).
    cbn [in_turn]. unfold emit_one at 1. cbn [nth_error procs]. unfold export_with. cbn [out procs attached].
    rewrite R. cbn [in_turn]. specialize (IHd Failed (o ++ [(0, [m])]) (S a)).
    rewrite IHd. cbn [then_]. rewrite <- app_assoc. cbn. do 2 f_equal. lia.
Qed.

(** ** Exporters that stop failing *)
Lemma turn_ok {A} (f : A -> world -> result * world) l (P : world -> Prop) w :
  (forall a w, P w -> In a l -> exists w', f a w = (Returned, w') /\ P w') -> P w -> exists w', in_turn f l w = (Returned, w') /\ P w'.
Proof.
  intros F. revert w. induction l as [|a l IH]; intros w H; cbn; eauto.
  destruct (F a w H (or_introl eq_refl)) as (w1&E&P1). rewrite E. cbn. apply IH; auto. intros; apply F; auto. now right.
Qed.
Lemma recovers K d : forall m w,
  (forall i p, nth_error (procs w) i = Some p -> p <> Simple true) ->
  (forall i h b, In (true, false, 0, 0) (firstn 1 (skipn i (kinds w))) -> K <= length h -> exporter i h b = ([], false)) ->
  K < d + length (out w) -> 0 < d -> fst (log_call exporter d m w) = Returned.
Proof.
  induction d as [|d IH]; intros m w N Q L D; [lia|]. cbn.
  enough (E : exists w', in_turn (emit_one exporter (log_call exporter d) m) (seq 0 (length (procs w))) w = (Returned, w') /\
     (kinds w' = kinds w /\ length (out w) <= length (out w'))) by (destruct E as (w'&->&_); auto).
  apply turn_ok; auto. intros i w1 (K1&L1) _.
  enough (E : fst (emit_one exporter (log_call exporter d) m i w1) = Returned).
  { destruct (emit_one exporter (log_call exporter d) m i w1) as [r w2] eqn:E2. cbn in E. subst r.
    exists w2. split; auto. apply keeps_emit in E2; [|apply keeps_log]. destruct E2 as (A1&A2&_). split; [congruence|lia]. }
  unfold emit_one. destruct (nth_error (procs w1) i) as [[[|]|[|] s c q]|] eqn:E; auto.
  - exfalso. destruct (kinds_nth w1 w i _ (eq_sym K1) E) as (p&E'&Kp). destruct p as [[|]|]; try discriminate. now apply (N _ _ E').
  - unfold export_with.
    assert (Sim : In (true, false, 0, 0) (firstn 1 (skipn i (kinds w)))).
    { rewrite <- K1. unfold kinds. pose proof (map_nth_error kind _ _ E) as Hn. clear -Hn. cbn in Hn.
      revert i Hn. induction (map kind (procs w1)); intros [|i] Hn; cbn in *; try discriminate; auto.
      left. congruence. }
    destruct (Nat.le_gt_cases K (length (out w1))) as [Le|Gt].
    + rewrite Q by auto. reflexivity.
    + destruct (exporter i (out w1) [m]) as [said raises].
      set (w2 := World _ _ _).
      assert (R : forall m' w', kinds w' = kinds w -> S (length (out w1)) <= length (out w') ->
         fst (log_call exporter d m' w') = Returned).
      { intros m' w' K' L'. apply IH; try lia.
        - intros j p Hp ->. destruct (kinds_nth w' w j _ (eq_sym K') Hp) as (p'&E'&Kp). destruct p' as [[|]|]; try discriminate.
          now apply (N _ _ E').
        - intros j h b Hj Lh. apply Q; auto. now rewrite <- K'. }
      assert (I2 : kinds w2 = kinds w /\ S (length (out w1)) <= length (out w2)).
      { unfold w2, kinds; cbn. rewrite app_length; cbn. split; [exact K1|lia]. }
      destruct (turn_ok (log_call exporter d) said (fun w' => kinds w' = kinds w /\ S (length (out w1)) <= length (out w')) w2) as (w3&E3&K3&L3); auto.
      { intros m' w' (Ka&La) _. specialize (R m' w' Ka La). destruct (log_call exporter d m' w') as [r w''] eqn:El. cbn in R. subst r.
        exists w''. split; auto. apply keeps_log in El as (A1&A2&_). split; [congruence|lia]. }
      rewrite E3. destruct raises; auto. specialize (R Failed w3 K3 L3).
      destruct (log_call exporter d Failed w3) as [[|] ?]; try discriminate. auto.
Qed.

(** ** Calm processors *)
Definition after (m : msg) (w : world) : world := World (map (given m) (procs w)) (out w ++ at_once m 0 (procs w)) (attached w).
Lemma calm_turn log m post : forall pre o a, 
  (forall i down, nth_error (pre ++ post) i = Some (Simple down) -> down = false /\ forall h b, exporter i h b = ([], false)) ->
  in_turn (emit_one exporter log m) (seq (length pre) (length post)) (World (pre ++ post) o a)
  = (Returned, World (pre ++ map (given m) post) (o ++ at_once m (length pre) post) a).
Proof.
  induction post as [|p post IH]; intros pre o a C; cbn [length seq in_turn map at_once].
  - now rewrite !app_nil_r.
  - assert (S1 : length (pre ++ [given m p]) = S (length pre)) by (rewrite app_length; cbn; lia).
    assert (C' : forall i down, nth_error ((pre ++ [given m p]) ++ post) i = Some (Simple down) ->
              down = false /\ forall h b, exporter i h b = ([], false)).
    { intros i down H. apply (C i). rewrite <- app_assoc in H. cbn in H.
      destruct (Nat.eq_dec i (length pre)) as [->|Ne].
      - rewrite nth_app in *. destruct p as [|[|]]; cbn in H; try discriminate; congruence.
      - destruct (Nat.lt_ge_cases i (length pre)).
        + rewrite nth_error_app1 in * by lia. auto.
        + rewrite nth_error_app2 in * by lia. destruct (i - length pre) eqn:Ei; [lia|]. exact H. }
    unfold emit_one at 1. cbn [procs]. rewrite nth_app.
    destruct p as [dn|[|] s c q].
    + destruct (C (length pre) dn (nth_app _ _ _)) as (->&Q). unfold export_with. cbn [out procs attached]. rewrite Q. cbn [in_turn then_].
      specialize (IH (pre ++ [Simple false]) (o ++ [(length pre, [m])]) a C'). cbn [given] in S1. rewrite S1 in IH.
      rewrite <- !app_assoc in IH. exact IH.
    + cbn [then_]. specialize (IH (pre ++ [Batch true s c q]) o a C'). cbn [given] in S1. rewrite S1 in IH.
      rewrite <- !app_assoc in IH. exact IH.
    + cbn [then_ procs out attached]. rewrite set_nth_app, push_last.
      specialize (IH (pre ++ [Batch false s c (last_of c (q ++ [m]))]) o a C'). cbn [given] in S1. rewrite S1 in IH.
      rewrite <- !app_assoc in IH. exact IH.
Qed.
Lemma calm_call d m w : calm exporter w -> log_call exporter (S d) m w = (Returned, after m w).
Proof. intro C. destruct w as [ps o a]. exact (calm_turn (log_call exporter d) m ps [] o a C). Qed.
Lemma calm_kinds w w' : kinds w' = kinds w -> calm exporter w -> calm exporter w'.
Proof.
  intros K C i dn H. destruct (kinds_nth w' w i _ (eq_sym K) H) as (p&E&Kp). destruct p as [dn'|]; try discriminate.
  assert (dn' = dn) by (cbn in Kp; congruence). subst. now apply C.
Qed.
Lemma kinds_after m w : kinds (after m w) = kinds w.
Proof. unfold kinds, after; cbn. rewrite map_map. apply map_ext. intros [|[|]]; reflexivity. Qed.
Lemma at_once_other m i : forall ps k, (forall j dn, nth_error ps j = Some (Simple dn) -> k + j <> i) -> exports_of i (at_once m k ps) = [].
Proof.
  unfold exports_of. induction ps as [|[dn|] ps IH]; intros k H; cbn; auto.
  - destruct (Nat.eqb_spec k i) as [->|].
    + exfalso. apply (H 0 dn eq_refl). lia.
    + apply IH. intros j dn' Hj. specialize (H (S j) dn' Hj). lia.
  - apply IH. intros j dn' Hj. specialize (H (S j) dn' Hj). lia.
Qed.
Lemma exports_app i a b : exports_of i (a ++ b) = exports_of i a ++ exports_of i b.
Proof. unfold exports_of. now rewrite filter_app, map_app. Qed.

(** The queue after several records *)
Definition pushed (dn : bool) (cap : nat) (q ms : list msg) : list msg :=
  if dn then q else fold_left (fun q m => last_of cap (q ++ [m])) ms q.
Lemma calm_turns d i : forall ms w dn s c q, calm exporter w -> nth_error (procs w) i = Some (Batch dn s c q) ->
  exists w' new, in_turn (log_call exporter (S d)) ms w = (Returned, w') /\ calm exporter w' /\
    nth_error (procs w') i = Some (Batch dn s c (pushed dn c q ms)) /\ out w' = out w ++ new /\ exports_of i new = [].
Proof.
  induction ms as [|m ms IH]; intros w dn s c q C H; cbn [in_turn].
  - exists w, []. rewrite app_nil_r. split; [auto|split; [auto|split; [destruct dn; auto|auto]]].
  - rewrite calm_call by auto. cbn [then_].
    destruct (IH (after m w) dn s c (if dn then q else last_of c (q ++ [m]))) as (w'&new&E&C'&N&O&X).
    { now apply (calm_kinds w); [apply kinds_after|]. }
    { cbn. rewrite (map_nth_error (given m) _ _ H). destruct dn; auto. }
    exists w', (at_once m 0 (procs w) ++ new). split; [auto|split; [auto|split; [|split]]].
    + rewrite N. destruct dn; auto.
    + rewrite O. cbn. now rewrite app_assoc.
    + rewrite exports_app, X, app_nil_r. apply at_once_other. intros j dn' Hj Ej. cbn in Ej. subst. congruence.
Qed.
Lemma calm_batch d i w dn s c q said r : calm exporter w -> nth_error (procs w) i = Some (Batch dn s c q) ->
  exporter i (out w) (firstn s q) = (said, r) ->
  exists w' new, export_batch exporter (S d) i w = (length (firstn s q), (Returned, w')) /\ calm exporter w' /\
    nth_error (procs w') i = Some (Batch dn s c (pushed dn c (skipn s q) (said ++ if r then [Failed] else []))) /\
    out w' = out w ++ new /\ exports_of i new = [firstn s q] /\ attached w' = attached w.
Proof.
  intros C H X. unfold export_batch. rewrite H. unfold export_with. cbn [out procs attached]. rewrite X.
  set (w1 := World _ (out w ++ _) _).
  assert (N1 : nth_error (procs w1) i = Some (Batch dn s c (skipn s q))) by (apply (set_nth_same _ _ _ _ H)).
  assert (C1 : calm exporter w1).
  { apply (calm_kinds w); auto. unfold kinds; cbn. now apply (kinds_set _ _ _ _ H). }
  destruct (calm_turns d i (said ++ if r then [Failed] else []) w1 dn s c _ C1 N1) as (w2&new&E&C2&N2&O2&X2).
  assert (Fin : forall w3, w3 = World (procs w2) (out w2) (attached w) ->
    exists w' new, (length (firstn s q), (Returned, w3)) = (length (firstn s q), (Returned, w')) /\ calm exporter w' /\
    nth_error (procs w') i = Some (Batch dn s c (pushed dn c (skipn s q) (said ++ if r then [Failed] else []))) /\
    out w' = out w ++ new /\ exports_of i new = [firstn s q] /\ attached w' = attached w).
  { intros w3 ->. exists (World (procs w2) (out w2) (attached w)), ((i, firstn s q) :: new). split; [auto|split; [exact C2|split; [exact N2|split; [|split; [|auto]]]]].
    - cbn. rewrite O2. cbn. now rewrite <- app_assoc.
    - change ((i, firstn s q) :: new) with ([(i, firstn s q)] ++ new). rewrite exports_app, X2. unfold exports_of; cbn.
      now rewrite Nat.eqb_refl. }
  assert (App : forall (l1 l2 : list msg) (f : msg -> world -> result * world) v, in_turn f (l1 ++ l2) v = then_ (in_turn f l1 v) (in_turn f l2)).
  { clear. induction l1; intros; cbn; auto. destruct (f a v) as [[|] v1]; cbn; auto. }
  rewrite App in E. destruct (in_turn (log_call exporter (S d)) said w1) as [[|] w1'] eqn:E1; cbn [then_] in E; try discriminate.
  destruct r.
  - cbn [in_turn] in E. destruct (log_call exporter (S d) Failed w1') as [[|] w1''] eqn:E1'; cbn [then_] in E; try discriminate.
    injection E as ->. cbn [then_]. now apply Fin.
  - cbn [in_turn] in E. injection E as ->. now apply Fin.
Qed.

Lemma calm_nonempty i w dn s c q : nth_error (procs w) i = Some (Batch dn s c q) -> queue i w = q.
Proof. intro H. unfold queue. now rewrite H. Qed.
(** ** The loops *)
Lemma flush_ends d i num : forall w dn s c q, 0 < s -> 0 < num -> calm exporter w -> nth_error (procs w) i = Some (Batch dn s c q) ->
  exists n w', flushes exporter (S d) i num w n Returned w' /\ n <= num /\ attached w' = attached w.
Proof.
  induction num as [num IH] using (well_founded_induction lt_wf). intros w dn s c q S0 P C H.
  destruct q as [|m q].
  - exists 0, w. split; [|split; [lia|auto]]. apply fl_empty. now rewrite (calm_nonempty _ _ _ _ _ _ H).
  - destruct (exporter i (out w) (firstn s (m :: q))) as [said r] eqn:X.
    destruct (calm_batch d i w dn s c (m :: q) said r C H X) as (w1&new&E&C1&N1&_&_&A1).
    assert (NE : queue i w <> []) by (rewrite (calm_nonempty _ _ _ _ _ _ H); discriminate).
    destruct (Nat.le_gt_cases num (length (firstn s (m :: q)))) as [Le|Gt].
    + exists 1, w1. split; [|split; [lia|auto]]. eapply fl_last; eauto.
    + assert (K : 0 < length (firstn s (m :: q))) by (destruct s; cbn; lia).
      destruct (IH (num - length (firstn s (m :: q))) ltac:(lia) w1 dn s c _ S0 ltac:(lia) C1 N1) as (n&w'&F&Ln&A).
      exists (S n), w'. split; [|split; [lia|congruence]]. eapply fl_more; eauto.
Qed.
Lemma drain_ends d i : forall n w s c q, length q <= n -> 0 < s -> calm exporter w -> nth_error (procs w) i = Some (Batch true s c q) ->
  exists k w' new, drains exporter (S d) i w k Returned w' /\ k <= length q /\ queue i w' = [] /\ out w' = out w ++ new /\
    concat (exports_of i new) = q /\ attached w' = attached w.
Proof.
  induction n as [|n IH]; intros w s c q L S0 C H.
  - destruct q; cbn in L; [|lia]. exists 0, w, []. rewrite app_nil_r. pose proof (calm_nonempty _ _ _ _ _ _ H).
    split; [now constructor|]. repeat split; auto.
  - destruct q as [|m q].
    { exists 0, w, []. rewrite app_nil_r. pose proof (calm_nonempty _ _ _ _ _ _ H). split; [now constructor|]. repeat split; auto. }
    destruct (exporter i (out w) (firstn s (m :: q))) as [said r] eqn:X.
    destruct (calm_batch d i w true s c (m :: q) said r C H X) as (w1&new&E&C1&N1&O1&X1&A1).
    cbn [pushed] in N1.
    assert (NE : queue i w <> []) by (rewrite (calm_nonempty _ _ _ _ _ _ H); discriminate).
    assert (Ls : S (length (skipn s (m :: q))) <= length (m :: q)) by (rewrite skipn_length; cbn [length]; lia).
    destruct (IH w1 s c (skipn s (m :: q)) ltac:(lia) S0 C1 N1) as (k&w'&new'&F&Lk&Q'&O'&X'&A').
    exists (S k), w', (new ++ new'). split; [eapply dr_more; eauto|]. split; [lia|]. split; [auto|].
    split; [now rewrite O', O1, app_assoc|]. split; [|congruence].
    rewrite exports_app, concat_app, X1, X'. cbn [concat]. rewrite app_nil_r. apply firstn_skipn.
Qed.
Lemma last_of_all c l : length l <= c -> last_of c l = l.
Proof. intro H. unfold last_of. rewrite firstn_all2 by (rewrite rev_length; lia). apply rev_involutive. Qed.
Lemma pushed_room dn c ms : forall q, length q + length ms <= c -> pushed dn c q ms = if dn then q else q ++ ms.
Proof.
  destruct dn; cbn; auto. induction ms as [|m ms IH]; intros q L; cbn [fold_left].
  - now rewrite app_nil_r.
  - cbn [length] in L. rewrite last_of_all by (rewrite app_length; cbn; lia).
    rewrite IH by (rewrite app_length; cbn; lia). now rewrite <- app_assoc.
Qed.
Lemma flush_all d i num : terse exporter i -> forall w dn s c q, 0 < s -> 0 < num -> num <= length q <= c -> calm exporter w ->
  nth_error (procs w) i = Some (Batch dn s c q) ->
  exists n w' new k, flushes exporter (S d) i num w n Returned w' /\ out w' = out w ++ new /\
    num <= length k /\ concat (exports_of i new) = k /\ firstn num k = firstn num q.
Proof.
  intro T. induction num as [num IH] using (well_founded_induction lt_wf). intros w dn s c q S0 P L C H.
  destruct (exporter i (out w) (firstn s q)) as [said r] eqn:X.
  destruct (calm_batch d i w dn s c q said r C H X) as (w1&new&E&C1&N1&O1&X1&A1).
  assert (NE : queue i w <> []) by (rewrite (calm_nonempty _ _ _ _ _ _ H); destruct q; cbn in *; [lia|discriminate]).
  assert (K : 0 < length (firstn s q)) by (rewrite firstn_length; lia).
  assert (Tq := T (out w) (firstn s q)). rewrite X in Tq. specialize (Tq ltac:(destruct (firstn s q); [cbn in K; lia|discriminate])). cbn [fst snd] in Tq.
  assert (Lm : length (said ++ if r then [Failed] else []) <= length (firstn s q)) by (rewrite app_length; destruct r; cbn in *; lia).
  assert (Le : length (firstn s q) + length (skipn s q) = length q) by (rewrite <- app_length; now rewrite firstn_skipn).
  rewrite pushed_room in N1 by lia.
  destruct (Nat.le_gt_cases num (length (firstn s q))) as [Hle|Gt].
  - exists 1, w1, new, (firstn s q). split; [eapply fl_last; eauto|]. split; auto. split; auto.
    rewrite X1. cbn. rewrite app_nil_r. split; auto. rewrite firstn_firstn. f_equal. rewrite firstn_length in Hle. lia.
  - set (b := firstn s q) in *. set (q1 := if dn then skipn s q else _) in N1.
    assert (Q1 : exists e, q1 = skipn s q ++ e /\ length e <= length b).
    { unfold q1. destruct dn; [exists []; split; [now rewrite app_nil_r|cbn; lia]|eauto]. }
    destruct Q1 as (e&Eq&Lee).
    assert (L1 : num - length b <= length q1 <= c) by (rewrite Eq, app_length; lia).
    destruct (IH (num - length b) ltac:(lia) w1 dn s c q1 S0 ltac:(lia) L1 C1 N1) as (n&w'&new'&k&F&O'&Lk&Ck&Fk).
    exists (S n), w', (new ++ new'), (b ++ k). split; [eapply fl_more; eauto|]. split; [now rewrite O', O1, app_assoc|].
    split; [rewrite app_length; lia|]. split.
    + rewrite exports_app, concat_app, X1, Ck. cbn. now rewrite app_nil_r.
    + rewrite <- (firstn_skipn s q) at 1. fold b. rewrite !firstn_app. f_equal. rewrite Fk, Eq, firstn_app.
      replace (num - length b - length (skipn s q)) with 0 by lia. cbn. now rewrite app_nil_r.
Qed.
(** ** The worker left alone *)
Lemma quiet_turns d i : (forall h b, exporter i h b = ([], false)) -> forall n w dn s c q, 0 < s -> length q <= n -> calm exporter w ->
  nth_error (procs w) i = Some (Batch dn s c q) ->
  exists w' new, turns exporter n (S d) i w = (Returned, w') /\ queue i w' = [] /\ out w' = out w ++ new /\ concat (exports_of i new) = q
    /\ attached w' = attached w.
Proof.
  intro Q. induction n as [|n IH]; intros w dn s c q S0 L C H.
  - destruct q; cbn in L; [|lia]. exists w, []. rewrite app_nil_r. pose proof (calm_nonempty _ _ _ _ _ _ H). repeat split; auto.
  - cbn [turns]. unfold turn. rewrite (calm_nonempty _ _ _ _ _ _ H). destruct q as [|m q].
    + cbn [then_]. apply (IH w dn s c []); auto. cbn; lia.
    + destruct (calm_batch d i w dn s c (m :: q) [] false C H (Q _ _)) as (w1&new&E&C1&N1&O1&X1&A1).
      rewrite E. cbn [snd then_]. cbn [app pushed fold_left] in N1.
      assert (N1' : nth_error (procs w1) i = Some (Batch dn s c (skipn s (m :: q)))) by (destruct dn; exact N1).
      destruct (IH w1 dn s c (skipn s (m :: q)) S0) as (w'&new'&E'&Q'&O'&X'&A'); auto.
      { rewrite skipn_length. cbn [length] in *. lia. }
      exists w', (new ++ new'). split; auto. split; auto. split; [now rewrite O', O1, app_assoc|]. split; [|congruence].
      rewrite exports_app, concat_app, X1, X'. cbn [concat]. rewrite app_nil_r. apply firstn_skipn.
Qed.
Lemma last_of_ne c q (m : msg) : 0 < c -> last_of c (q ++ [m]) <> [].
Proof. intros H E. unfold last_of in E. rewrite rev_app_distr in E. cbn in E. destruct c; [lia|]. cbn in E. destruct (rev (firstn c (rev q))); discriminate. Qed.
Lemma pushed_ne c : forall ms q, 0 < c -> ms <> [] -> pushed false c q ms <> [].
Proof.
  cbn. intros ms q H N. destruct (exists_last N) as (ms'&m&->). rewrite fold_left_app. cbn. now apply last_of_ne.
Qed.
Lemma feeding d i : (forall h b, snd (exporter i h b) = true \/ fst (exporter i h b) <> []) -> forall n w s c q, 0 < s -> 0 < c ->
  calm exporter w -> nth_error (procs w) i = Some (Batch false s c q) -> q <> [] ->
  exists w' new, turns exporter n (S d) i w = (Returned, w') /\ queue i w' <> [] /\ out w' = out w ++ new /\ length (exports_of i new) = n.
Proof.
  intro R. induction n as [|n IH]; intros w s c q S0 C0 C H N.
  - exists w, []. rewrite app_nil_r. pose proof (calm_nonempty _ _ _ _ _ _ H). repeat split; auto. congruence.
  - cbn [turns]. unfold turn. rewrite (calm_nonempty _ _ _ _ _ _ H). destruct q as [|m q]; [congruence|].
    destruct (exporter i (out w) (firstn s (m :: q))) as [said r] eqn:X.
    destruct (calm_batch d i w false s c (m :: q) said r C H X) as (w1&new&E&C1&N1&O1&X1&A1).
    rewrite E. cbn [snd then_].
    destruct (IH w1 s c _ S0 C0 C1 N1) as (w'&new'&E'&Q'&O'&X').
    { apply pushed_ne; auto. specialize (R (out w) (firstn s (m :: q))). rewrite X in R. cbn in R.
      destruct R as [->|Ns]; [destruct said; discriminate|destruct said; [congruence|discriminate]]. }
    exists w', (new ++ new'). split; auto. split; auto. split; [now rewrite O', O1, app_assoc|].
    rewrite exports_app, app_length, X1, X'. reflexivity.
Qed.
End E.
