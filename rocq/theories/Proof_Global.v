(** Proofs about the global provider. *)
From Verif Require Export Spec_Global.
From Coq Require Import Lia.
Local Open Scope nat_scope.

Lemma goto_eq t c f : goto t c f t = c. Proof. unfold goto. now rewrite Nat.eqb_refl. Qed.
Lemma goto_ne t c f u : u <> t -> goto t c f u = f u. Proof. intros H. unfold goto. destruct (Nat.eqb_spec u t); [contradiction|reflexivity]. Qed.

Definition holds (c : gpc) : bool := match c with SCheck _ _ | SAssign _ _ | SHook _ _ | SMark _ _ => true | _ => false end.
Definition set_part (c : gpc) : option (nat * bool) :=
  match c with SFast p u | SWait p u | SCheck p u | SAssign p u | SHook p u | SMark p u => Some (p, u) | _ => None end.
Definition late (c : gpc) : option nat := match c with SHook p _ | SMark p _ => Some p | _ => None end.

Section Proofs.
Variable raises : nat -> bool.
Notation step := (gstep raises).

(** ** Locks: for any hook *)
Definition locks (w : gworld) : Prop := forall t, holds (g_pc w t) = true <-> g_lock w = Some t.
Lemma locks_goto w t c d g l : locks w -> holds c = holds (g_pc w t) -> locks (GW d (g_lock w) g (goto t c (g_pc w)) l).
Proof.
  intros L H u. cbn [g_pc g_lock]. destruct (Nat.eq_dec u t) as [->|N]; [rewrite goto_eq, H; apply L|rewrite goto_ne by exact N; apply L].
Qed.
Lemma locks_free w t c d g l : locks w -> holds (g_pc w t) = true -> holds c = false -> locks (GW d None g (goto t c (g_pc w)) l).
Proof.
  intros L Ht Hc u. cbn [g_pc g_lock]. apply L in Ht. destruct (Nat.eq_dec u t) as [->|N]; [rewrite goto_eq, Hc; split; discriminate|].
  rewrite goto_ne by exact N. split; [|discriminate]. intros Hu. apply L in Hu. congruence.
Qed.
Lemma locks_take w t c d g l : locks w -> g_lock w = None -> holds c = true -> locks (GW d (Some t) g (goto t c (g_pc w)) l).
Proof.
  intros L Ht Hc u. cbn [g_pc g_lock]. destruct (Nat.eq_dec u t) as [->|N]; [rewrite goto_eq, Hc; split; reflexivity|].
  rewrite goto_ne by exact N. split; [intros Hu; apply L in Hu; congruence|congruence].
Qed.
Lemma locks_step w e : locks w -> locks (step w e).
Proof.
  intros L. destruct e as [t c|t pr ld]; cbn [gstep].
  - destruct (g_pc w t) eqn:E; try exact L. apply locks_goto; [exact L|]. rewrite E. destruct c; reflexivity.
  - destruct (g_pc w t) eqn:E; unfold after_once; cbn [g_done g_lock g_glob g_pc g_log]; try exact L;
      repeat match goal with
      | |- context [match g_done w with _ => _ end] => destruct (g_done w)
      | |- context [match g_lock w with _ => _ end] => destruct (g_lock w) eqn:?
      | |- context [match g_glob w with _ => _ end] => destruct (g_glob w)
      | |- context [if ?b then _ else _] => destruct b
      | |- context [match ld with _ => _ end] => destruct ld
      end; try exact L;
      first [apply locks_goto; [exact L|rewrite E; reflexivity]
            |apply locks_free; [exact L|rewrite E; reflexivity|reflexivity]
            |apply locks_take; [exact L|assumption|reflexivity]
            |match goal with Q : g_lock w = _ |- _ => rewrite <- Q end; apply locks_goto; [exact L|rewrite E; reflexivity]].
Qed.
Lemma grun_snoc h e w : grun raises (h ++ [e]) w = step (grun raises h w) e.
Proof. unfold grun. rewrite fold_left_app. reflexivity. Qed.
Lemma locks_run h : locks (grun raises h g_init).
Proof. induction h as [|e h IH] using rev_ind; [intros t; split; discriminate|]. rewrite grun_snoc. apply locks_step, IH. Qed.

Theorem progress h t : let w := grun raises h g_init in busy w t ->
  exists u, busy w u /\ forall pr ld, steps_left (g_pc (step w (EStep u pr ld)) u) < steps_left (g_pc w u).
Proof.
  intros w B. pose proof (locks_run h : locks w) as L. unfold busy in *.
  assert (G : forall u, g_pc w u <> GIdle -> (forall p x, g_pc w u <> SWait p x) \/ g_lock w = None ->
    forall pr ld, steps_left (g_pc (step w (EStep u pr ld)) u) < steps_left (g_pc w u)).
  { intros u Bu H pr ld. cbn [gstep]. destruct (g_pc w u) as [|p x|p x|p x|p x|p x|p x| | | |] eqn:E; try congruence; unfold after_once; cbn [g_done g_lock g_glob g_pc g_log];
      repeat match goal with
      | |- context [match g_done w with _ => _ end] => destruct (g_done w)
      | |- context [match g_glob w with _ => _ end] => destruct (g_glob w)
      | |- context [match g_lock w with _ => _ end] => destruct (g_lock w)
      | |- context [if ?b then _ else _] => destruct b
      | |- context [match ld with _ => _ end] => destruct ld
      end; cbn [g_pc]; rewrite ?goto_eq; cbn [steps_left]; try lia.
    destruct H as [H|H]; [exfalso; apply (H p x); reflexivity|discriminate]. }
  destruct (g_lock w) as [u|] eqn:E.
  - pose proof (proj2 (L u) E) as Hu. exists u. split; [destruct (g_pc w u); discriminate|]. apply G; [destruct (g_pc w u); discriminate|].
    left. intros p x Q. rewrite Q in Hu. discriminate.
  - exists t. split; [exact B|]. apply G; auto.
Qed.

(** ** Without a hook that raises *)
Hypothesis never : forall p, raises p = false.
Record inv (w : gworld) : Prop := {
  i_locks : locks w;
  i_done : g_done w = true -> g_glob w <> None;
  i_late : forall t p, late (g_pc w t) = Some p -> g_glob w = Some p /\ g_done w = false;
  i_assign : forall t p u, g_pc w t = SAssign p u -> g_glob w = None /\ g_done w = false;
  i_between : g_done w = false -> g_glob w <> None -> exists t p, late (g_pc w t) = Some p;
  i_last : forall t, g_pc w t = GLast -> g_glob w <> None;
  i_offer : forall p, g_glob w = Some p -> offered p (g_log w);
  i_part : forall t p u, set_part (g_pc w t) = Some (p, u) -> offered p (g_log w);
  i_log : forall r, In r (g_log w) -> match r with
            | RProvider _ q => g_glob w = Some q
            | RSet _ p did => g_glob w <> None /\ (did = true -> g_glob w = Some p /\ g_done w = true)
            | RNone _ => False
            | _ => True
            end;
  i_once : length (filter (fun r => match r with RSet _ _ did => did | _ => false end) (g_log w)) <= 1
}.

Lemma offered_app p l l' : offered p l -> offered p (l ++ l').
Proof. intros [t [H|H]]; exists t; [left|right]; apply in_or_app; left; exact H. Qed.

(** A step that only moves thread t and logs. *)
Lemma inv_move w t c l :
  inv w -> holds c = holds (g_pc w t) -> late c = None -> late (g_pc w t) = None -> (forall p u, c = SAssign p u -> g_glob w = None /\ g_done w = false) ->
  (c = GLast -> g_glob w <> None) -> (forall p u, set_part c = Some (p, u) -> offered p (g_log w ++ l)) ->
  (forall r, In r l -> match r with
            | RProvider _ q => g_glob w = Some q
            | RSet _ p did => g_glob w <> None /\ did = false
            | RNone _ => False
            | _ => True
            end) ->
  inv (GW (g_done w) (g_lock w) (g_glob w) (goto t c (g_pc w)) (g_log w ++ l)).
Proof.
  intros I Hh Hl Hl' Ha Hg Hp Hr. constructor; cbn [g_done g_lock g_glob g_pc g_log].
  - apply locks_goto; [apply I|exact Hh].
  - apply I.
  - intros u p. destruct (Nat.eq_dec u t) as [->|N]; [rewrite goto_eq; congruence|rewrite goto_ne by exact N; apply I].
  - intros u p x. destruct (Nat.eq_dec u t) as [->|N]; [rewrite goto_eq; apply Ha|rewrite goto_ne by exact N; apply I].
  - intros D G. destruct (i_between _ I D G) as (u & p & L). exists u, p. rewrite goto_ne; [exact L|]. intros ->. congruence.
  - intros u. destruct (Nat.eq_dec u t) as [->|N]; [rewrite goto_eq; apply Hg|rewrite goto_ne by exact N; apply I].
  - intros p H. apply offered_app, I, H.
  - intros u p x. destruct (Nat.eq_dec u t) as [->|N]; [rewrite goto_eq; apply Hp|rewrite goto_ne by exact N]. intros H. eapply offered_app, (i_part _ I), H.
  - intros r H. apply in_app_or in H. destruct H as [H|H]; [apply (i_log _ I r H)|]. specialize (Hr r H). destruct r; auto. destruct Hr as [R ->]. split; [exact R|discriminate].
  - rewrite filter_app, app_length. replace (filter _ l) with (@nil gres); [cbn; rewrite Nat.add_0_r; apply I|].
    symmetry. clear -Hr. induction l as [|r l IH]; [reflexivity|]. cbn. rewrite IH by (intros; apply Hr; right; assumption).
    specialize (Hr r (or_introl eq_refl)). destruct r; try reflexivity. destruct Hr as [_ ->]. reflexivity.
Qed.
Lemma inv_move0 w t c :
  inv w -> holds c = holds (g_pc w t) -> late c = None -> late (g_pc w t) = None -> (forall p u, c = SAssign p u -> g_glob w = None /\ g_done w = false) ->
  (c = GLast -> g_glob w <> None) -> (forall p u, set_part c = Some (p, u) -> offered p (g_log w)) ->
  inv (GW (g_done w) (g_lock w) (g_glob w) (goto t c (g_pc w)) (g_log w)).
Proof. intros. rewrite <- (app_nil_r (g_log w)). apply inv_move; auto; rewrite ?app_nil_r; auto. intros r []. Qed.

Lemma inv_lock w t c o : locks (GW (g_done w) o (g_glob w) (goto t c (g_pc w)) (g_log w)) ->
  inv w -> late c = None -> late (g_pc w t) = None -> (forall p u, c <> SAssign p u) ->
  (c = GLast -> g_glob w <> None) -> (forall p u, set_part c = Some (p, u) -> offered p (g_log w)) ->
  inv (GW (g_done w) o (g_glob w) (goto t c (g_pc w)) (g_log w)).
Proof.
  intros L I Hl Hl' Ha Hg Hp. constructor; cbn [g_done g_lock g_glob g_pc g_log]; try apply I; [exact L| | | | | ].
  - intros u p. destruct (Nat.eq_dec u t) as [->|N]; [rewrite goto_eq; congruence|rewrite goto_ne by exact N; apply I].
  - intros u p x. destruct (Nat.eq_dec u t) as [->|N]; [rewrite goto_eq; intros H; exfalso; eapply Ha, H|rewrite goto_ne by exact N; apply I].
  - intros D G. destruct (i_between _ I D G) as (u & p & L'). exists u, p. rewrite goto_ne; [exact L'|]. intros ->. congruence.
  - intros u. destruct (Nat.eq_dec u t) as [->|N]; [rewrite goto_eq; apply Hg|rewrite goto_ne by exact N; apply I].
  - intros u p x. destruct (Nat.eq_dec u t) as [->|N]; [rewrite goto_eq; apply Hp|rewrite goto_ne by exact N; apply (i_part _ I)].
Qed.
Lemma goto_goto t c d f u : goto t c (goto t d f) u = goto t c f u.
Proof. unfold goto. destruct (Nat.eqb u t); reflexivity. Qed.

Lemma inv_after w t p u : inv w -> late (g_pc w t) = None -> holds (g_pc w t) = false -> g_glob w <> None -> inv (after_once t p u false w).
Proof.
  intros I L H G. unfold after_once. destruct u.
  - apply inv_move; try easy. intros r [<-|[]]. split; [exact G|reflexivity].
  - apply inv_move0; try easy.
Qed.
Lemma inv_after_free w t p u : inv w -> late (g_pc w t) = None -> holds (g_pc w t) = true -> g_glob w <> None ->
  inv (after_once t p u false (GW (g_done w) None (g_glob w) (g_pc w) (g_log w))).
Proof.
  intros I L H G. unfold after_once. cbn [g_done g_lock g_glob g_pc g_log].
  assert (J : forall c, (c = GIdle \/ c = GLast) -> inv (GW (g_done w) None (g_glob w) (goto t c (g_pc w)) (g_log w))).
  { intros c Hc. apply inv_lock; try easy; [apply locks_free; [apply I|exact H|]| | |]; destruct Hc as [-> | ->]; try easy. }
  destruct u; [|apply J; right; reflexivity].
  specialize (J GIdle (or_introl eq_refl)). destruct J as [j1 j2 j3 j4 j5 j6 j7 j8 j9 j10]. cbn [g_done g_lock g_glob g_pc g_log] in *.
  constructor; cbn [g_done g_lock g_glob g_pc g_log]; try assumption.
  - intros q Q. apply offered_app, j7, Q.
  - intros v q x Q. eapply offered_app, j8, Q.
  - intros r Q. apply in_app_or in Q. destruct Q as [Q|[<-|[]]]; [apply (j9 r Q)|]. split; [exact G|discriminate].
  - rewrite filter_app, app_length. cbn. lia.
Qed.

Lemma inv_step w e : inv w -> inv (step w e).
Proof.
  intros I. destruct e as [t c|t pr ld]; cbn [gstep].
  - destruct (g_pc w t) eqn:E; try exact I. apply inv_move; rewrite ?E; try (destruct c; easy).
    + intros p u H. destruct c; [|discriminate]. injection H as -> _. exists t. left. apply in_or_app. right. left. reflexivity.
    + intros r [<-|[]]. exact Logic.I.
  - destruct (g_pc w t) as [|p u|p u|p u|p u|p u|p u| | | |] eqn:E; try exact I.
    + destruct (g_done w) eqn:D; [apply inv_after; rewrite ?E; try easy; apply (i_done _ I D)|].
      rewrite <- D. apply inv_move0; rewrite ?E; try easy. intros q v Q. apply (i_part _ I t q v). rewrite E. exact Q.
    + destruct (g_lock w) eqn:Q; [exact I|]. apply inv_lock; rewrite ?E; try easy.
      * apply locks_take; [apply I|exact Q|reflexivity].
      * intros q v V. apply (i_part _ I t q v). rewrite E. exact V.
    + destruct (g_done w) eqn:D; [rewrite <- D; apply inv_after_free; rewrite ?E; try easy; apply (i_done _ I D)|].
      rewrite <- D. apply inv_move0; rewrite ?E; try easy.
      * intros _ _ _. split; [|exact D]. destruct (g_glob w) eqn:G; [|reflexivity]. exfalso.
        destruct (i_between _ I D) as (v & q & V); [congruence|].
        assert (Hv : g_lock w = Some v) by (apply (i_locks _ I); destruct (g_pc w v); try discriminate V; reflexivity).
        assert (Ht : g_lock w = Some t) by (apply (i_locks _ I); rewrite E; reflexivity).
        assert (v = t) by congruence. subst v. rewrite E in V. discriminate.
      * intros q v Q. apply (i_part _ I t q v). rewrite E. exact Q.
    + destruct (i_assign _ I t p u E) as [G D].
      assert (NL : forall v q, late (g_pc w v) <> Some q) by (intros v q V; apply (i_late _ I) in V; destruct V; congruence).
      constructor; cbn [g_done g_lock g_glob g_pc g_log].
      * apply locks_goto; [apply I|rewrite E; reflexivity].
      * discriminate.
      * intros v q. destruct (Nat.eq_dec v t) as [->|N]; [rewrite goto_eq; intros [= ->]; split; [reflexivity|exact D]|rewrite goto_ne by exact N; intros V; destruct (NL v q V)].
      * intros v q x. destruct (Nat.eq_dec v t) as [->|N]; [rewrite goto_eq; discriminate|rewrite goto_ne by exact N]. intros V. exfalso.
        assert (Hv : g_lock w = Some v) by (apply (i_locks _ I); rewrite V; reflexivity).
        assert (Ht : g_lock w = Some t) by (apply (i_locks _ I); rewrite E; reflexivity). congruence.
      * intros _ _. exists t, p. rewrite goto_eq. reflexivity.
      * discriminate.
      * intros q [= ->]. apply (i_part _ I t q u). rewrite E. reflexivity.
      * intros v q x. destruct (Nat.eq_dec v t) as [->|N]; [rewrite goto_eq; intros [= -> ->]; apply (i_part _ I t q x); rewrite E; reflexivity|].
        rewrite goto_ne by exact N. apply I.
      * intros r H. pose proof (i_log _ I r H) as R. destruct r; auto; [|congruence]. destruct R as [R _]. congruence.
      * apply I.
    + rewrite never. destruct (i_late _ I t p) as [G D]; [rewrite E; reflexivity|].
      constructor; cbn [g_done g_lock g_glob g_pc g_log]; try apply I.
      * apply locks_goto; [apply I|rewrite E; reflexivity].
      * intros v q. destruct (Nat.eq_dec v t) as [->|N]; [rewrite goto_eq; intros [= ->]; split; [exact G|exact D]|rewrite goto_ne by exact N; apply I].
      * intros v q x. destruct (Nat.eq_dec v t) as [->|N]; [rewrite goto_eq; discriminate|rewrite goto_ne by exact N; apply I].
      * intros _ _. exists t, p. rewrite goto_eq. reflexivity.
      * intros v. destruct (Nat.eq_dec v t) as [->|N]; [rewrite goto_eq; discriminate|rewrite goto_ne by exact N; apply I].
      * intros v q x. destruct (Nat.eq_dec v t) as [->|N]; [rewrite goto_eq; intros [= -> ->]; apply (i_part _ I t q x); rewrite E; reflexivity|].
        rewrite goto_ne by exact N. apply I.
    + destruct (i_late _ I t p) as [G D]; [rewrite E; reflexivity|].
      assert (Ht : g_lock w = Some t) by (apply (i_locks _ I); rewrite E; reflexivity).
      assert (NL : forall v q, v <> t -> late (g_pc w v) <> Some q).
      { intros v q N V. assert (Hv : g_lock w = Some v) by (apply (i_locks _ I); destruct (g_pc w v); try discriminate V; reflexivity). congruence. }
      assert (J : forall c l, (c = GIdle \/ c = GLast) -> (l = [] \/ l = [RSet t p true]) -> inv (GW true None (g_glob w) (goto t c (g_pc w)) (g_log w ++ l))).
      { intros c l Hc Hl. constructor; cbn [g_done g_lock g_glob g_pc g_log].
        - apply locks_free; [apply I|rewrite E; reflexivity|destruct Hc as [-> | ->]; reflexivity].
        - congruence.
        - intros v q. destruct (Nat.eq_dec v t) as [->|N]; [rewrite goto_eq; destruct Hc as [-> | ->]; discriminate|rewrite goto_ne by exact N; intros V; destruct (NL v q N V)].
        - intros v q x. destruct (Nat.eq_dec v t) as [->|N]; [rewrite goto_eq; destruct Hc as [-> | ->]; discriminate|rewrite goto_ne by exact N]. intros V. exfalso.
          assert (Hv : g_lock w = Some v) by (apply (i_locks _ I); rewrite V; reflexivity). congruence.
        - discriminate.
        - congruence.
        - intros q Q. apply offered_app, I, Q.
        - intros v q x. destruct (Nat.eq_dec v t) as [->|N]; [rewrite goto_eq; destruct Hc as [-> | ->]; discriminate|].
          rewrite goto_ne by exact N. intros Q. eapply offered_app, (i_part _ I), Q.
        - intros r H. apply in_app_or in H. destruct H as [H|H].
          + pose proof (i_log _ I r H) as R. destruct r; auto. destruct R as [R1 R2]. split; [exact R1|]. intros Q. split; [apply R2, Q|reflexivity].
          + destruct Hl as [-> | ->]; [destruct H|]. destruct H as [<-|[]]. split; [congruence|]. auto.
        - rewrite filter_app, app_length. replace (filter _ (g_log w)) with (@nil gres); [destruct Hl as [-> | ->]; cbn; lia|].
          symmetry. pose proof (i_log _ I) as R. clear -R D. induction (g_log w) as [|r l' IH]; [reflexivity|]. cbn. rewrite IH by (intros; apply R; right; assumption).
          specialize (R r (or_introl eq_refl)). destruct r; try reflexivity. destruct did; [|reflexivity]. destruct R as [_ R]. destruct (R eq_refl). congruence. }
      unfold after_once. cbn [g_done g_lock g_glob g_pc g_log]. destruct u; [apply J; auto|]. rewrite <- (app_nil_r (g_log w)). apply J; auto.
    + destruct (g_glob w) eqn:G; rewrite <- G; apply inv_move0; rewrite ?E; try easy; congruence.
    + destruct pr; [apply inv_move0|apply inv_move]; rewrite ?E; try easy. intros r [<-|[]]. exact Logic.I.
    + destruct ld as [p|]; apply inv_move; rewrite ?E; try easy.
      * intros q v [= -> _]. exists t. right. apply in_or_app. right. left. reflexivity.
      * intros r [<-|[]]. exact Logic.I.
      * intros r [<-|[]]. exact Logic.I.
    + pose proof (i_last _ I t E) as G. apply inv_move; rewrite ?E; try easy. intros r [<-|[]]. destruct (g_glob w) eqn:Q; [reflexivity|contradiction].
Qed.
Lemma inv_run h : inv (grun raises h g_init).
Proof.
  induction h as [|e h IH] using rev_ind; [|rewrite grun_snoc; apply inv_step, IH].
  constructor; cbn; try easy; try lia.
Qed.

(** ** Calls and their results *)
Fixpoint open_of (t : nat) (rl : list gres) : option (gcall * bool) :=
  match rl with
  | [] => None
  | r :: rest =>
      if ends_call t r then None
      else match r with
           | RStart u c => if Nat.eqb u t then Some (c, existsb shows_installed rest) else open_of t rest
           | _ => open_of t rest
           end
  end.
Definition fits (o : option (gcall * bool)) (c : gpc) : Prop :=
  match o with
  | None => c = GIdle
  | Some (CSet p, _) => set_part c = Some (p, true)
  | Some (CGet, true) => c = GTest \/ c = GLast
  | Some (CGet, false) => c <> GIdle /\ forall p, set_part c <> Some (p, true)
  end.
Definition result_fits (t : nat) (o : option (gcall * bool)) (r : gres) : Prop :=
  match o with
  | None => False
  | Some (CSet p, _) => exists did, r = RSet t p did
  | Some (CGet, true) => exists q, r = RProvider t q
  | Some (CGet, false) => (exists q, r = RProvider t q) \/ r = RProxy t \/ r = RRaised t
  end.
Definition matched (w : gworld) : Prop :=
  (forall t, fits (open_of t (rev (g_log w))) (g_pc w t)) /\
  (forall l1 r l3 t, g_log w = l1 ++ r :: l3 -> ends_call t r = true -> result_fits t (open_of t (rev l1)) r).

Lemma existsb_rev {A} (f : A -> bool) l : existsb f (rev l) = existsb f l.
Proof.
  induction l as [|x l IH]; [reflexivity|]. cbn. rewrite existsb_app, IH. cbn. rewrite orb_false_r. apply orb_comm.
Qed.
Lemma installed_glob w : inv w -> existsb shows_installed (rev (g_log w)) = true -> g_glob w <> None.
Proof.
  intros I H. rewrite existsb_rev in H. apply existsb_exists in H. destruct H as (r & Hr & S). pose proof (i_log _ I r Hr) as R.
  destruct r; try discriminate S; [apply R|congruence].
Qed.
Lemma open_installed t rl c : open_of t rl = Some (c, true) -> existsb shows_installed rl = true.
Proof.
  induction rl as [|r rl IH]; [discriminate|]. cbn [open_of existsb]. destruct (ends_call t r); [discriminate|].
  destruct r; try (intros H; rewrite (IH H); apply orb_true_r). destruct (Nat.eqb t0 t); [intros [= _ H]|intros H; apply IH in H]; rewrite H; apply orb_true_r.
Qed.
Lemma split_snoc {A} (l l1 l3 : list A) x r : l ++ [x] = l1 ++ r :: l3 -> (l3 = [] /\ l = l1 /\ x = r) \/ exists l3', l3 = l3' ++ [x] /\ l = l1 ++ r :: l3'.
Proof.
  intros H. destruct (exists_last (l := r :: l3)) as (z & y & Z); [discriminate|]. rewrite Z in H. rewrite app_assoc in H. apply app_inj_tail in H.
  destruct H as [H ->]. destruct z as [|z0 z]; cbn in Z; injection Z as -> Z.
  - left. rewrite app_nil_r in H. split; [destruct l3; [reflexivity|discriminate]|]. split; [exact H|reflexivity].
  - right. exists z. split; [exact Z|exact H].
Qed.
(** A step that logs nothing. *)
Lemma matched_move w t c d o g : matched w -> fits (open_of t (rev (g_log w))) c -> matched (GW d o g (goto t c (g_pc w)) (g_log w)).
Proof.
  intros [M1 M2] F. split; cbn [g_pc g_log]; [|exact M2]. intros u. destruct (Nat.eq_dec u t) as [->|N]; [rewrite goto_eq; exact F|rewrite goto_ne by exact N; apply M1].
Qed.
(** A step with which the call of t ends. *)
Lemma matched_end w t r d o g : matched w -> (forall u, ends_call u r = Nat.eqb t u) -> result_fits t (open_of t (rev (g_log w))) r ->
  matched (GW d o g (goto t GIdle (g_pc w)) (g_log w ++ [r])).
Proof.
  intros [M1 M2] E F. split; cbn [g_pc g_log].
  - intros u. rewrite rev_app_distr. cbn [rev app open_of]. rewrite E. destruct (Nat.eqb_spec t u) as [->|N]; [rewrite goto_eq; reflexivity|].
    rewrite goto_ne by congruence. destruct r; try apply M1; specialize (E t); rewrite Nat.eqb_refl in E; discriminate.
  - intros l1 r' l3 u H H'. apply split_snoc in H. destruct H as [(-> & <- & <-)|(l3' & -> & H)]; [|apply (M2 _ _ _ _ H H')].
    rewrite E in H'. apply Nat.eqb_eq in H'. subst u. exact F.
Qed.
Local Ltac fin c b F := destruct c, b; cbn in *; first
  [congruence | injection F; intros; subst; eexists; reflexivity | exfalso; destruct F; discriminate | exfalso; destruct F as [_ F]; eapply F; reflexivity
  |split; [congruence|intros; congruence] | destruct F as [_ F]; split; [congruence|exact F] | auto].
Lemma matched_step w e : inv w -> matched w -> matched (step w e).
Proof.
  intros I [M1 M2]. destruct e as [t c|t pr ld]; cbn [gstep].
  - destruct (g_pc w t) eqn:E; try (split; assumption). split; cbn [g_pc g_log].
    + intros u. rewrite rev_app_distr. cbn [rev app open_of ends_call]. destruct (Nat.eqb_spec t u) as [->|N]; [|rewrite goto_ne by congruence; apply M1].
      rewrite goto_eq. cbn [fits]. destruct c; [reflexivity|]. destruct (existsb shows_installed (rev (g_log w))); [left; reflexivity|]. split; discriminate.
    + intros l1 r l3 u H H'. apply split_snoc in H. destruct H as [(-> & <- & <-)|(l3' & -> & H)]; [discriminate|apply (M2 _ _ _ _ H H')].
  - pose proof (M1 t) as F. destruct (open_of t (rev (g_log w))) as [[c b]|] eqn:O; [|cbn in F; rewrite F; split; assumption].
    assert (M : matched w) by (split; assumption).
    assert (GB : b = true -> g_glob w <> None) by (intros ->; apply (installed_glob w I), (open_installed t _ c O)).
    destruct (g_pc w t) as [|p u|p u|p u|p u|p u|p u| | | |] eqn:E.
    + exact M.
    + assert (A : matched (after_once t p u false w)).
      { unfold after_once. destruct u; [apply matched_end; try assumption; [reflexivity|]|apply matched_move; [exact M|]]; rewrite O; fin c b F. }
      destruct (g_done w); [exact A|]. apply matched_move; [exact M|]. rewrite O. fin c b F.
    + destruct (g_lock w); [exact M|]. apply matched_move; [exact M|]. rewrite O. fin c b F.
    + assert (A : matched (after_once t p u false (GW (g_done w) None (g_glob w) (g_pc w) (g_log w)))).
      { unfold after_once. cbn [g_done g_lock g_glob g_pc g_log].
        destruct u; [apply matched_end; try assumption; [reflexivity|]|apply matched_move; [exact M|]]; rewrite O; fin c b F. }
      destruct (g_done w); [exact A|]. apply matched_move; [exact M|]. rewrite O. fin c b F.
    + apply matched_move; [exact M|]. rewrite O. fin c b F.
    + rewrite never. apply matched_move; [exact M|]. rewrite O. fin c b F.
    + unfold after_once. cbn [g_done g_lock g_glob g_pc g_log].
      destruct u; [apply matched_end; try assumption; [reflexivity|]|apply matched_move; [exact M|]]; rewrite O; fin c b F.
    + destruct (g_glob w) eqn:G; apply matched_move; try exact M; rewrite O; fin c b F. destruct (GB eq_refl). reflexivity.
    + destruct pr; [apply matched_move; [exact M|]|apply matched_end; [exact M|reflexivity|]]; rewrite O; fin c b F.
    + destruct c; [discriminate|]. destruct b; [cbn in F; destruct F; discriminate|]. destruct ld as [p|].
      * split; cbn [g_pc g_log].
        -- intros u. rewrite rev_app_distr. cbn [rev app open_of ends_call]. destruct (Nat.eq_dec u t) as [->|N]; [|rewrite goto_ne by exact N; apply M1].
           rewrite goto_eq, O. cbn. split; congruence.
        -- intros l1 r l3 u H H'. apply split_snoc in H. destruct H as [(-> & <- & <-)|(l3' & -> & H)]; [discriminate|apply (M2 _ _ _ _ H H')].
      * apply matched_end; [exact M|reflexivity|]. rewrite O. cbn. auto.
    + pose proof (i_last _ I t E) as G. apply matched_end; [exact M|destruct (g_glob w); reflexivity|]. rewrite O.
      destruct (g_glob w) as [q|]; [|congruence]. destruct c; [discriminate|]. destruct b; cbn; eauto.
Qed.
Lemma matched_run h : matched (grun raises h g_init).
Proof.
  induction h as [|e h IH] using rev_ind; [|rewrite grun_snoc; apply matched_step; [apply inv_run|exact IH]].
  split; [reflexivity|]. intros [|x l1] r l3 t H; discriminate.
Qed.
Lemma open_start t c l1 l2 : quiet t l2 = true -> open_of t (rev (l1 ++ RStart t c :: l2)) = Some (c, existsb shows_installed l1).
Proof.
  induction l2 as [|r l2 IH] using rev_ind; intros Q.
  - rewrite rev_app_distr. cbn. rewrite Nat.eqb_refl, existsb_rev. reflexivity.
  - unfold quiet in Q. rewrite forallb_app in Q. apply andb_prop in Q. destruct Q as [Q1 Q2]. cbn in Q2. rewrite andb_true_r in Q2.
    change (l1 ++ RStart t c :: l2 ++ [r]) with (l1 ++ (RStart t c :: l2) ++ [r]). rewrite app_assoc, rev_app_distr. cbn [rev app open_of].
    rewrite <- (IH Q1). destruct r; cbn [ends_call] in *; try apply negb_true_iff in Q2; rewrite ?Q2; reflexivity.
Qed.

Theorem results h before t c r : answered (g_log (grun raises h g_init)) before t c r ->
  match c with
  | CSet p => exists did, r = RSet t p did
  | CGet => (exists q, r = RProvider t q) \/ (existsb shows_installed before = false /\ (r = RProxy t \/ r = RRaised t))
  end.
Proof.
  intros (l2 & l3 & H & Q & En). pose proof (proj2 (matched_run h) (before ++ RStart t c :: l2) r l3 t) as M.
  rewrite <- app_assoc in M. cbn [app] in M. specialize (M H En). rewrite open_start in M by exact Q. cbn [result_fits] in M.
  destruct c; [exact M|]. destruct (existsb shows_installed before); [left; exact M|]. destruct M as [M|M]; [left; exact M|right; auto].
Qed.

(** ** When the environment names a provider that loads *)
Lemma env_step w e : env_loads e -> (forall r, In r (g_log w) -> match r with RProxy _ | RRaised _ => False | _ => True end) ->
  forall r, In r (g_log (step w e)) -> match r with RProxy _ | RRaised _ => False | _ => True end.
Proof.
  intros L H r. destruct e as [t c|t pr ld]; cbn [gstep].
  - destruct (g_pc w t); try apply H. cbn [g_log]. rewrite in_app_iff. intros [K|[<-|[]]]; [apply (H r K)|exact Logic.I].
  - cbn in L. destruct L as [-> L]. destruct ld as [q|]; [|congruence]. rewrite ?never.
    destruct (g_pc w t); unfold after_once; rewrite ?never;
      repeat match goal with |- context [match ?b with _ => _ end] => lazymatch b with g_done w => destruct b | g_lock w => destruct b | g_glob w => destruct b | ?u => is_var u; lazymatch type of u with bool => destruct u end end end;
      cbn [g_log]; rewrite ?in_app_iff; try apply H; intros [K|[<-|[]]]; try apply (H r K); exact Logic.I.
Qed.
Theorem env_results h before t c r : Forall env_loads h -> answered (g_log (grun raises h g_init)) before t c r ->
  match c with CSet p => exists did, r = RSet t p did | CGet => exists q, r = RProvider t q end.
Proof.
  intros F A. pose proof (results h before t c r A) as R. destruct c; [exact R|]. destruct R as [R|[_ R]]; [exact R|].
  assert (G : forall r, In r (g_log (grun raises h g_init)) -> match r with RProxy _ | RRaised _ => False | _ => True end).
  { clear -F never. induction h as [|e h IH] using rev_ind; [intros r []|]. rewrite grun_snoc. apply Forall_app in F. destruct F as [F1 F2].
    apply env_step; [inversion F2; assumption|apply IH, F1]. }
  destruct A as (l2 & l3 & H & _). specialize (G r). rewrite H in G. rewrite !in_app_iff in G. cbn in G. rewrite in_app_iff in G. cbn in G.
  destruct R as [-> | ->]; destruct G; auto.
Qed.

Theorem agree h : let l := g_log (grun raises h g_init) in
  (forall t p u q, In (RProvider t p) l -> In (RProvider u q) l -> p = q) /\
  (forall t p, In (RProvider t p) l -> offered p l) /\
  (forall t p u q, In (RSet t p true) l -> In (RProvider u q) l -> p = q) /\
  (length (filter (fun r => match r with RSet _ _ did => did | _ => false end) l) <= 1) /\
  (forall t, ~ In (RNone t) l).
Proof.
  intros l. pose proof (inv_run h) as I. pose proof (i_log _ I) as R. repeat apply conj.
  - intros t p u q H K. apply R in H, K. congruence.
  - intros t p H. apply R in H. apply (i_offer _ I p H).
  - intros t p u q H K. apply R in H, K. destruct H as [_ H]. destruct (H eq_refl). congruence.
  - apply I.
  - intros t H. apply (R _ H).
Qed.
End Proofs.
