(** Proofs for C32 and C33. *)
From Verif Require Import Spec_Processor Proof_Runtime Proof_Dict.
From Coq Require Import Permutation.
Local Open Scope nat_scope.

Local Arguments deliveries : simpl never.
Local Arguments Nat.ltb : simpl never.

(** ** Synchronous fan-out *)
Section Sync.
Variable E : Type.
Notation run := (fold_left (@mstep E)).

Lemma mgoto_same t p (f : nat -> mpc E) : mgoto t p f t = p.
Proof. unfold mgoto. now rewrite Nat.eqb_refl. Qed.
Lemma mgoto_other t t' p (f : nat -> mpc E) : t' <> t -> mgoto t p f t' = f t'.
Proof. unfold mgoto. destruct (Nat.eqb_spec t' t); [contradiction|reflexivity]. Qed.
Lemma deliveries_snoc t l p c (s : msp E) :
  deliveries t (MSP p c (m_log s ++ [l]))
  = deliveries t s ++ (if Nat.eqb (fst (fst l)) t then [(snd (fst l), snd l)] else []).
Proof. unfold deliveries. cbn. rewrite flat_map_app. cbn. now rewrite app_nil_r. Qed.

(** A call that has not begun has delivered nothing. *)
Lemma new_none es : forall t, m_pc (run es msp_init) t = MNew -> deliveries t (run es msp_init) = [].
Proof.
  induction es as [|ev es IH] using rev_ind; intros t; [reflexivity|].
  rewrite fold_left_app. cbn [fold_left]. set (s := run es msp_init) in *.
  destruct ev as [p|t' e|t' r]; cbn.
  - apply IH.
  - destruct (m_pc s t') eqn:P; try apply IH.
    cbn. destruct (Nat.eq_dec t t') as [<-|Hne]; [rewrite mgoto_same; discriminate|].
    rewrite mgoto_other by exact Hne. apply IH.
  - destruct (m_pc s t') as [|e todo| |] eqn:P; try apply IH.
    destruct todo as [|p todo]; cbn.
    + destruct (Nat.eq_dec t t') as [<-|Hne]; [rewrite mgoto_same; discriminate|].
      rewrite mgoto_other by exact Hne. apply IH.
    + destruct (Nat.eq_dec t t') as [<-|Hne].
      * rewrite mgoto_same. destruct r; discriminate.
      * rewrite mgoto_other by exact Hne. intros H. rewrite deliveries_snoc. cbn.
        destruct (Nat.eqb_spec t' t); [congruence|]. rewrite app_nil_r. apply IH, H.
Qed.
Lemma procs_registered es : forall s : msp E, m_procs (run es s) = m_procs s ++ registered es.
Proof.
  induction es as [|ev es IH]; intros s; cbn [fold_left registered]; [now rewrite app_nil_r|].
  rewrite IH. destruct ev as [p|t e|t r]; cbn.
  - now rewrite <- app_assoc.
  - destruct (m_pc s t); reflexivity.
  - destruct (m_pc s t) as [|e [|p todo]| |]; reflexivity.
Qed.

(** A call in progress: what it has delivered and what is left make the tuple it has read. *)
Lemma running es : forall (s : msp E) t e done todo,
  m_pc s t = MRun e todo -> deliveries t s = map (fun p => (e, p)) done ->
  let s' := run es s in
  exists done', deliveries t s' = map (fun p => (e, p)) done'
    /\ initial_part done' (done ++ todo)
    /\ (m_pc s' t = MRet -> done' = done ++ todo)
    /\ m_pc s' t <> MNew
    /\ ((forall r, In (MNext t r) es -> r = false) -> m_pc s' t <> MExc).
Proof.
  assert (Hend : forall es (s : msp E) t, m_pc s t = MRet \/ m_pc s t = MExc ->
            m_pc (run es s) t = m_pc s t /\ deliveries t (run es s) = deliveries t s).
  { clear es. induction es as [|ev es IH]; intros s t Hs; cbn [fold_left]; [auto|].
    assert (Hk : m_pc (mstep s ev) t = m_pc s t /\ deliveries t (mstep s ev) = deliveries t s).
    { destruct ev as [p|t' e|t' r]; cbn; [auto| |].
      - destruct (m_pc s t') eqn:P; auto. cbn.
        destruct (Nat.eq_dec t t') as [<-|Hne]; [destruct Hs; congruence|]. now rewrite mgoto_other.
      - destruct (m_pc s t') as [|e [|p todo]| |] eqn:P; auto; cbn.
        + destruct (Nat.eq_dec t t') as [<-|Hne]; [destruct Hs; congruence|]. now rewrite mgoto_other.
        + destruct (Nat.eq_dec t t') as [<-|Hne]; [destruct Hs; congruence|]. rewrite mgoto_other by exact Hne.
          split; [reflexivity|]. rewrite deliveries_snoc. cbn.
          destruct (Nat.eqb_spec t' t); [congruence|]. apply app_nil_r. }
    destruct Hk as [K1 K2]. destruct (IH (mstep s ev) t) as [I1 I2]; [rewrite K1; exact Hs|].
    rewrite I1, I2. auto. }
  induction es as [|ev es IH]; intros s t e done todo Hpc Hd; cbn [fold_left].
  - exists done. split; [exact Hd|]. split; [exists todo; reflexivity|]. rewrite Hpc.
    split; [discriminate|]. split; [discriminate|]. intros _. discriminate.
  - assert (Hsame : m_pc (mstep s ev) t = MRun e todo -> deliveries t (mstep s ev) = deliveries t s ->
      exists done', deliveries t (run es (mstep s ev)) = map (fun p => (e, p)) done'
        /\ initial_part done' (done ++ todo)
        /\ (m_pc (run es (mstep s ev)) t = MRet -> done' = done ++ todo)
        /\ m_pc (run es (mstep s ev)) t <> MNew
        /\ ((forall r, In (MNext t r) (ev :: es) -> r = false) -> m_pc (run es (mstep s ev)) t <> MExc)).
    { intros H1 H2. destruct (IH (mstep s ev) t e done todo H1 ltac:(congruence)) as (d & A & B & C & N & D).
      exists d. repeat (split; [assumption|]). intros Hr. apply D. intros r Hin. apply Hr. now right. }
    destruct ev as [p|t' e'|t' r].
    + apply Hsame; [exact Hpc|reflexivity].
    + cbn [mstep] in *. destruct (Nat.eq_dec t t') as [<-|Hne].
      * rewrite Hpc in *. apply Hsame; auto.
      * destruct (m_pc s t'); apply Hsame; auto. cbn. now rewrite mgoto_other.
    + cbn [mstep] in *. destruct (Nat.eq_dec t t') as [<-|Hne].
      * rewrite Hpc in *. clear Hsame. destruct todo as [|p todo].
        -- destruct (Hend es (MSP (m_procs s) (mgoto t MRet (m_pc s)) (m_log s)) t) as [I1 I2];
             [left; cbn; apply mgoto_same|].
           rewrite I1, I2. cbn. rewrite mgoto_same. exists done.
           split; [exact Hd|]. rewrite app_nil_r. split; [exists []; now rewrite app_nil_r|].
           split; [reflexivity|]. split; [discriminate|]. intros _; discriminate.
        -- destruct r.
           ++ match goal with |- context [fold_left _ es ?x] => destruct (Hend es x t) as [I1 I2];
                [right; cbn; apply mgoto_same|] end.
              rewrite I1, I2. cbn [m_pc]. rewrite mgoto_same. exists (done ++ [p]).
              rewrite deliveries_snoc. cbn [fst snd]. rewrite Nat.eqb_refl, Hd, map_app.
              split; [reflexivity|]. split; [exists todo; now rewrite <- app_assoc|].
              split; [discriminate|]. split; [discriminate|].
              intros Hr. specialize (Hr true (or_introl eq_refl)). discriminate.
           ++ match goal with |- context [fold_left _ es ?x] =>
                destruct (IH x t e (done ++ [p]) todo) as (d & A & B & C & N & D) end.
              ** cbn. apply mgoto_same.
              ** rewrite deliveries_snoc. cbn [fst snd]. now rewrite Nat.eqb_refl, Hd, map_app.
              ** rewrite <- app_assoc in B, C. exists d. repeat (split; [assumption|]).
                 intros Hr. apply D. intros r Hin. apply Hr. now right.
      * destruct (m_pc s t') as [|e' [|p todo']| |] eqn:P; apply Hsame; auto; cbn.
        -- now rewrite mgoto_other.
        -- now rewrite mgoto_other.
        -- rewrite deliveries_snoc. cbn. destruct (Nat.eqb_spec t' t); [congruence|]. apply app_nil_r.
Qed.

Lemma fan_out es1 t e es2 :
  m_pc (run es1 msp_init) t = MNew ->
  let s := run (es1 ++ MCall t e :: es2) msp_init in
  exists ps, deliveries t s = map (fun p => (e, p)) ps
    /\ initial_part ps (registered es1)
    /\ (m_pc s t = MRet -> ps = registered es1)
    /\ ((forall r, In (MNext t r) es2 -> r = false) -> m_pc s t <> MExc).
Proof.
  intros Hn s. unfold s. rewrite fold_left_app. cbn [fold_left].
  pose proof (new_none es1 t Hn) as H0.
  destruct (running es2 (mstep (run es1 msp_init) (MCall t e)) t e [] (registered es1))
    as (ps & A & B & C & _ & D).
  - cbn. rewrite Hn. cbn. rewrite mgoto_same. rewrite procs_registered. reflexivity.
  - cbn. rewrite Hn. exact H0.
  - exists ps. auto.
Qed.
End Sync.

(** ** force_flush of the synchronous multi processor *)
Lemma sync_loop clock flush deadline : forall n i,
  let r := sync_flush_loop clock flush deadline i n in
  let okb := fun j => (clock (S j) < deadline)%Z
                      /\ flush j ((deadline - clock (S j)) / 1000000)%Z = true in
  (fst r = true <-> forall j, i <= j < i + n -> okb j)
  /\ (forall k, k < length (snd r) ->
        (k < n /\ nth_error (snd r) k = Some ((deadline - clock (S (i + k))) / 1000000)%Z)
        /\ (clock (S (i + k)) < deadline)%Z
        /\ forall j, i <= j < i + k -> okb j)
  /\ (length (snd r) < n -> (deadline <= clock (S (i + length (snd r))))%Z \/ (exists k, length (snd r) = S k /\ ~ okb (i + k)))
  /\ length (snd r) <= n.
Proof.
  induction n as [|n IH]; intros i; cbn [sync_flush_loop].
  - cbn. repeat split; try lia; intros; try lia.
  - destruct (Z.leb_spec deadline (clock (S i))) as [Hd|Hd].
    + cbn. split; [|split; [intros; lia|split; [|lia]]].
      * split; [discriminate|]. intros H. destruct (H i ltac:(lia)). lia.
      * intros _. left. rewrite Nat.add_0_r. exact Hd.
    + destruct (flush i _) eqn:F.
      * specialize (IH (S i)). destruct (sync_flush_loop clock flush deadline (S i) n) as [r calls] eqn:E.
        cbn [fst snd] in *. destruct IH as (A & B & C & D).
        split; [|split; [|split]].
        -- rewrite A. split.
           ++ intros H j Hj. destruct (Nat.eq_dec j i) as [->|]; [split; assumption|]. apply H. lia.
           ++ intros H j Hj. apply H. lia.
        -- intros k Hk. cbn [length] in Hk. destruct k as [|k].
           ++ rewrite Nat.add_0_r. cbn [nth_error]. repeat split; auto; lia.
           ++ destruct (B k ltac:(lia)) as ((B1 & B2) & B3 & B4). cbn [nth_error].
              replace (i + S k) with (S i + k) by lia. split; [split; [lia|exact B2]|]. split; [exact B3|].
              intros j Hj. destruct (Nat.eq_dec j i) as [->|]; [split; assumption|]. apply B4. lia.
        -- intros Hl. cbn [length] in *. destruct (C ltac:(lia)) as [C1|(k & C1 & C2)].
           ++ left. replace (i + S (length calls)) with (S i + length calls) by lia. exact C1.
           ++ right. exists (S k). split; [lia|]. replace (i + S k) with (S i + k) by lia. exact C2.
        -- cbn [length]. lia.
      * cbn [fst snd length]. split; [|split; [|split; [|lia]]].
        -- split; [discriminate|]. intros H. destruct (H i ltac:(lia)). congruence.
        -- intros k Hk. assert (k = 0) as -> by lia. rewrite Nat.add_0_r. cbn. repeat split; auto; lia.
        -- intros _. right. exists 0. split; [reflexivity|]. rewrite Nat.add_0_r. intros [_ A]. congruence.
Qed.

Lemma sync_flush clock flush n timeout :
  let r := sync_force_flush clock flush n timeout in
  let deadline := (clock O + timeout * 1000000)%Z in
  (fst r = true <-> forall i, i < n -> flushed_in_time clock flush timeout i)
  /\ (forall i, i < length (snd r) <->
        i < n /\ (forall j, j < i -> flushed_in_time clock flush timeout j) /\ (clock (S i) < deadline)%Z)
  /\ (forall i ms, nth_error (snd r) i = Some ms -> ms = ((deadline - clock (S i)) / 1000000)%Z).
Proof.
  unfold sync_force_flush, flushed_in_time. cbv zeta.
  destruct (sync_loop clock flush (clock O + timeout * 1000000)%Z n 0) as (A & B & C & D).
  set (r := sync_flush_loop _ _ _ _ _) in *.
  split; [|split].
  - rewrite A. split; intros H i Hi; apply H; lia.
  - intros i. split.
    + intros Hi. destruct (B i Hi) as ((B1 & B2) & B3 & B4). split; [exact B1|]. split; [|exact B3].
      intros j Hj. apply B4. lia.
    + intros (H1 & H2 & H3). destruct (Nat.lt_ge_cases i (length (snd r))) as [|Hge]; [assumption|exfalso].
      destruct (C ltac:(lia)) as [C1|(k & C1 & C2)].
      * cbn in C1. destruct (Nat.eq_dec (length (snd r)) i) as [E|Hne]; [rewrite E in C1; lia|].
        destruct (H2 (length (snd r)) ltac:(lia)). lia.
      * apply C2. cbn. apply H2. lia.
  - intros i ms E. destruct (B i) as ((B1 & B2) & _); [apply nth_error_Some; congruence|].
    rewrite B2 in E. injection E as <-. reflexivity.
Qed.

(** ** Concurrent fan-out *)
Lemma set_nth_length {A} i (x : A) l : length (set_nth i x l) = length l.
Proof. revert i; induction l as [|y l IH]; intros [|i]; cbn; auto. Qed.
Lemma nth_set_same {A} i (x : A) l : i < length l -> nth_error (set_nth i x l) i = Some x.
Proof. revert i; induction l as [|y l IH]; intros [|i]; cbn; intros; try lia; auto. apply IH; lia. Qed.
Lemma nth_set_other {A} i j (x : A) l : i <> j -> nth_error (set_nth i x l) j = nth_error l j.
Proof. revert i j; induction l as [|y l IH]; intros [|i] [|j]; cbn; intros; try lia; auto. Qed.

Definition cinv (n : nat) (s : cmsp) : Prop :=
  length (c_tasks s) = n /\ NoDup (c_calls s)
  /\ (forall i, In i (c_calls s) <-> exists r, nth_error (c_tasks s) i = Some (TRan r))
  /\ match c_pc s with
     | CSubmit i => i <= n /\ (forall j, j < i -> nth_error (c_tasks s) j <> Some TNot)
                    /\ (forall j, i <= j < n -> nth_error (c_tasks s) j = Some TNot)
     | CAwait i => i <= n /\ (forall j, j < i -> nth_error (c_tasks s) j = Some (TRan false))
                   /\ (forall j, nth_error (c_tasks s) j <> Some TNot)
     | CRet => forall j, j < n -> nth_error (c_tasks s) j = Some (TRan false)
     | CExc => (exists j, nth_error (c_tasks s) j = Some (TRan true)) /\ (forall j, nth_error (c_tasks s) j <> Some TNot)
     end.
Lemma cinv_init n : cinv n (cm_init n).
Proof.
  unfold cinv, cm_init. cbn. split; [apply repeat_length|]. split; [constructor|]. split.
  - intros i. split; [tauto|]. intros [r H]. apply nth_error_In, repeat_spec in H. discriminate.
  - split; [lia|]. split; [intros; lia|]. intros j Hj.
    destruct (nth_error (repeat TNot n) j) eqn:E.
    + apply nth_error_In, repeat_spec in E. congruence.
    + apply nth_error_None in E. rewrite repeat_length in E. lia.
Qed.
Lemma cstep_inv n s ev : cinv n s -> cinv n (cstep s ev).
Proof.
  intros HI. pose proof HI as (L & N & R & P). destruct ev as [|i raises]; cbn.
  - destruct (c_pc s) as [i|i| |] eqn:E; auto.
    + destruct P as (P1 & P2 & P3). destruct (Nat.ltb_spec i (length (c_tasks s))).
      * assert (Hi : nth_error (c_tasks s) i = Some TNot) by (apply P3; lia).
        unfold cinv; cbn. rewrite set_nth_length. split; [exact L|]. split; [exact N|]. split.
        -- intros j. rewrite R. destruct (Nat.eq_dec i j) as [<-|Hne].
           ++ rewrite nth_set_same by lia. rewrite Hi. split; intros [r0 X]; discriminate.
           ++ rewrite nth_set_other by exact Hne. reflexivity.
        -- split; [lia|]. split.
           ++ intros j Hj. destruct (Nat.eq_dec i j) as [<-|Hne]; [rewrite nth_set_same by lia; discriminate|].
              rewrite nth_set_other by exact Hne. apply P2. lia.
           ++ intros j Hj. rewrite nth_set_other by lia. apply P3. lia.
      * unfold cinv; cbn. repeat (split; [assumption|]). split; [lia|]. split; [intros; lia|].
        intros j Hj. destruct (Nat.lt_ge_cases j n) as [Hlt|Hge].
        -- exact (P2 j ltac:(lia) Hj).
        -- assert (j < length (c_tasks s)) by (apply nth_error_Some; congruence). lia.
    + destruct P as (P1 & P2 & P3). destruct (nth_error (c_tasks s) i) as [[| |[|]]|] eqn:T; auto.
      * unfold cinv; cbn. repeat (split; [assumption|]). split; [|exact P3]. eauto.
      * unfold cinv; cbn. repeat (split; [assumption|]).
        assert (i < length (c_tasks s)) by (apply nth_error_Some; congruence).
        split; [lia|]. split; [|exact P3]. intros j Hj. destruct (Nat.eq_dec j i) as [->|]; [exact T|]. apply P2. lia.
      * unfold cinv; cbn. repeat (split; [assumption|]). apply nth_error_None in T.
        intros j Hj. apply P2. lia.
  - destruct (nth_error (c_tasks s) i) as [[| |r0]|] eqn:T; auto.
    assert (Hi : i < length (c_tasks s)) by (apply nth_error_Some; congruence).
    unfold cinv; cbn. rewrite set_nth_length. split; [exact L|]. split.
    { apply (Permutation.Permutation_NoDup (Permutation.Permutation_cons_append (c_calls s) i)). constructor; [|exact N]. rewrite R, T. intros [r0 X]; discriminate. }
    split.
    + intros j. rewrite in_app_iff. cbn. destruct (Nat.eq_dec i j) as [<-|Hne].
      * rewrite nth_set_same by exact Hi. split; eauto.
      * rewrite nth_set_other by exact Hne. rewrite R. split; [intros [X|[X|[]]]; auto; congruence|auto].
    + destruct (c_pc s) as [k|k| |].
      * destruct P as (P1 & P2 & P3). split; [exact P1|].
        assert (i < k). { destruct (Nat.lt_ge_cases i k); auto. rewrite P3 in T by lia. discriminate. }
        split; intros j Hj.
        -- destruct (Nat.eq_dec i j) as [<-|Hne]; [rewrite nth_set_same by exact Hi; discriminate|].
           rewrite nth_set_other by exact Hne. auto.
        -- rewrite nth_set_other by lia. auto.
      * destruct P as (P1 & P2 & P3). split; [exact P1|]. split; intros j.
        -- intros Hj. destruct (Nat.eq_dec i j) as [<-|Hne]; [rewrite P2 in T by exact Hj; discriminate|].
           rewrite nth_set_other by exact Hne. auto.
        -- destruct (Nat.eq_dec i j) as [<-|Hne]; [rewrite nth_set_same by exact Hi; discriminate|].
           rewrite nth_set_other by exact Hne. auto.
      * intros j Hj. destruct (Nat.eq_dec i j) as [<-|Hne]; [rewrite P in T by exact Hj; discriminate|].
        rewrite nth_set_other by exact Hne. auto.
      * destruct P as ((j & Pj) & P3). split.
        -- exists j. rewrite nth_set_other; [exact Pj|]. intros ->. congruence.
        -- intros k. destruct (Nat.eq_dec i k) as [<-|Hne]; [rewrite nth_set_same by exact Hi; discriminate|].
           rewrite nth_set_other by exact Hne. auto.
Qed.
Lemma crun_inv n es : cinv n (fold_left cstep es (cm_init n)).
Proof.
  induction es as [|e es IH] using rev_ind; [apply cinv_init|].
  rewrite fold_left_app. apply cstep_inv, IH.
Qed.
Lemma conc_fan_out n es : let s := fold_left cstep es (cm_init n) in
  NoDup (c_calls s) /\ (forall i, In i (c_calls s) -> i < n)
  /\ (c_pc s = CRet -> forall i, i < n -> In i (c_calls s))
  /\ (c_pc s = CExc -> forall i, i < n ->
        In i (c_calls s) \/ In i (c_calls (cstep s (CPool i false)))).
Proof.
  intros s. destruct (crun_inv n es) as (L & N & R & P). fold s in L, N, R, P.
  split; [exact N|]. split; [|split].
  - intros i Hi. apply R in Hi. destruct Hi as [r Hi].
    assert (i < length (c_tasks s)) by (apply nth_error_Some; congruence). lia.
  - intros E i Hi. rewrite E in P. apply R. exists false. apply P, Hi.
  - intros E i Hi. rewrite E in P. destruct P as [_ P]. specialize (P i).
    destruct (nth_error (c_tasks s) i) as [[| |r]|] eqn:T.
    + congruence.
    + right. cbn. rewrite T. cbn. apply in_or_app. cbn. auto.
    + left. apply R. eauto.
    + apply nth_error_None in T. lia.
Qed.
Lemma conc_flush fs : conc_force_flush fs = true <-> forall f, In f fs -> f = Some true.
Proof.
  unfold conc_force_flush. destruct (existsb _ fs) eqn:X.
  - split; [discriminate|]. intros H. apply existsb_exists in X. destruct X as (f & Hin & Hf).
    rewrite (H f Hin) in Hf. discriminate.
  - rewrite forallb_forall. split; intros H f Hin; specialize (H f Hin).
    + destruct f as [r|]; [congruence|]. exfalso.
      assert (existsb (fun f => match f with None => true | _ => false end) fs = true)
        by (apply existsb_exists; exists None; auto). congruence.
    + subst f. reflexivity.
Qed.

(** ** The simple processor *)
Section Simple.
Variable X item : Type.
Variable sampled : item -> bool.
Variable export : list item -> runtime -> X -> runtime * X * outcome.
Notation on_end := (simple_on_end X item sampled export).

Lemma simple_unsampled u x s st : sampled x = false -> on_end u x s st = (s, st, Returned).
Proof. intros H. unfold simple_on_end. rewrite H. reflexivity. Qed.

Lemma simple_sampled u x s st :
  sampled x = true ->
  let s1 := fst (attach u (set_value SUPPRESS_KEY OTrue (get_current u s)) s) in
  let tok := snd (attach u (set_value SUPPRESS_KEY OTrue (get_current u s)) s) in
  let '(s2, st2, out2) := export [x] s1 st in
  let '(s', st', out) := on_end u x s st in
  get_value SUPPRESS_KEY (get_current u s1) = OTrue
  /\ (forall k, k <> SUPPRESS_KEY -> get_value k (get_current u s1) = get_value k (get_current u s))
  /\ st' = st2
  /\ (out = Returned <-> forall e, out2 = Raised e -> ex_error e = true)
  /\ (out = Returned -> (exists ops, s2 = fold_left rt_step ops s1 /\ ~ In (RDetach u tok) ops) ->
        get_current u s' = get_current u s).
Proof.
  intros Hs. unfold simple_on_end. rewrite Hs. cbn [negb].
  destruct (attach u (set_value SUPPRESS_KEY OTrue (get_current u s)) s) as [s1 tok] eqn:Ea.
  cbn [fst snd]. destruct (export [x] s1 st) as [[s2 st2] out2] eqn:Ee.
  assert (Hcur : get_current u s1 = set_value SUPPRESS_KEY OTrue (get_current u s)).
  { unfold attach in Ea. injection Ea as <- <-. unfold get_current. cbn. unfold set_cur. now rewrite Nat.eqb_refl. }
  assert (H12 : get_value SUPPRESS_KEY (get_current u s1) = OTrue
    /\ (forall k, k <> SUPPRESS_KEY -> get_value k (get_current u s1) = get_value k (get_current u s))).
  { rewrite Hcur. split.
    - unfold get_value, set_value. rewrite dget_dset_eq. reflexivity.
    - intros k Hk. unfold get_value, set_value. rewrite dget_dset_ne by exact Hk. reflexivity. }
  destruct H12 as [H1 H2].
  assert (Hres : (exists ops, s2 = fold_left rt_step ops s1 /\ ~ In (RDetach u tok) ops) ->
                 get_current u (detach u tok s2) = get_current u s).
  { intros (ops & -> & Hn).
    pose proof (detach_restores u (set_value SUPPRESS_KEY OTrue (get_current u s)) s ops) as H.
    rewrite Ea in H. cbn [fst snd] in H. apply H. exact Hn. }
  destruct out2 as [|e].
  - repeat (split; [assumption|]). split; [reflexivity|]. split; [|auto].
    split; [discriminate|reflexivity].
  - destruct (ex_error e) eqn:He.
    + repeat (split; [assumption|]). split; [reflexivity|]. split; [|auto].
      split; [|reflexivity]. intros _ e' H. injection H as <-. exact He.
    + repeat (split; [assumption|]). split; [reflexivity|]. split; [|discriminate].
      split; [discriminate|]. intros H. specialize (H e eq_refl). congruence.
Qed.
End Simple.

(** With an exporter that keeps a log of the batches it is given. *)
Lemma simple_sequence item (sampled : item -> bool) export u :
  (forall b s log, snd (fst (export b s log)) = log ++ [b]) ->
  (forall b s log e, snd (export b s log) = Raised e -> ex_error e = true) ->
  forall xs s log,
    snd (fst (simple_run (list (list item)) item sampled export u xs s log))
      = log ++ map (fun x => [x]) (filter sampled xs)
    /\ snd (simple_run (list (list item)) item sampled export u xs s log) = Returned.
Proof.
  intros Hl He. induction xs as [|x xs IH]; intros s log; cbn [simple_run filter map].
  - cbn. now rewrite app_nil_r.
  - destruct (simple_on_end _ _ sampled export u x s log) as [[s1 l1] o1] eqn:E1.
    assert (Ho : o1 = Returned /\ l1 = log ++ (if sampled x then [[x]] else [])).
    { unfold simple_on_end in E1. destruct (sampled x); cbn [negb] in E1.
      - destruct (attach u _ s) as [sa tok]. specialize (Hl [x] sa log). specialize (He [x] sa log).
        destruct (export [x] sa log) as [[s2 l2] o2]. cbn in Hl, He. subst l2.
        destruct o2 as [|e]; [injection E1 as <- <- <-; auto|].
        rewrite (He e eq_refl) in E1. injection E1 as <- <- <-. auto.
      - injection E1 as <- <- <-. now rewrite app_nil_r. }
    destruct Ho as [-> ->]. destruct (IH s1 (log ++ (if sampled x then [[x]] else []))) as [A B].
    split; [|exact B]. rewrite A. destruct (sampled x); cbn; now rewrite <- app_assoc.
Qed.
