(** Proofs about the registry of instruments. *)
From Verif Require Import Proof_Dict Proof_Str Proof_Regex Spec_Meter.
From Coq Require Import Lia.
Local Arguments instrument_id : simpl never.

Lemma name_regex_spec n : fullmatch name_regex n = true <-> valid_name n.
Proof.
  rewrite fullmatch_lang. unfold name_regex. rewrite lang_cat. split.
  - intros (u & v & -> & U & V). apply lang_cls in U as (c & -> & C). apply lang_upto_cls in V as [L F].
    exists c, v. split; [reflexivity|]. split; [exact C|]. split; [exact L|]. intros x X.
    rewrite forallb_forall in F. specialize (F x X). apply orb_prop in F as [F|F]; [apply orb_prop in F as [F|F]|].
    + right. right. apply existsb_exists in F as (y & Y & E). apply N.eqb_eq in E. now subst.
    + now left.
    + right. now left.
  - intros (c & s & -> & C & L & F). exists [c], s. split; [reflexivity|]. split; [apply lang_cls; eauto|].
    apply lang_upto_cls. split; [exact L|]. apply forallb_forall. intros x X. destruct (F x X) as [E|[E|E]].
    + rewrite E. now rewrite orb_true_r.
    + rewrite E. now rewrite !orb_true_r.
    + assert (Y : existsb (N.eqb x) (lit "-_./") = true) by (apply existsb_exists; exists x; split; [exact E|apply N.eqb_refl]).
      now rewrite Y.
Qed.
Lemma unit_regex_spec u : fullmatch unit_regex u = true <-> valid_unit u.
Proof.
  rewrite fullmatch_lang. unfold unit_regex. rewrite lang_upto_cls, forallb_forall. unfold valid_unit.
  split; intros [L F]; (split; [exact L|]); intros x X; specialize (F x X); now apply N.leb_le.
Qed.
Lemma acceptable_spec c : acceptable c = true <-> valid_call c.
Proof. unfold acceptable, valid_call. now rewrite andb_true_iff, name_regex_spec, unit_regex_spec. Qed.

Lemma valid_chars n : valid_name n -> forall x, In x n -> is_alpha x = true \/ is_digit x = true \/ In x (lit "-_./").
Proof. intros (c & s & -> & C & _ & F) x [<-|X]; [now left|auto]. Qed.
Lemma valid_strip n : valid_name n -> strip py_space n = n.
Proof.
  intro V. apply strip_none. apply forallb_forall. intros x X. destruct (valid_chars n V x X) as [E|[E|E]].
  - unfold is_alpha, is_lower, is_upper, in_range in E. unfold py_space.
    destruct (py_space x) eqn:P; unfold py_space in P; [|now rewrite P]. exfalso. unfold in_range in P.
    rewrite ?orb_true_iff, ?andb_true_iff, ?N.leb_le, ?N.eqb_eq in *. lia.
  - unfold is_digit, in_range in E. unfold py_space.
    destruct (py_space x) eqn:P; unfold py_space in P; [|now rewrite P]. exfalso. unfold in_range in P.
    rewrite ?orb_true_iff, ?andb_true_iff, ?N.leb_le, ?N.eqb_eq in *. lia.
  - cbn in E. destruct E as [<-|[<-|[<-|[<-|[]]]]]; reflexivity.
Qed.
Lemma lower_no_comma n : valid_name n -> no_comma (lower n).
Proof.
  intros V I. unfold lower in I. apply in_map_iff in I as (x & E & X). unfold lower_char in E. cbn in E.
  destruct (valid_chars n V x X) as [C|[C|C]].
  - unfold is_alpha, is_lower in C. destruct (is_upper x) eqn:U; unfold is_upper, in_range in *; rewrite ?orb_true_iff, ?andb_true_iff, ?N.leb_le in *; [lia|].
    destruct C as [C|C]; [lia|]. congruence.
  - destruct (is_upper x); unfold is_digit, in_range in C; rewrite ?andb_true_iff, ?N.leb_le in *; lia.
  - cbn in C. destruct C as [<-|[<-|[<-|[<-|[]]]]]; cbn in E; discriminate.
Qed.
Lemma class_no_comma k : no_comma (class_name k).
Proof. destruct k; unfold no_comma; vm_compute; intuition discriminate. Qed.
Lemma class_inj k k' : class_name k = class_name k' -> k = k'.
Proof. destruct k, k'; intro E; try reflexivity; discriminate. Qed.
Lemma id_form c : instrument_id c = lower (strip py_space (cc_name c)) ++ chr "," :: class_name (cc_kind c) ++ chr "," :: cc_unit c ++ chr "," :: cc_descr c.
Proof. reflexivity. Qed.
Lemma lower_strip_valid n : valid_name n -> lower (strip py_space n) = lower n.
Proof. intro V. now rewrite valid_strip. Qed.
Lemma id_inj c d : valid_name (cc_name c) -> valid_name (cc_name d) -> no_comma (cc_unit c) -> no_comma (cc_unit d) ->
  instrument_id c = instrument_id d -> same_identity c d.
Proof.
  intros Vc Vd Uc Ud. rewrite !id_form, !lower_strip_valid by assumption. intro E.
  apply app_sep_inj in E as [En E]; [|now apply lower_no_comma|now apply lower_no_comma].
  apply app_sep_inj in E as [Ek E]; [|apply class_no_comma|apply class_no_comma].
  apply app_sep_inj in E as [Eu E]; [|assumption|assumption].
  apply class_inj in Ek. repeat split; assumption.
Qed.
Lemma lower_space x : py_space (lower_char x) = py_space x.
Proof.
  unfold lower_char. destruct (is_upper x) eqn:U; [|reflexivity]. unfold is_upper, in_range in U.
  rewrite andb_true_iff, !N.leb_le in U. unfold py_space, in_range.
  assert (A : forall a b, (a <= b)%N -> N.leb a b = true) by (intros; now apply N.leb_le).
  destruct (py_space (x + 32)) eqn:P; unfold py_space, in_range in P; rewrite P;
  destruct (py_space x) eqn:Q; unfold py_space, in_range in Q; rewrite ?Q; try reflexivity; exfalso;
    rewrite ?orb_true_iff, ?andb_true_iff, ?N.leb_le, ?N.eqb_eq in *; lia.
Qed.
Lemma lstrip_lower s : lstrip py_space (lower s) = lower (lstrip py_space s).
Proof. induction s as [|x s IH]; [reflexivity|]. cbn. rewrite lower_space. destruct (py_space x); [exact IH|reflexivity]. Qed.
Lemma strip_lower s : lower (strip py_space s) = strip py_space (lower s).
Proof.
  assert (R : forall x, lower (rev x) = rev (lower x)) by (intro x; unfold lower; apply map_rev).
  unfold strip, rstrip. now rewrite R, <- lstrip_lower, R, <- lstrip_lower.
Qed.
Lemma id_same c d : same_identity c d -> instrument_id c = instrument_id d.
Proof. intros (K & N & U & D). rewrite !id_form, !strip_lower. congruence. Qed.

(** ** Invariant *)
Definition working (p : mpc) (id : str) : Prop :=
  match p with MRegistered c false | MBuilt c _ | MListed c _ => instrument_id c = id | _ => False end.
Definition built (p : mpc) (o : instr) : Prop := match p with MBuilt _ o' => o' = o | _ => False end.
Definition made (c : ccall) (o : instr) : Prop := valid_call c /\ o = build (in_obj o) c.
Record minv (s : msys) : Prop := {
  iv_store : forall id o, dget id (ms_instrs s) = Some o -> exists c, made c o /\ instrument_id c = id;
  iv_ids : forall id o, dget id (ms_instrs s) = Some o -> In id (keys (ms_ids s));
  iv_work_ids : forall t id, working (ms_pc s t) id -> In id (keys (ms_ids s)) /\ dget id (ms_instrs s) = None;
  iv_work : forall t t' id, working (ms_pc s t) id -> working (ms_pc s t') id -> t = t';
  iv_made : forall t c o, ms_pc s t = MBuilt c o \/ ms_pc s t = MListed c o -> made c o;
  iv_done : forall t c o, ms_pc s t = MDone c o -> dget (instrument_id c) (ms_instrs s) = Some o;
  (* the list of observable instruments *)
  iv_next : forall o, In o (ms_async s) -> (in_obj o < ms_next s)%N;
  iv_bnext : forall t o, built (ms_pc s t) o -> (in_obj o < ms_next s)%N;
  iv_fresh : forall t o o', built (ms_pc s t) o -> In o' (ms_async s) -> in_obj o' <> in_obj o;
  iv_uniq : forall t t' o o', built (ms_pc s t) o -> built (ms_pc s t') o' -> in_obj o = in_obj o' -> t = t';
  iv_nodup : NoDup (map in_obj (ms_async s));
  iv_kind : forall o, In o (ms_async s) -> synchronous (in_kind o) = false;
  iv_listed : forall t c o, ms_pc s t = MListed c o -> synchronous (in_kind o) = false -> In o (ms_async s);
  iv_stored : forall id o, dget id (ms_instrs s) = Some o -> synchronous (in_kind o) = false -> In o (ms_async s)
}.
Lemma minv_init : minv ms_init.
Proof. constructor; cbn; try (intros; discriminate); try (intros; contradiction); try (intros; now intuition); try constructor. Qed.
Lemma mset_eq f t p : mset f t p t = p.
Proof. unfold mset. now rewrite Nat.eqb_refl. Qed.
Lemma mset_ne f t p t' : t <> t' -> mset f t p t' = f t'.
Proof. unfold mset. intro H. apply Nat.eqb_neq in H. now rewrite H. Qed.
Lemma mset_cases f t p t' : (t = t' /\ mset f t p t' = p) \/ (t <> t' /\ mset f t p t' = f t').
Proof. destruct (Nat.eq_dec t t') as [<-|N]; [left; split; [reflexivity|apply mset_eq]|right; split; [assumption|now apply mset_ne]]. Qed.
Ltac who t' := match goal with |- context [mset ?f ?t ?p t'] => destruct (mset_cases f t p t') as [[? ->]|[? ->]] end.
Ltac whoin t' H := match type of H with context [mset ?f ?t ?p t'] => destruct (mset_cases f t p t') as [[? HH]|[? HH]]; rewrite HH in H; clear HH end.

(** A step that changes only one thread's place, to a place that is not at work. *)
Lemma minv_idle s t p : minv s -> (forall id, ~ working p id) ->
  (forall c o, p = MDone c o -> dget (instrument_id c) (ms_instrs s) = Some o) ->
  minv (MS (ms_ids s) (ms_instrs s) (ms_async s) (ms_next s) (mset (ms_pc s) t p)).
Proof.
  intros I W D. assert (NB : forall o, ~ built p o) by (intros o B; destruct p; try exact B; eapply W; reflexivity).
  constructor; cbn [ms_ids ms_instrs ms_async ms_next ms_pc]; try apply I.
  - intros t' id H. whoin t' H; [now destruct (W id)|now apply I in H].
  - intros t1 t2 id H K. whoin t1 H; [now destruct (W id)|]. whoin t2 K; [now destruct (W id)|]. eapply I; eassumption.
  - intros t' c o H. whoin t' H; [|eapply I; eassumption]. exfalso. destruct H as [->| ->]; eapply W; reflexivity.
  - intros t' c o H. whoin t' H; [now apply D|eapply I; eassumption].
  - intros t' o H. whoin t' H; [now destruct (NB o)|eapply iv_bnext; eassumption].
  - intros t' o o' H. whoin t' H; [now destruct (NB o)|eapply iv_fresh; eassumption].
  - intros t1 t2 o o' H K. whoin t1 H; [now destruct (NB o)|]. whoin t2 K; [now destruct (NB o')|]. eapply iv_uniq; eassumption.
  - intros t' c o H. whoin t' H; [subst p; exfalso; eapply W; reflexivity|eapply iv_listed; eassumption].
Qed.
Lemma minv_step s e : minv s -> minv (mstep s e).
Proof.
  intros I. destruct e as [t c|t]; cbn [mstep].
  - destruct (ms_pc s t) eqn:P; try exact I. destruct (dmem (instrument_id c) (ms_ids s)) eqn:M.
    + apply minv_idle; [exact I|intros id []|discriminate].
    + apply dmem_false in M. constructor; cbn [ms_ids ms_instrs ms_async ms_next ms_pc]; try apply I.
      * intros id o H. apply In_keys_dset. right. eapply I. eassumption.
      * intros t' id H. whoin t' H.
        -- cbn in H. subst id. split; [apply In_keys_dset; now left|].
           destruct (dget (instrument_id c) (ms_instrs s)) eqn:E; [|reflexivity]. exfalso. apply M. eapply I. eassumption.
        -- apply I in H as [H K]. split; [apply In_keys_dset; now right|exact K].
      * intros t1 t2 id H K. whoin t1 H; whoin t2 K; try congruence.
        -- cbn in H. subst id. exfalso. apply M. now apply I in K.
        -- cbn in K. subst id. exfalso. apply M. now apply I in H.
        -- eapply I; eassumption.
      * intros t' c' o H. whoin t' H; [destruct H; discriminate|eapply I; eassumption].
      * intros t' c' o H. whoin t' H; [discriminate|eapply I; eassumption].
      * intros t' o H. whoin t' H; [destruct H|eapply iv_bnext; eassumption].
      * intros t' o o' H. whoin t' H; [destruct H|eapply iv_fresh; eassumption].
      * intros t1 t2 o o' H K. whoin t1 H; [destruct H|]. whoin t2 K; [destruct K|]. eapply iv_uniq; eassumption.
      * intros t' c' o H. whoin t' H; [discriminate|eapply iv_listed; eassumption].
  - destruct (ms_pc s t) as [|c already|c o|c o|c o|c e] eqn:P; try exact I.
    + destruct already.
      * destruct (dget (instrument_id c) (ms_instrs s)) as [o|] eqn:G.
        -- apply minv_idle; [exact I|intros id []|]. intros c' o' E. injection E as <- <-. exact G.
        -- apply minv_idle; [exact I|intros id []|discriminate].
      * assert (W : working (ms_pc s t) (instrument_id c)) by now rewrite P.
        destruct (acceptable c) eqn:A; [|apply minv_idle; [exact I|intros id []|discriminate]].
        apply acceptable_spec in A. constructor; cbn [ms_ids ms_instrs ms_async ms_next ms_pc]; try apply I.
        -- intros t' id H. whoin t' H; [cbn in H; subst id; eapply I; exact W|now apply I in H].
        -- intros t1 t2 id H K. whoin t1 H; whoin t2 K; try congruence.
           ++ cbn in H. subst id t1. eapply I; eassumption.
           ++ cbn in K. subst id t2. eapply I; eassumption.
           ++ eapply I; eassumption.
        -- intros t' c' o H. whoin t' H; [|eapply I; eassumption]. destruct H as [H|H]; [|discriminate]. injection H as <- <-.
           split; [exact A|reflexivity].
        -- intros t' c' o H. whoin t' H; [discriminate|eapply I; eassumption].
        -- intros o H. apply I in H. lia.
        -- intros t' o H. whoin t' H; [cbn in H; subst o; cbn; lia|]. apply I in H. lia.
        -- intros t' o o' H K. whoin t' H; [|eapply iv_fresh; eassumption]. cbn in H. subst o. apply I in K. cbn. lia.
        -- intros t1 t2 o o' H K E. whoin t1 H; whoin t2 K; try congruence.
           ++ cbn in H. subst o. apply I in K. cbn in E. lia.
           ++ cbn in K. subst o'. apply I in H. cbn in E. lia.
           ++ eapply iv_uniq; eassumption.
        -- intros t' c' o H. whoin t' H; [discriminate|eapply iv_listed; eassumption].
    + assert (W : working (ms_pc s t) (instrument_id c)) by now rewrite P.
      assert (B : built (ms_pc s t) o) by now rewrite P.
      assert (Md : made c o) by (eapply (iv_made s I); eauto).
      assert (Kd : in_kind o = cc_kind c) by (destruct Md as [_ ->]; reflexivity).
      destruct (synchronous (cc_kind c)) eqn:Sy.
      * constructor; cbn [ms_ids ms_instrs ms_async ms_next ms_pc]; try apply I.
        -- intros t' id H. whoin t' H; [cbn in H; subst id; eapply I; exact W|now apply I in H].
        -- intros t1 t2 id H K. whoin t1 H; whoin t2 K; try congruence.
           ++ cbn in H. subst id t1. eapply I; eassumption.
           ++ cbn in K. subst id t2. eapply I; eassumption.
           ++ eapply I; eassumption.
        -- intros t' c' o' H. whoin t' H; [|eapply I; eassumption]. destruct H as [H|H]; [discriminate|]. injection H as <- <-. exact Md.
        -- intros t' c' o' H. whoin t' H; [discriminate|eapply I; eassumption].
        -- intros t' o' H. whoin t' H; [destruct H|eapply iv_bnext; eassumption].
        -- intros t' o' o'' H. whoin t' H; [destruct H|eapply iv_fresh; eassumption].
        -- intros t1 t2 o' o'' H K. whoin t1 H; [destruct H|]. whoin t2 K; [destruct K|]. eapply iv_uniq; eassumption.
        -- intros t' c' o' H. whoin t' H; [|eapply iv_listed; eassumption]. injection H as <- <-. rewrite Kd, Sy. discriminate.
      * constructor; cbn [ms_ids ms_instrs ms_async ms_next ms_pc]; try apply I.
        -- intros t' id H. whoin t' H; [cbn in H; subst id; eapply I; exact W|now apply I in H].
        -- intros t1 t2 id H K. whoin t1 H; whoin t2 K; try congruence.
           ++ cbn in H. subst id t1. eapply I; eassumption.
           ++ cbn in K. subst id t2. eapply I; eassumption.
           ++ eapply I; eassumption.
        -- intros t' c' o' H. whoin t' H; [|eapply I; eassumption]. destruct H as [H|H]; [discriminate|]. injection H as <- <-. exact Md.
        -- intros t' c' o' H. whoin t' H; [discriminate|eapply I; eassumption].
        -- intros o' H. apply in_app_or in H as [H|[<-|[]]]; [now apply I|]. eapply iv_bnext; eassumption.
        -- intros t' o' H. whoin t' H; [destruct H|eapply iv_bnext; eassumption].
        -- intros t' o' o'' H K. whoin t' H; [destruct H|]. apply in_app_or in K as [K|[<-|[]]]; [eapply iv_fresh; eassumption|].
           intro E. apply H0. eapply iv_uniq; eassumption.
        -- intros t1 t2 o' o'' H K. whoin t1 H; [destruct H|]. whoin t2 K; [destruct K|]. eapply iv_uniq; eassumption.
        -- rewrite map_app. cbn [map]. apply NoDup_app_snoc; [apply I|]. intro H. apply in_map_iff in H as (o' & E & H).
           eapply iv_fresh; eassumption.
        -- intros o' H. apply in_app_or in H as [H|[<-|[]]]; [now apply I|]. now rewrite Kd.
        -- intros t' c' o' H. whoin t' H; [injection H as <- <-; intros _; apply in_or_app; right; now left|].
           intro S0. apply in_or_app. left. eapply iv_listed; eassumption.
        -- intros id o' H S0. apply in_or_app. left. eapply iv_stored; eassumption.
    + assert (W : working (ms_pc s t) (instrument_id c)) by now rewrite P.
      assert (Md : made c o) by (eapply (iv_made s I); eauto).
      destruct (iv_work_ids s I _ _ W) as [Wi Wn].
      constructor; cbn [ms_ids ms_instrs ms_async ms_next ms_pc]; try apply I.
      * intros id o' H. destruct (eq_dec id (instrument_id c)) as [->|N].
        -- rewrite dget_dset_eq in H. injection H as <-. eauto.
        -- rewrite dget_dset_ne in H by assumption. eapply I. eassumption.
      * intros id o' H. destruct (eq_dec id (instrument_id c)) as [->|N]; [exact Wi|].
        rewrite dget_dset_ne in H by assumption. eapply I. eassumption.
      * intros t' id H. whoin t' H; [destruct H|]. pose proof H as H1. apply I in H1 as [H1 H2]. split; [exact H1|].
        rewrite dget_dset_ne; [exact H2|]. intros ->. apply H0. eapply I; eassumption.
      * intros t1 t2 id H K. whoin t1 H; [destruct H|]. whoin t2 K; [destruct K|]. eapply I; eassumption.
      * intros t' c' o' H. whoin t' H; [destruct H; discriminate|eapply I; eassumption].
      * intros t' c' o' H. whoin t' H.
        -- injection H as <- <-. apply dget_dset_eq.
        -- apply I in H. rewrite dget_dset_ne; [exact H|]. intros E. rewrite E in H. congruence.
      * intros t' o' H. whoin t' H; [destruct H|eapply iv_bnext; eassumption].
      * intros t' o' o'' H. whoin t' H; [destruct H|eapply iv_fresh; eassumption].
      * intros t1 t2 o' o'' H K. whoin t1 H; [destruct H|]. whoin t2 K; [destruct K|]. eapply iv_uniq; eassumption.
      * intros t' c' o' H. whoin t' H; [discriminate|eapply iv_listed; eassumption].
      * intros id o' H S0. destruct (eq_dec id (instrument_id c)) as [->|N].
        -- rewrite dget_dset_eq in H. injection H as <-. eapply iv_listed; eassumption.
        -- rewrite dget_dset_ne in H by assumption. eapply iv_stored; eassumption.
Qed.
Lemma minv_run l : minv (mrun l).
Proof.
  unfold mrun. assert (G : forall l s, minv s -> minv (fold_left mstep l s)).
  { clear. induction l as [|e l IH]; intros s I; [exact I|]. cbn. apply IH. now apply minv_step. }
  apply G. apply minv_init.
Qed.

Lemma identity l t u c d o p : let s := mrun l in ms_pc s t = MDone c o -> ms_pc s u = MDone d p ->
  (same_identity c d -> o = p)
  /\ (valid_call c -> valid_call d -> no_comma (cc_unit c) -> no_comma (cc_unit d) -> o = p -> same_identity c d).
Proof.
  cbv zeta. intros H K. pose proof (minv_run l) as I. pose proof (iv_done _ I _ _ _ H) as G. pose proof (iv_done _ I _ _ _ K) as G'.
  split.
  - intro S0. apply id_same in S0. congruence.
  - intros [Nc _] [Nd _] Uc Ud <-. apply id_inj; try assumption.
    destruct (iv_store _ I _ _ G) as (c1 & [[V1 _] E1] & F1). destruct (iv_store _ I _ _ G') as (c2 & [[V2 _] E2] & F2).
    rewrite <- F1, <- F2. apply id_same. rewrite E1 in E2. unfold build in E2. injection E2 as A B C D E.
    repeat split; assumption.
Qed.
Lemma as_asked l t c o : ms_pc (mrun l) t = MDone c o -> valid_call c -> no_comma (cc_unit c) ->
  no_comma (in_unit o) ->
  in_kind o = cc_kind c /\ in_name o = lower (cc_name c) /\ in_unit o = cc_unit c /\ in_descr o = cc_descr c.
Proof.
  intros H [V _] U U'. pose proof (minv_run l) as I. pose proof (iv_done _ I _ _ _ H) as G.
  destruct (iv_store _ I _ _ G) as (d & [[V' _] E] & F). rewrite E in *. cbn in U'. cbn.
  destruct (id_inj d c V' V U' U F) as (A & B & C & D). repeat split; assumption.
Qed.
Lemma observed_once l : let s := mrun l in
  NoDup (map in_obj (ms_async s)) /\ (forall o, In o (ms_async s) -> synchronous (in_kind o) = false)
  /\ forall t c o, ms_pc s t = MDone c o -> synchronous (in_kind o) = false -> In o (ms_async s).
Proof.
  cbv zeta. pose proof (minv_run l) as I. split; [apply I|]. split; [apply I|].
  intros t c o H. apply (iv_done _ I) in H. eapply iv_stored; eassumption.
Qed.

(** ** One after the other *)
Definition settled_m (s : msys) : Prop :=
  forall id, In id (keys (ms_ids s)) -> dget id (ms_instrs s) <> None.
Lemma one_call s t c : valid_call c -> settled_m s -> ms_pc s t = MNew ->
  let s' := fold_left mstep [MCall t c; MStep t; MStep t; MStep t] s in
  settled_m s' /\ (exists o, ms_pc s' t = MDone c o) /\ (forall t', t' <> t -> ms_pc s' t' = ms_pc s t').
Proof.
  intros V S0 P. apply acceptable_spec in V. cbn [fold_left]. cbv zeta.
  destruct (mstep s (MCall t c)) as [ids1 ins1 as1 nx1 pc1] eqn:E1. unfold mstep in E1. rewrite P in E1.
  destruct (dmem (instrument_id c) (ms_ids s)) eqn:M; injection E1 as <- <- <- <- <-.
  - pose proof M as M'. apply dmem_true in M'. specialize (S0 _ M') as G.
    destruct (dget (instrument_id c) (ms_instrs s)) as [o|] eqn:D; [|congruence].
    destruct (mstep (MS _ _ _ _ _) (MStep t)) as [ids2 ins2 as2 nx2 pc2] eqn:E2. unfold mstep in E2. cbn [ms_pc ms_instrs] in E2.
    rewrite mset_eq, D in E2. injection E2 as <- <- <- <- <-.
    assert (St : forall x, ms_pc x t = MDone c o -> mstep x (MStep t) = x) by (intros x H; unfold mstep; now rewrite H).
    rewrite !(St (MS _ _ _ _ _)) by (cbn [ms_pc]; apply mset_eq). cbn [ms_pc ms_ids ms_instrs].
    split; [exact S0|]. split; [exists o; apply mset_eq|]. intros t' N. now rewrite !mset_ne by congruence.
  - destruct (mstep (MS _ _ _ _ _) (MStep t)) as [ids2 ins2 as2 nx2 pc2] eqn:E2. unfold mstep in E2. cbn [ms_pc ms_instrs] in E2.
    rewrite mset_eq, V in E2. injection E2 as <- <- <- <- <-. cbn [ms_next ms_ids ms_instrs ms_async].
    destruct (mstep (MS _ _ _ _ _) (MStep t)) as [ids3 ins3 as3 nx3 pc3] eqn:E3. unfold mstep in E3. cbn [ms_pc ms_instrs] in E3.
    rewrite mset_eq in E3.
    assert (X : ids3 = dset (instrument_id c) (cc_adv c) (ms_ids s) /\ ins3 = ms_instrs s /\ nx3 = (ms_next s + 1)%N
      /\ pc3 t = MListed c (build (ms_next s) c) /\ forall t', t' <> t -> pc3 t' = ms_pc s t').
    { destruct (synchronous (cc_kind c)); injection E3 as <- <- <- <- <-; (do 3 (split; [reflexivity|])); (split; [apply mset_eq|]);
        intros t' N; now rewrite !mset_ne by congruence. }
    clear E3. destruct X as (-> & -> & -> & P3 & Fr). unfold mstep. cbn [ms_pc]. rewrite P3. cbn [ms_pc ms_ids ms_instrs].
    split; [|split; [eexists; apply mset_eq|intros t' N; rewrite mset_ne by congruence; now apply Fr]].
    intros id H. cbn [ms_ids ms_instrs] in *. apply In_keys_dset in H. destruct (eq_dec id (instrument_id c)) as [->|N].
    + rewrite dget_dset_eq. discriminate.
    + rewrite dget_dset_ne by assumption. apply S0. tauto.
Qed.
Lemma sequential_ok cs : Forall valid_call cs ->
  let s := mrun (one_after_other cs) in forall i c, nth_error cs i = Some c -> exists o, ms_pc s i = MDone c o.
Proof.
  intro F. cbv zeta. unfold mrun, one_after_other.
  assert (G : forall cs a s, Forall valid_call cs -> settled_m s -> (forall i, a <= i -> ms_pc s i = MNew) ->
    let s' := fold_left mstep (flat_map (fun tc => [MCall (fst tc) (snd tc); MStep (fst tc); MStep (fst tc); MStep (fst tc)]) (combine (seq a (length cs)) cs)) s in
    (forall i, i < a -> ms_pc s' i = ms_pc s i) /\ forall i c, nth_error cs i = Some c -> exists o, ms_pc s' (a + i) = MDone c o).
  { clear. induction cs as [|c cs IH]; intros a s F S0 N; cbv zeta.
    - split; [reflexivity|]. intros [|i] c H; discriminate.
    - inversion F as [|? ? V F']; subst. cbn [length seq combine flat_map]. rewrite fold_left_app. cbn [fst snd].
      destruct (one_call s a c V S0 (N a (le_n a))) as (S1 & [o D] & Fr).
      set (s1 := fold_left mstep [MCall a c; MStep a; MStep a; MStep a] s) in *.
      destruct (IH (S a) s1 F' S1) as [A B].
      { intros i L. rewrite Fr by lia. apply N. lia. }
      split.
      + intros i L. rewrite A by lia. apply Fr. lia.
      + intros [|i] d E.
        * cbn in E. injection E as <-. exists o. rewrite Nat.add_0_r, A by lia. exact D.
        * cbn in E. replace (a + S i) with (S a + i) by lia. now apply B. }
  intros i c E. specialize (G cs 0 ms_init F). cbv zeta in G. apply G; [intros id []|reflexivity|exact E].
Qed.
