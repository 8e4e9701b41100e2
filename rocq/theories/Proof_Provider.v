(** Proofs about MeterProvider and reader preferences. *)
From Verif Require Import Spec_Otlp Proof_Otlp Proof_OtlpFields Proof_Dict Proof_Str Proof_Attr Spec_Attr Spec_Logs Proof_Logs Model_Provider Spec_Provider.
From Coq Require Import Lia.

Section Flush.
Variable R : Type.
Variable clock : nat -> Z.
Variable answer : R -> Z -> rans.

Definition turns_from (i : nat) (readers : list R) : list (R * Z) := combine readers (map clock (seq i (length readers))).

Lemma for_readers_spec : forall readers deadline i, (forall r t, answer r t <> RBase) ->
  for_readers R clock answer deadline i readers =
    (map (fun rt => (fst rt, (deadline - snd rt)%Z)) (filter (in_time deadline) (turns_from i readers)),
     Some (map fst (filter (fun rt => negb (fine answer deadline rt)) (turns_from i readers)))).
Proof.
  induction readers as [|r rs IH]; intros deadline i N; [reflexivity|].
  cbn [for_readers]. unfold turns_from. cbn [length seq map combine]. fold (turns_from (S i) rs). cbn [filter].
  rewrite (IH deadline (S i) N).
  change (fine answer deadline (r, clock i)) with ((clock i <? deadline)%Z && match answer r (deadline - clock i)%Z with ROk => true | _ => false end).
  change (in_time deadline (r, clock i)) with (clock i <? deadline)%Z.
  destruct (Z.leb_spec deadline (clock i)) as [L|L].
  - assert (Z.ltb (clock i) deadline = false) as -> by (apply Z.ltb_ge; lia). cbn [andb negb]. reflexivity.
  - assert (Z.ltb (clock i) deadline = true) as -> by (apply Z.ltb_lt; lia). cbn [andb].
    destruct (answer r (deadline - clock i)) eqn:A; cbn [negb map fst snd]; try reflexivity.
    exfalso. exact (N _ _ A).
Qed.
End Flush.

(** ** Meters *)
Section Meters.
Variable fi : Z -> option Z.

Lemma scope_of_args_kept a : scope_ok (Some (scope_of_args a)).
Proof.
  unfold scope_ok, scope_of_args. cbn [sco_attrs].
  pose proof (res_new_kept (match Model_Logs.la_attrs a with Some l => l | None => [] end) None) as K. unfold res_new in K. cbn [r_attrs] in K.
  destruct (ba_new None (match Model_Logs.la_attrs a with Some l => l | None => [] end) true None); exact K.
Qed.

Lemma find_scope_some : forall s l i j, find_scope fi s l i = Some j ->
  exists k s', j = (i + k)%nat /\ nth_error l k = Some s' /\ same_scope_key fi (Some s) (Some s') = true.
Proof.
  induction l as [|x l IH]; intros i j H; [discriminate|]. cbn [find_scope] in H.
  destruct (same_scope_key fi (Some s) (Some x)) eqn:E.
  - injection H as <-. exists 0%nat, x. rewrite Nat.add_0_r. repeat split; auto.
  - destruct (IH _ _ H) as (k & s' & -> & A & B). exists (S k), s'. repeat split; auto. lia.
Qed.
Lemma find_scope_none : forall s l i, find_scope fi s l i = None -> forall s', In s' l -> same_scope_key fi (Some s) (Some s') = false.
Proof.
  induction l as [|x l IH]; intros i H s' Hi; [destruct Hi|]. cbn [find_scope] in H.
  destruct (same_scope_key fi (Some s) (Some x)) eqn:E; [discriminate|]. destruct Hi as [<-|Hi]; eauto.
Qed.

(** The keys of _meters are pairwise unequal scopes. *)
Definition meters_ok (l : list scope) : Prop := Forall (fun s => scope_ok (Some s)) l /\
  forall i j s s', nth_error l i = Some s -> nth_error l j = Some s' -> same_scope_key fi (Some s) (Some s') = true -> i = j.

Lemma meters_ok_snoc : forall l s, meters_ok l -> scope_ok (Some s) -> (forall s', In s' l -> same_scope_key fi (Some s) (Some s') = false) ->
  meters_ok (l ++ [s]).
Proof.
  intros l s [F U] K N. split; [apply Forall_app; split; [assumption|now constructor]|].
  assert (Sy : forall s', In s' l -> same_scope_key fi (Some s') (Some s) = false).
  { intros s' Hi. destruct (same_scope_key fi (Some s') (Some s)) eqn:E; [|reflexivity].
    rewrite Forall_forall in F. specialize (N _ Hi).
    rewrite (eo_sym _ _ (scope_equiv fi) _ _ (F _ Hi) K E) in N. discriminate. }
  intros i j a b Ha Hb E.
  assert (Ca : forall k x, nth_error (l ++ [s]) k = Some x -> nth_error l k = Some x \/ k = length l /\ x = s).
  { intros k x Hk. destruct (Nat.lt_ge_cases k (length l)) as [L|L].
    - rewrite nth_error_app1 in Hk by assumption. auto.
    - rewrite nth_error_app2 in Hk by assumption. destruct (k - length l)%nat eqn:D; [|destruct n; discriminate].
      cbn in Hk. injection Hk as <-. right. split; [lia|reflexivity]. }
  destruct (Ca _ _ Ha) as [A|[-> ->]], (Ca _ _ Hb) as [B|[-> ->]]; eauto.
  - rewrite (Sy _ (nth_error_In _ _ A)) in E. discriminate.
  - rewrite (N _ (nth_error_In _ _ B)) in E. discriminate.
Qed.

Lemma names_scope_det a s : names_scope a s -> s = scope_of_args a.
Proof.
  intros (A & B & D & E). destruct (scope_describes a) as (A' & B' & D' & E').
  pose proof (accepted_taken None (match Model_Logs.la_attrs a with Some l => l | None => [] end)) as T.
  specialize (E _ T). specialize (E' _ T). destruct s, (scope_of_args a); cbn in *. congruence.
Qed.

Lemma get_meter_spec : forall p a p' m, meters_ok (mp_meters p) -> get_meter fi p a = (p', Some m) ->
  mp_shutdown p' = mp_shutdown p /\ mp_disabled p' = mp_disabled p /\ meters_ok (mp_meters p') /\
  ((mp_meters p' = mp_meters p /\ exists s0, nth_error (mp_meters p) m = Some s0 /\ same_scope_key fi (Some (scope_of_args a)) (Some s0) = true)
   \/ (mp_meters p' = mp_meters p ++ [scope_of_args a] /\ m = length (mp_meters p))).
Proof.
  intros p a p' m O H. unfold get_meter in H.
  destruct (mp_disabled p) eqn:D; [discriminate|]. destruct (mp_shutdown p) eqn:Sh; [discriminate|].
  destruct (str_eqb (la_name a) []); [discriminate|].
  destruct (find_scope fi (scope_of_args a) (mp_meters p) 0) as [i|] eqn:F; injection H as <- <-.
  - destruct (find_scope_some _ _ _ _ F) as (k & s' & -> & A & B). repeat split; auto; try apply O. left. split; [reflexivity|]. exists s'; auto.
  - cbn. repeat split; auto; try (apply meters_ok_snoc; auto using scope_of_args_kept; intros; eapply find_scope_none; eauto).
Qed.
Lemma get_meter_none : forall p a p', get_meter fi p a = (p', None) -> p' = p.
Proof.
  intros p a p' H. unfold get_meter in H.
  destruct (mp_disabled p); [congruence|]. destruct (mp_shutdown p); [congruence|]. destruct (str_eqb (la_name a) []); [congruence|].
  destruct (find_scope fi _ _ _); discriminate.
Qed.
Lemma get_meter_none_iff : forall p a, snd (get_meter fi p a) = None <-> mp_disabled p = true \/ mp_shutdown p = true \/ la_name a = [].
Proof.
  intros p a. unfold get_meter.
  destruct (mp_disabled p); [cbn; tauto|]. destruct (mp_shutdown p); [cbn; tauto|]. destruct (str_eqb (la_name a) []) eqn:E.
  - apply str_eqb_eq in E. cbn. tauto.
  - assert (la_name a <> []) by (intros X; rewrite X in E; cbn in E; discriminate E).
    destruct (find_scope fi _ _ _); cbn; split; try discriminate; intros [X|[X|X]]; congruence.
Qed.

Section History.
Variable readers : list nat.
Lemma step_meters : forall p c p1 r, meters_ok (mp_meters p) -> mcall_step fi readers p c = (p1, r) ->
  mp_disabled p1 = mp_disabled p /\ mp_shutdown p1 = (mp_shutdown p || is_shutdown c)%bool /\ meters_ok (mp_meters p1) /\ (exists ext, mp_meters p1 = mp_meters p ++ ext).
Proof.
  intros p c p1 r O H. destruct c as [a|st ti cl an]; cbn [mcall_step is_shutdown] in *.
  - destruct (get_meter fi p a) as [p' m] eqn:G. injection H as <- <-. rewrite orb_false_r.
    destruct m as [m|].
    + destruct (get_meter_spec _ _ _ _ O G) as (A & B & D & [[E _]|[E _]]); repeat split; auto; try apply D.
      * exists []. now rewrite app_nil_r.
      * eauto.
    + rewrite (get_meter_none _ _ _ G). repeat split; auto; try apply O. exists []. now rewrite app_nil_r.
  - destruct (mp_shutdown p) eqn:Sh.
    + injection H as <- <-. repeat split; auto; try apply O. exists []. now rewrite app_nil_r.
    + destruct (provider_flush nat cl an st ti readers) as [calls rr]. injection H as <- <-. repeat split; auto; try apply O. exists []. now rewrite app_nil_r.
Qed.

Lemma history_meters : forall l p p' rs, meters_ok (mp_meters p) -> mcalls fi readers p l = (p', rs) ->
  meters_ok (mp_meters p') /\ (exists ext, mp_meters p' = mp_meters p ++ ext) /\
  (forall i a m, meter_at l rs i a m ->
     exists s0, nth_error (mp_meters p') m = Some s0 /\ same_scope_key fi (Some (scope_of_args a)) (Some s0) = true) /\
  (forall m, (length (mp_meters p) <= m < length (mp_meters p'))%nat -> exists k a0,
     meter_at l rs k a0 m /\ nth_error (mp_meters p') m = Some (scope_of_args a0) /\
     forall k' a', meter_at l rs k' a' m -> (k <= k')%nat).
Proof.
  induction l as [|c l IH]; intros p p' rs O H; cbn [mcalls] in H.
  - injection H as <- <-. split; [exact O|]. split; [exists []; now rewrite app_nil_r|]. split.
    + intros i a m [A _]. destruct i; discriminate.
    + intros m L. lia.
  - destruct (mcall_step fi readers p c) as [p1 r] eqn:S1. destruct (mcalls fi readers p1 l) as [p2 rs'] eqn:S2. injection H as <- <-.
    destruct (step_meters _ _ _ _ O S1) as (_ & _ & O1 & [e1 E1]).
    destruct (IH _ _ _ O1 S2) as (O2 & [e2 E2] & Hs & Hn).
    split; [exact O2|]. split; [exists (e1 ++ e2); rewrite E2, E1; now rewrite app_assoc|].
    assert (Head : forall a m, meter_at (c :: l) (r :: rs') 0 a m ->
       get_meter fi p a = (p1, Some m)).
    { intros a m [A B]. cbn in A, B. injection A as ->. injection B as ->. cbn in S1. destruct (get_meter fi p a); congruence. }
    split.
    + intros [|i] a m M.
      * apply Head in M. destruct (get_meter_spec _ _ _ _ O M) as (_ & _ & _ & [[E (s0 & N & K)]|[E ->]]).
        -- exists s0. split; [|exact K]. rewrite E2, E. rewrite nth_error_app1; [exact N|]. apply nth_error_Some. congruence.
        -- exists (scope_of_args a). split.
           ++ rewrite E2, E. rewrite <- app_assoc, nth_error_app2 by lia. now rewrite Nat.sub_diag.
           ++ apply (eo_refl _ _ (scope_equiv fi)). apply scope_of_args_kept.
      * exact (Hs i a m M).
    + intros m L. destruct (Nat.lt_ge_cases m (length (mp_meters p1))) as [L1|L1].
      * destruct c as [a|st ti cl an].
        -- cbn [mcall_step] in S1. destruct (get_meter fi p a) as [px [m0|]] eqn:G; injection S1 as -> <-.
           ++ destruct (get_meter_spec _ _ _ _ O G) as (_ & _ & _ & [[E _]|[E ->]]).
              ** rewrite E in L1. lia.
              ** exists 0%nat, a. rewrite E in L1. rewrite app_length in L1. cbn in L1.
                 assert (m = length (mp_meters p)) as -> by lia. repeat split; auto; [|intros; lia].
                 rewrite E2, E, <- app_assoc, nth_error_app2 by lia. now rewrite Nat.sub_diag.
           ++ rewrite (get_meter_none _ _ _ G) in L1. lia.
        -- exfalso. cbn [mcall_step] in S1. destruct (mp_shutdown p); [|destruct (provider_flush nat cl an st ti readers)]; injection S1 as <- <-; cbn in L1; lia.
      * destruct (Hn m ltac:(lia)) as (k & a0 & M & N & F). exists (S k), a0. repeat split; try apply M; auto.
        intros [|k'] a' M'; [|apply le_n_S; exact (F k' a' M')].
        exfalso. apply Head in M'. destruct (get_meter_spec _ _ _ _ O M') as (_ & _ & _ & [[E (s0 & N0 & _)]|[E ->]]).
        -- assert (m < length (mp_meters p))%nat by (apply nth_error_Some; congruence). lia.
        -- rewrite E in L1. rewrite app_length in L1. cbn in L1. lia.
Qed.

Lemma history_noop : forall l p p' rs, meters_ok (mp_meters p) -> mcalls fi readers p l = (p', rs) -> forall i a, nth_error l i = Some (MGet a) ->
  (nth_error rs i = Some (RMeter None) <->
   mp_disabled p = true \/ (mp_shutdown p = true \/ existsb is_shutdown (firstn i l) = true) \/ la_name a = []).
Proof.
  induction l as [|c l IH]; intros p p' rs O H i a Hi; [destruct i; discriminate|]. cbn [mcalls] in H.
  destruct (mcall_step fi readers p c) as [p1 r] eqn:S1. destruct (mcalls fi readers p1 l) as [p2 rs'] eqn:S2. injection H as <- <-.
  destruct (step_meters _ _ _ _ O S1) as (Ed & Es & O1 & _).
  destruct i as [|i]; cbn [nth_error firstn existsb] in *.
  - injection Hi as ->. cbn [mcall_step] in S1. pose proof (get_meter_none_iff p a) as G. destruct (get_meter fi p a) as [px m]. injection S1 as -> <-.
    cbn [snd] in G. split; intros H.
    + injection H as ->. destruct G as [G _]. destruct (G eq_refl) as [X|[X|X]]; auto.
    + destruct G as [_ G]. rewrite G; [reflexivity|]. destruct H as [X|[[X|X]|X]]; auto. discriminate X.
  - rewrite (IH _ _ _ O1 S2 i a Hi), Ed, Es. destruct (mp_shutdown p), (is_shutdown c); cbn; split; intros [X|[[X|X]|X]]; auto.
Qed.

(** ** Shutdown *)
Lemma calls_sub : forall clock answer (rd : list nat) deadline i, NoDup rd ->
  NoDup (map fst (fst (for_readers nat clock answer deadline i rd))) /\ incl (map fst (fst (for_readers nat clock answer deadline i rd))) rd.
Proof.
  induction rd as [|r rd IH]; intros deadline i N; [split; [constructor|intros x []]|].
  cbn [for_readers]. inversion N as [|? ? Nr N']; subst. destruct (IH deadline (S i) N') as [A B].
  destruct (for_readers nat clock answer deadline (S i) rd) as [calls e]. cbn [fst] in *.
  assert (C : NoDup (map fst ((r, (deadline - clock i)%Z) :: calls)) /\ incl (map fst ((r, (deadline - clock i)%Z) :: calls)) (r :: rd)).
  { cbn. split; [constructor; [intros X; apply Nr, B, X|exact A]|]. intros x [<-|X]; [now left|right; now apply B]. }
  destruct (deadline <=? clock i)%Z; [split; [exact A|intros x X; right; now apply B]|].
  destruct (answer r (deadline - clock i)%Z); cbn [fst]; try exact C.
  cbn. split; [constructor; [intros []|constructor]|]. intros x [<-|[]]; now left.
Qed.
Lemma history_shut : forall l p p' rs, NoDup readers -> mcalls fi readers p l = (p', rs) ->
  NoDup (flat_map readers_shut rs) /\ (mp_shutdown p = true -> flat_map readers_shut rs = []).
Proof.
  induction l as [|c l IH]; intros p p' rs N H; cbn [mcalls] in H.
  - injection H as <- <-. split; [constructor|reflexivity].
  - destruct (mcall_step fi readers p c) as [p1 r] eqn:S1. destruct (mcalls fi readers p1 l) as [p2 rs'] eqn:S2. injection H as <- <-.
    destruct (IH _ _ _ N S2) as [A B]. cbn [flat_map].
    destruct c as [a|st ti cl an]; cbn [mcall_step] in S1.
    + assert (Es : mp_shutdown p1 = mp_shutdown p).
      { unfold get_meter in S1. destruct (mp_disabled p); [congruence|]. destruct (mp_shutdown p) eqn:E; [congruence|].
        destruct (str_eqb (la_name a) []); [congruence|]. destruct (find_scope fi _ _ _); injection S1 as <- <-; auto. }
      destruct (get_meter fi p a) as [px m]. injection S1 as -> <-. cbn [readers_shut app]. rewrite <- Es. split; assumption.
    + destruct (mp_shutdown p) eqn:Sh.
      * injection S1 as <- <-. cbn [readers_shut app map]. split; auto.
      * unfold provider_flush in S1. pose proof (calls_sub cl an readers (st + ti) 0 N) as C.
        destruct (for_readers nat cl an (st + ti) 0 readers) as [calls e]. injection S1 as <- <-.
        split; [|discriminate]. rewrite B by reflexivity. rewrite app_nil_r. exact (proj1 C).
Qed.
Lemma history_first : forall l1 p st ti cl an l2 p' rs, mp_shutdown p = false -> meters_ok (mp_meters p) -> existsb is_shutdown l1 = false ->
  mcalls fi readers p (l1 ++ MShutdown st ti cl an :: l2) = (p', rs) ->
  (exists calls r, provider_flush nat cl an st ti readers = (calls, r) /\ nth_error rs (length l1) = Some (RShut calls r)) /\
  forall i c, (length l1 < i)%nat -> nth_error (l1 ++ MShutdown st ti cl an :: l2) i = Some c -> is_shutdown c = true -> nth_error rs i = Some (RShut [] FTrue).
Proof.
  assert (Late : forall l p p' rs, mp_shutdown p = true -> meters_ok (mp_meters p) -> mcalls fi readers p l = (p', rs) -> forall i c, nth_error l i = Some c -> is_shutdown c = true ->
    nth_error rs i = Some (RShut [] FTrue)).
  { induction l as [|c l IH]; intros p p' rs Sh O H i c0 Hi Hc; [destruct i; discriminate|]. cbn [mcalls] in H.
    destruct (mcall_step fi readers p c) as [p1 r] eqn:S1. destruct (mcalls fi readers p1 l) as [p2 rs'] eqn:S2. injection H as <- <-.
    destruct (step_meters _ _ _ _ O S1) as (_ & Es & O1 & _). rewrite Sh in Es. cbn in Es.
    destruct i as [|i]; cbn [nth_error] in *; [|exact (IH _ _ _ Es O1 S2 i c0 Hi Hc)].
    injection Hi as ->. destruct c0; [discriminate|]. cbn [mcall_step] in S1. rewrite Sh in S1. injection S1 as <- <-. reflexivity. }
  induction l1 as [|c l1 IH]; intros p st ti cl an l2 p' rs Sh O N H; cbn [app mcalls] in H.
  - cbn [mcall_step] in H. rewrite Sh in H. destruct (provider_flush nat cl an st ti readers) as [calls r] eqn:F.
    destruct (mcalls fi readers _ l2) as [p2 rs'] eqn:S2. injection H as <- <-. split; [exists calls, r; auto|].
    intros [|i] c L Hi Hc; [cbn in L; lia|]. cbn [app nth_error] in *. refine (Late _ _ _ _ _ _ S2 i c Hi Hc); [reflexivity|exact O].
  - cbn [existsb] in N. apply orb_false_iff in N. destruct N as [Nc N].
    destruct (mcall_step fi readers p c) as [p1 r] eqn:S1. destruct (mcalls fi readers p1 _) as [p2 rs'] eqn:S2. injection H as <- <-.
    destruct (step_meters _ _ _ _ O S1) as (_ & Es & O1 & _). rewrite Sh, Nc in Es. cbn in Es.
    destruct (IH _ _ _ _ _ _ _ _ Es O1 N S2) as [A B]. split; [exact A|].
    intros [|i] c0 L Hi Hc; [cbn in L; lia|]. cbn [app nth_error length] in *. apply (B i c0); auto; lia.
Qed.
End History.
End Meters.

(** ** Registration *)
Lemma nodup_append {A} : forall (l l' : list A), NoDup l -> NoDup l' -> (forall x, In x l -> In x l' -> False) -> NoDup (l ++ l').
Proof.
  induction l as [|a l IH]; intros l' H H' D; [exact H'|]. inversion H; subst. cbn. constructor.
  - intros X. apply in_app_or in X. destruct X; [contradiction|]. apply (D a); [now left|assumption].
  - apply IH; auto. intros x X Y. apply (D x); [now right|assumption].
Qed.
Record reg_ok (g : registry) : Prop := {
  go_once : NoDup (flat_map snd (rg_made g));
  go_known : incl (flat_map snd (rg_made g)) (rg_all g);
  go_coll : forall p rs r, In (p, rs) (rg_made g) -> In r rs -> dget r (rg_collect g) = Some p }.

Lemma register_spec : forall p rs g g' ok, register_readers p rs g = (g', ok) ->
  rg_made g' = rg_made g /\ incl (rg_all g) (rg_all g') /\
  (forall r, In r (rg_all g) -> dget r (rg_collect g') = dget r (rg_collect g)) /\
  (forall r, In r (rg_all g') -> In r (rg_all g) \/ In r rs) /\
  (ok = true -> NoDup rs /\ (forall r, In r rs -> ~ In r (rg_all g) /\ In r (rg_all g') /\ dget r (rg_collect g') = Some p)) /\
  (NoDup rs -> (forall r, In r rs -> ~ In r (rg_all g)) -> ok = true).
Proof.
  induction rs as [|r rs IH]; intros g g' ok H; cbn [register_readers] in H.
  - injection H as <- <-. repeat split; auto using incl_refl; try constructor; destruct H0.
  - destruct (existsb (Nat.eqb r) (rg_all g)) eqn:E.
    + injection H as <- <-. repeat split; auto using incl_refl; try discriminate.
      intros _ X. exfalso. apply existsb_exists in E. destruct E as (x & Hx & Ex). apply Nat.eqb_eq in Ex. subst x. apply (X r); [now left|assumption].
    + assert (Nr : ~ In r (rg_all g)).
      { intros X. assert (existsb (Nat.eqb r) (rg_all g) = true) by (apply existsb_exists; exists r; split; [assumption|apply Nat.eqb_refl]). congruence. }
      destruct (IH _ _ _ H) as (A & B & C & D & F & G). cbn [rg_all rg_collect rg_made] in *.
      split; [exact A|]. split; [intros x X; apply B; now right|]. split.
      { intros x X. rewrite C by now right. cbn. destruct (eq_dec x r) as [->|]; [contradiction|reflexivity]. }
      split. { intros x X. destruct (D x X) as [[<-|Y]|Y]; auto; right; [now left|now right]. }
      split.
      * intros Ho. destruct (F Ho) as [N K]. split.
        -- constructor; [|exact N]. intros X. destruct (K r X) as [Y _]. apply Y. now left.
        -- intros x [<-|X].
           ++ split; [exact Nr|]. split; [apply B; now left|]. rewrite C by now left. cbn. destruct (eq_dec r r); congruence.
           ++ destruct (K x X) as (Y & Z & W). repeat split; auto. intros V; apply Y; now right.
      * intros N K. inversion N; subst. apply G; [assumption|]. intros x X [<-|Y]; [contradiction|]. exact (K x (or_intror X) Y).
Qed.

Lemma new_provider_ok : forall g c g' ok, reg_ok g -> new_provider g c = (g', ok) -> reg_ok g'.
Proof.
  intros g [p rs] g' ok [A B C] H. unfold new_provider in H. cbn [fst snd] in H.
  destruct (register_readers p rs g) as [g1 o] eqn:R. destruct (register_spec _ _ _ _ _ R) as (Em & I & Co & D & F & _).
  destruct o; injection H as <- <-.
  - destruct (F eq_refl) as [N K]. split; cbn [rg_made rg_all rg_collect]; rewrite Em.
    + rewrite flat_map_app. cbn. rewrite app_nil_r. apply nodup_append; auto. intros x X Y. destruct (K x Y) as [Z _]. apply Z, B, X.
    + rewrite flat_map_app. cbn. rewrite app_nil_r. intros x X. apply in_app_or in X. destruct X as [X|X]; [apply I, B, X|apply (K x X)].
    + intros q qs r Hq Hr. apply in_app_or in Hq. destruct Hq as [Hq|[Hq|[]]].
      * rewrite Co; [eapply C; eauto|]. apply B, in_flat_map. exists (q, qs). auto.
      * injection Hq as <- <-. apply (K r Hr).
  - split; rewrite Em; auto.
    + intros x X. apply I, B, X.
    + intros q qs r Hq Hr. rewrite Co; [eapply C; eauto|]. apply B, in_flat_map. exists (q, qs). auto.
Qed.
Lemma new_providers_ok : forall l, reg_ok (new_providers l).
Proof.
  intros l. unfold new_providers. assert (G : forall g, reg_ok g -> reg_ok (fold_left (fun g c => fst (new_provider g c)) l g)).
  { induction l as [|c l IH]; intros g O; [exact O|]. cbn [fold_left]. apply IH. destruct (new_provider g c) as [g' ok] eqn:E. exact (new_provider_ok _ _ _ _ O E). }
  apply G. split; cbn; [constructor|intros x []|intros p rs r []].
Qed.
Lemma new_providers_all : forall l r, In r (rg_all (new_providers l)) -> exists p rs, In (p, rs) l /\ In r rs.
Proof.
  intros l r. unfold new_providers. cut (forall g, In r (rg_all (fold_left (fun g c => fst (new_provider g c)) l g)) -> In r (rg_all g) \/ exists p rs, In (p, rs) l /\ In r rs).
  { intros G H. destruct (G _ H) as [[]|X]; exact X. }
  induction l as [|[p rs] l IH]; intros g H; [auto|]. cbn [fold_left] in H. destruct (IH _ H) as [X|(q & qs & X & Y)].
  - unfold new_provider in X. cbn [fst snd] in X. destruct (register_readers p rs g) as [g1 o] eqn:R. destruct (register_spec _ _ _ _ _ R) as (_ & _ & _ & D & _).
    assert (In r (rg_all g1)) as Y by (destruct o; exact X). destruct (D _ Y); auto. right. exists p, rs. split; [now left|assumption].
  - right. exists q, qs. split; [now right|assumption].
Qed.
Lemma new_provider_result : forall g p rs, snd (new_provider g (p, rs)) = true <-> NoDup rs /\ forall r, In r rs -> ~ In r (rg_all g).
Proof.
  intros g p rs. unfold new_provider. cbn [fst snd]. destruct (register_readers p rs g) as [g1 o] eqn:R.
  destruct (register_spec _ _ _ _ _ R) as (_ & _ & _ & _ & F & G). cbn [snd]. split.
  - intros H. destruct (F H) as [N K]. split; [exact N|]. intros r X. apply (K r X).
  - intros [N K]. auto.
Qed.

(** ** Temporalities *)
Lemma set_classes_spec : forall l d, Forall (fun kt => exists k, fst kt = CKind k) l -> NoDup (keys l) -> exists d', set_classes l d = Some d' /\
  forall k, dget k d' = match dget (CKind k) l with Some t => Some t | None => dget k d end.
Proof.
  induction l as [|[c t] l IH]; intros d F N; [exists d; auto|].
  inversion F as [|? ? [k0 E] F']; subst. cbn in E. subst c. inversion N as [|? ? Nk N']; subst. cbn [fst] in Nk.
  cbn [set_classes]. destruct (IH (dset k0 t d) F' N') as (d' & -> & H). exists d'. split; [reflexivity|]. intros k. rewrite H. cbn [dget].
  destruct (eq_dec (CKind k) (CKind k0)) as [E|E].
  - injection E as ->. rewrite dget_dset_eq. destruct (dget (CKind k0) l) eqn:G; [|reflexivity]. exfalso. apply Nk. apply dget_In in G. now apply (in_map fst) in G.
  - rewrite dget_dset_ne; [reflexivity|congruence].
Qed.
Lemma set_classes_bad : forall l d, ~ Forall (fun kt => exists k, fst kt = CKind k) l -> set_classes l d = None.
Proof.
  induction l as [|[[k|n] t] l IH]; intros d F; cbn [set_classes]; auto.
  - exfalso. apply F. constructor.
  - apply IH. intros X. apply F. constructor; [exists k; reflexivity|exact X].
Qed.
