(** C84-C87: the MeterProvider and the temporality of its readers. *)
From Verif Require Import Spec_Otlp Proof_Otlp Proof_Dict Spec_Attr Spec_Logs Proof_Logs Model_Provider Spec_Provider Proof_Provider.
From Coq Require Import Lia.

(** ** C84 *)

(** Unless a reader raises something that is not an Exception, the readers are called in order, each that has its turn
    before the deadline, with the time that is left, whatever happened to the others.  The caller gets True exactly if
    every reader was called and returned, and an exception naming the other readers if not. *)
Theorem C84_flush_partial : forall (R : Type) clock (answer : R -> Z -> rans) start timeout readers,
  (forall r t, answer r t <> RBase) ->
  let deadline := (start + timeout)%Z in
  let bad := filter (fun turn => negb (fine answer deadline turn)) (turns clock readers) in
  provider_flush R clock answer start timeout readers =
    (map (fun turn => (fst turn, (deadline - snd turn)%Z)) (filter (in_time deadline) (turns clock readers)),
     match bad with [] => FTrue | _ => FFailed (map fst bad) end).
Proof.
  intros R clock answer start timeout readers N deadline bad. unfold provider_flush.
  rewrite (for_readers_spec R clock answer readers (start + timeout) 0 N). fold deadline.
  change (turns_from R clock 0 readers) with (turns clock readers). fold bad. now destruct bad.
Qed.
Print Assumptions C84_flush_partial.
(** So with time enough, no reader is skipped because another failed. *)
Theorem C84_each_reader_partial : forall (R : Type) clock (answer : R -> Z -> rans) start timeout readers,
  (forall r t, answer r t <> RBase) -> (forall i, (i < length readers)%nat -> (clock i < start + timeout)%Z) ->
  map fst (fst (provider_flush R clock answer start timeout readers)) = readers.
Proof.
  intros R clock answer start timeout readers N T. rewrite C84_flush_partial by exact N. cbn [fst]. rewrite map_map.
  assert (G : forall (rd : list R) i, (forall j, (i <= j < i + length rd)%nat -> (clock j < start + timeout)%Z) ->
    map (fun x => fst x) (filter (in_time (start + timeout)) (combine rd (map clock (seq i (length rd))))) = rd).
  { induction rd as [|r rd IH]; intros i H; [reflexivity|]. cbn [length seq map combine filter].
    unfold in_time at 1. cbn [snd]. assert ((clock i <? start + timeout)%Z = true) as -> by (apply Z.ltb_lt, H; cbn; lia).
    cbn [map fst]. f_equal. apply IH. intros j L. apply H. cbn. lia. }
  exact (G readers 0%nat (fun j L => T j (proj2 L))).
Qed.
Print Assumptions C84_each_reader_partial.
(** Three readers, the first failing, with a slow second one: the third has no turn. *)
Example C84_flush_case :
  provider_flush nat (fun i => nth i [10; 20; 40]%Z 0%Z) (fun r _ => match r with 0%nat => RExc | _ => ROk end) 0 30 [0; 1; 2]%nat
  = ([(0, 20%Z); (1, 10%Z)]%nat, FFailed [0; 2]%nat)
  /\ provider_flush nat (fun i => nth i [10; 20; 25]%Z 0%Z) (fun _ _ => ROk) 0 30 [0; 1; 2]%nat
     = ([(0, 20%Z); (1, 10%Z); (2, 5%Z)]%nat, FTrue).
Proof. split; reflexivity. Qed.

(** Over the life of a provider a reader is shut down at most once; the first shutdown reaches the readers as above
    and every later one does nothing. *)
Theorem C84_shutdown_partial : forall float_int disabled readers before start timeout clock answer after p rs,
  NoDup readers -> existsb is_shutdown before = false -> (forall r t, answer r t <> RBase) ->
  mcalls float_int readers (mp_new disabled) (before ++ MShutdown start timeout clock answer :: after) = (p, rs) ->
  let deadline := (start + timeout)%Z in
  let bad := filter (fun turn => negb (fine answer deadline turn)) (turns clock readers) in
  NoDup (flat_map readers_shut rs)
  /\ nth_error rs (length before)
     = Some (RShut (map (fun turn => (fst turn, (deadline - snd turn)%Z)) (filter (in_time deadline) (turns clock readers)))
                   match bad with [] => FTrue | _ => FFailed (map fst bad) end)
  /\ forall i start' timeout' clock' answer', (length before < i)%nat ->
       nth_error (before ++ MShutdown start timeout clock answer :: after) i = Some (MShutdown start' timeout' clock' answer') ->
       nth_error rs i = Some (RShut [] FTrue).
Proof.
  intros fi disabled readers before start timeout clock answer after p rs N B A H deadline bad.
  assert (O : meters_ok fi (mp_meters (mp_new disabled))) by (split; [constructor|intros i j s s' X; destruct i; discriminate]).
  destruct (history_first fi readers before (mp_new disabled) start timeout clock answer after p rs eq_refl O B H) as [(calls & r & F & E) L].
  split; [exact (proj1 (history_shut fi readers _ _ _ _ N H))|]. split.
  - rewrite E. rewrite C84_flush_partial in F by exact A. fold deadline in F. fold bad in F. congruence.
  - intros i s' t' c' a' Hl Hi. exact (L i _ Hl Hi eq_refl).
Qed.
Print Assumptions C84_shutdown_partial.
Example C84_shutdown_case :
  snd (mcalls (fun _ => None) [0; 1]%nat (mp_new false)
    [MGet (LArgs (lit "a") None None None); MShutdown 0 9 (fun _ => 5%Z) (fun _ _ => ROk); MShutdown 10 9 (fun _ => 12%Z) (fun _ _ => ROk);
     MGet (LArgs (lit "a") None None None)])
  = [RMeter (Some 0%nat); RShut [(0, 4%Z); (1, 4%Z)]%nat FTrue; RShut [] FTrue; RMeter None].
Proof. reflexivity. Qed.
(** A reader that missed its turn is never shut down, although a later shutdown returns without an error. *)
Theorem C84_missed_refuted : exists float_int readers l p rs,
  mcalls float_int readers (mp_new false) l = (p, rs)
  /\ In 1%nat readers /\ last rs (RMeter None) = RShut [] FTrue
  /\ Forall (fun r => match r with RShut _ FPassed => False | _ => True end) rs
  /\ ~ In 1%nat (flat_map readers_shut rs).
Proof.
  exists (fun _ => None), [0; 1]%nat,
    [MShutdown 0 9 (fun i => match i with 0%nat => 1%Z | _ => 20%Z end) (fun _ _ => ROk); MShutdown 30 9 (fun _ => 31%Z) (fun _ _ => ROk)].
  eexists _, _. split; [reflexivity|]. cbn. repeat split; auto; try (repeat constructor; fail). intros [X|[]]; discriminate.
Qed.
Print Assumptions C84_missed_refuted.
(** Nor are the readers behind one that raised something that is not an Exception. *)
Theorem C84_base_refuted : exists float_int readers l p rs,
  mcalls float_int readers (mp_new false) l = (p, rs)
  /\ In 1%nat readers /\ last rs (RMeter None) = RShut [] FTrue
  /\ (forall start timeout clock answer, In (MShutdown start timeout clock answer) l -> forall i, (clock i < start + timeout)%Z)
  /\ ~ In 1%nat (flat_map readers_shut rs).
Proof.
  exists (fun _ => None), [0; 1]%nat,
    [MShutdown 0 9 (fun i => 1%Z) (fun _ _ => RBase); MShutdown 30 9 (fun _ => 31%Z) (fun _ _ => ROk)].
  eexists _, _. split; [reflexivity|]. cbn. repeat split; auto.
  - intros st ti cl an [X|[X|[]]] i; injection X as <- <- <- <-; lia.
  - intros [X|[]]; discriminate.
Qed.
Print Assumptions C84_base_refuted.

(** ** C85 *)

(** In any history two calls of get_meter that return meters return the same one exactly if the scopes they describe
    are equal, and that meter carries the scope of the first call that returned it. *)
Theorem C85_same_meter_partial : forall float_int disabled readers l p rs,
  mcalls float_int readers (mp_new disabled) l = (p, rs) ->
  (forall i a m s j a' m' s', meter_at l rs i a m -> meter_at l rs j a' m' -> names_scope a s -> names_scope a' s' ->
     (m = m' <-> python_equal_scopes float_int (Some s) (Some s')))
  /\ (forall i a m, meter_at l rs i a m ->
        exists k a0 s0, meter_at l rs k a0 m /\ (forall k' a', meter_at l rs k' a' m -> (k <= k')%nat)
          /\ names_scope a0 s0 /\ nth_error (mp_meters p) m = Some s0).
Proof.
  intros fi disabled readers l p rs H.
  assert (O : meters_ok fi (mp_meters (mp_new disabled))) by (split; [constructor|intros i j s s' X; destruct i; discriminate]).
  destruct (history_meters fi readers l _ _ _ O H) as ((Fk & U) & _ & Hs & Hn). split.
  - intros i a m s j a' m' s' M M' Ns Ns'. rewrite (names_scope_det a s Ns), (names_scope_det a' s' Ns').
    rewrite <- scope_key_spec by apply scope_of_args_kept.
    destruct (Hs _ _ _ M) as (s0 & E & K). destruct (Hs _ _ _ M') as (s0' & E' & K').
    rewrite Forall_forall in Fk. pose proof (Fk _ (nth_error_In _ _ E)) as K0. pose proof (Fk _ (nth_error_In _ _ E')) as K0'.
    pose proof (scope_of_args_kept a) as Ka. pose proof (scope_of_args_kept a') as Ka'. pose proof (scope_equiv fi) as Q. split.
    + intros <-. rewrite E in E'. injection E' as <-. eapply (eo_trans _ _ Q); [exact Ka|exact K0|exact Ka'|exact K|]. apply (eo_sym _ _ Q); auto.
    + intros X. apply (U _ _ _ _ E E'). eapply (eo_trans _ _ Q); [exact K0|exact Ka|exact K0'|apply (eo_sym _ _ Q); auto|].
      eapply (eo_trans _ _ Q); [exact Ka|exact Ka'|exact K0'|exact X|exact K'].
  - intros i a m M. destruct (Hs _ _ _ M) as (s0 & E & _).
    assert (Lm : (m < length (mp_meters p))%nat) by (apply nth_error_Some; congruence).
    destruct (Hn m) as (k & a0 & Mk & Nk & Fk0); [cbn; lia|].
    exists k, a0, (scope_of_args a0). split; [exact Mk|]. split; [exact Fk0|]. split; [apply scope_describes|exact Nk].
Qed.
Print Assumptions C85_same_meter_partial.
(** A meter that records nothing is returned exactly if the SDK is disabled, the provider was shut down before, or the
    name is empty. *)
Theorem C85_noop : forall float_int disabled readers l p rs i a,
  mcalls float_int readers (mp_new disabled) l = (p, rs) -> nth_error l i = Some (MGet a) ->
  (nth_error rs i = Some (RMeter None) <-> disabled = true \/ existsb is_shutdown (firstn i l) = true \/ la_name a = []).
Proof.
  intros fi disabled readers l p rs i a H Hi.
  assert (O : meters_ok fi (mp_meters (mp_new disabled))) by (split; [constructor|intros i' j s s' X; destruct i'; discriminate]).
  rewrite (history_noop fi readers l _ _ _ O H i a Hi). cbn. split; [intros [X|[[X|X]|X]]|intros [X|[X|X]]]; auto. discriminate X.
Qed.
Print Assumptions C85_noop.
Definition str_attr (k v : string) : pyval * pyval := (PStr false (lit k), PStr false (lit v)).
Example C85_case :
  snd (mcalls (fun _ => None) [0]%nat (mp_new false)
    [MGet (LArgs (lit "a") (Some (lit "1")) None (Some [str_attr "k" "v"; str_attr "l" "w"])); MGet (LArgs (lit "a") None None None);
     MGet (LArgs [] None None None);
     MGet (LArgs (lit "a") (Some (lit "1")) (Some []) (Some [str_attr "l" "w"; str_attr "k" "v"]))])
  = [RMeter (Some 0%nat); RMeter (Some 1%nat); RMeter None; RMeter (Some 0%nat)].
Proof. reflexivity. Qed.
(** Scopes with the attribute values 1 and True are equal in Python: the second call's metrics carry the first one's
    attributes. *)
Theorem C85_attributes_refuted : exists float_int readers l p rs a m s s0,
  mcalls float_int readers (mp_new false) l = (p, rs) /\ meter_at l rs 1 a m /\ names_scope a s
  /\ nth_error (mp_meters p) m = Some s0 /\ sco_attrs s0 <> sco_attrs s.
Proof.
  exists (fun _ => None), [],
    [MGet (LArgs (lit "a") None None (Some [(PStr false (lit "k"), PInt false 1%Z)])); MGet (LArgs (lit "a") None None (Some [(PStr false (lit "k"), PBool true)]))].
  eexists _, _, _, 0%nat, _, _. split; [reflexivity|]. split; [split; reflexivity|]. split; [apply scope_describes|]. split; [reflexivity|].
  vm_compute. discriminate.
Qed.
Print Assumptions C85_attributes_refuted.

(** ** C86 *)

(** Whatever providers a program makes or fails to make, in whatever order, no reader has two of them, and what each
    reader collects is its own provider's. *)
Theorem C86_exclusive : forall l,
  NoDup (flat_map snd (rg_made (new_providers l)))
  /\ (forall p rs r, In (p, rs) (rg_made (new_providers l)) -> In r rs -> dget r (rg_collect (new_providers l)) = Some p)
  /\ (forall p rs, snd (new_provider (new_providers l) (p, rs)) = true ->
        NoDup rs /\ forall r, In r rs -> ~ In r (flat_map snd (rg_made (new_providers l)))).
Proof.
  intros l. destruct (new_providers_ok l) as [A B C]. split; [exact A|]. split; [exact C|].
  intros p rs H. apply new_provider_result in H. destruct H as [N K]. split; [exact N|]. intros r X Y. exact (K r X (B r Y)).
Qed.
Print Assumptions C86_exclusive.
(** The constructor succeeds with distinct readers that were given to no other. *)
Theorem C86_fresh_partial : forall l p rs, NoDup rs -> (forall q qs r, In (q, qs) l -> In r qs -> ~ In r rs) ->
  snd (new_provider (new_providers l) (p, rs)) = true.
Proof.
  intros l p rs N F. apply new_provider_result. split; [exact N|]. intros r X Y.
  destruct (new_providers_all _ _ Y) as (q & qs & Hq & Hr). exact (F q qs r Hq Hr X).
Qed.
Print Assumptions C86_fresh_partial.
Example C86_case :
  rg_made (new_providers [(7, [1; 2]); (8, [3; 2; 4]); (9, [4])]%nat) = [(7, [1; 2]); (9, [4])]%nat
  /\ dget 4%nat (rg_collect (new_providers [(7, [1; 2]); (8, [3; 2; 4]); (9, [4])]%nat)) = Some 9%nat.
Proof. split; reflexivity. Qed.
(** A reader of a constructor that failed because of another reader belongs to no provider and can be given to none. *)
Theorem C86_claimed_refuted : exists l r,
  ~ In r (flat_map snd (rg_made (new_providers l))) /\ forall p, snd (new_provider (new_providers l) (p, [r])) = false.
Proof. exists [(7, [1; 2]); (8, [3; 2; 4])]%nat, 3%nat. split; [|reflexivity]. cbn. intros [X|[X|[]]]; discriminate. Qed.
Print Assumptions C86_claimed_refuted.

(** ** C87 *)

(** A reader accepts exactly the preferences that name temporalities for the SDK's instrument classes, and then uses
    them, and CUMULATIVE for the other instruments. *)
Theorem C87_reader : forall preferred, NoDup (keys preferred) ->
  (acceptable_preferences preferred <-> reader_temporality (Some preferred) <> None)
  /\ forall d, reader_temporality (Some preferred) = Some d ->
       forall k, dget k d = Some match dget (CKind k) preferred with Some t => t | None => CUMULATIVE end.
Proof.
  intros l N. unfold reader_temporality.
  set (d0 := map (fun k => (k, CUMULATIVE)) all_kinds).
  assert (D0 : forall k, dget k d0 = Some CUMULATIVE) by (intros []; reflexivity).
  destruct (forallb (fun kt => match snd kt with UNSPECIFIED => false | _ => true end) l) eqn:V.
  - rewrite forallb_forall in V. destruct (Forall_dec (fun kt => exists k, fst kt = CKind k)
      ltac:(intros [[k|n] t]; [left; exists k; reflexivity|right; intros [k E]; discriminate]) l) as [F|F].
    + destruct (set_classes_spec l d0 F N) as (d' & E & G). split.
      * rewrite E. split; [discriminate|]. intros _. unfold acceptable_preferences. rewrite Forall_forall in *. intros kt X.
        split; [|exact (F kt X)]. specialize (V kt X). destruct (snd kt); discriminate.
      * intros d Ed. rewrite E in Ed. injection Ed as <-. intros k. rewrite G, D0. now destruct (dget (CKind k) l).
    + rewrite (set_classes_bad l d0 F). split; [|discriminate]. split; [|congruence]. intros A _. apply F.
      unfold acceptable_preferences in A. rewrite Forall_forall in *. intros kt X. apply (A kt X).
  - split; [|discriminate]. split; [|congruence]. intros A _. apply Bool.not_true_iff_false in V. apply V. apply forallb_forall. intros kt X.
    unfold acceptable_preferences in A. rewrite Forall_forall in A. destruct (A kt X) as [Y _]. destruct (snd kt); congruence.
Qed.
Print Assumptions C87_reader.
Theorem C87_default : forall k, exists d, reader_temporality None = Some d /\ dget k d = Some CUMULATIVE.
Proof. intros k. eexists. split; [reflexivity|]. destruct k; reflexivity. Qed.
Print Assumptions C87_default.
(** With an OTLP exporter: the user's preference for the instrument if there is one, else that of the environment
    variable, in any case and with spaces around it, and cumulative for an unknown value. *)
Theorem C87_otlp : forall pyupper env user, NoDup (keys (match user with Some u => u | None => [] end)) ->
  acceptable_preferences (match user with Some u => u | None => [] end) ->
  exists d, reader_temporality (Some (otlp_temporality pyupper env user)) = Some d
  /\ forall k, dget k d = Some match dget (CKind k) (match user with Some u => u | None => [] end) with
                               | Some t => t
                               | None => preference (strip py_space (pyupper (match env with Some v => v | None => lit "CUMULATIVE" end))) k
                               end.
Proof.
  intros up env user N A. unfold otlp_temporality. set (v := strip py_space _). set (u := match user with Some u => u | None => [] end) in *.
  match goal with |- context[dupdate ?t u] => set (table := t) end.
  assert (T : NoDup (keys table) /\ acceptable_preferences table /\ forall k, match dget (CKind k) table with Some t => t | None => CUMULATIVE end = preference v k).
  { unfold table, preference. clearbody v. clear. destruct (str_eqb v (lit "DELTA")); [|destruct (str_eqb v (lit "LOWMEMORY"))];
    (split; [cbn; repeat constructor; cbn; intuition discriminate|]; split;
     [repeat (constructor; [cbn; split; [discriminate|eexists; reflexivity]|]); constructor|intros []; reflexivity]). }
  destruct T as (Nt & At & Et). clearbody table v.
  assert (Nd : NoDup (keys (dupdate table u))) by (apply NoDup_dupdate; assumption).
  assert (Ad : acceptable_preferences (dupdate table u)).
  { unfold acceptable_preferences. apply Forall_forall. intros [c t] X. apply In_dget in X; [|exact Nd]. rewrite dget_dupdate in X by exact N.
    unfold acceptable_preferences in *. rewrite Forall_forall in A, At. destruct (dget c u) eqn:E.
    - injection X as ->. exact (A _ (dget_In _ _ _ E)).
    - exact (At _ (dget_In _ _ _ X)). }
  destruct (C87_reader _ Nd) as [I G]. destruct (reader_temporality (Some (dupdate table u))) as [d|] eqn:E.
  - exists d. split; [reflexivity|]. intros k. rewrite (G d eq_refl k), dget_dupdate by exact N. rewrite <- Et. now destruct (dget (CKind k) u).
  - exfalso. apply I in Ad. congruence.
Qed.
Print Assumptions C87_otlp.
Example C87_case :
  exists d, reader_temporality (Some (otlp_temporality (fun s => s) (Some (lit " LOWMEMORY ")) (Some [(CKind IGauge, DELTA); (CKind ICounter, CUMULATIVE)]))) = Some d
  /\ map (fun k => dget k d) [ICounter; IHistogram; IObservableCounter; IGauge; IUpDownCounter]
     = [Some CUMULATIVE; Some DELTA; Some CUMULATIVE; Some DELTA; Some CUMULATIVE].
Proof. eexists. split; reflexivity. Qed.
Example C87_raises : reader_temporality (Some [(COther 3, DELTA)]) = None /\ reader_temporality (Some [(CKind IGauge, UNSPECIFIED)]) = None.
Proof. split; reflexivity. Qed.
