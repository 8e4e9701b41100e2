(** Proofs about observable instruments and their callbacks. *)
From Verif Require Import Proof_Dict Proof_Str Spec_Observable.
From Coq Require Import Lia.
Local Open Scope Z_scope.

Definition cb_observes (timeout : Z) (b : callback) : list (option mattrs * Z) :=
  match b with
  | CbFun f past => an_obs (f (past ++ [timeout]))
  | CbGen (GYields a :: _) => an_obs a
  | CbGen _ => []
  end.
Definition cbs_observe (timeout : Z) (i : N) (bs : list callback) : list observation :=
  flat_map (fun b => map (fun o => (i, fst o, snd o)) (cb_observes timeout b)) bs.
(** A callback after some calls with these timeouts: a function knows them; a generator has given one answer to each of them,
    and if it has raised it is over. *)
Definition stands (c : given_callback) (timeouts : list Z) : option callback :=
  match c with
  | FunctionCallback f => Some (CbFun f timeouts)
  | GeneratorCallback (GYields _ :: g) =>
      Some (CbGen (if existsb is_raise (firstn (length timeouts) g) then [] else skipn (length timeouts) g))
  | GeneratorCallback _ => None
  end.
Lemma run_callback_obs t b : an_obs (fst (run_callback t b)) = cb_observes t b.
Proof. destruct b as [f past|[|[a|] rest]]; reflexivity. Qed.
Definition after_call (t : Z) (b : callback) : callback := snd (run_callback t b).
Lemma run_callbacks_spec t bs : fst (fst (run_callbacks t bs)) = flat_map (cb_observes t) bs /\ snd (fst (run_callbacks t bs)) = map (after_call t) bs.
Proof.
  induction bs as [|b bs [IH1 IH2]]; [split; reflexivity|]. cbn [run_callbacks flat_map map]. rewrite <- run_callback_obs. unfold after_call at 1.
  destruct (run_callback t b) as [a b']. destruct (run_callbacks t bs) as [[obs bs'] n]. cbn [fst snd] in *. rewrite IH1, IH2. split; reflexivity.
Qed.
Lemma cbs_observe_eq t i bs : map (fun o => (i, fst o, snd o)) (flat_map (cb_observes t) bs) = cbs_observe t i bs.
Proof. unfold cbs_observe. induction bs as [|b bs IH]; [reflexivity|]. cbn [flat_map]. now rewrite map_app, IH. Qed.

(** The loop, with [n] instruments already done *)
Lemma call_spec deadline : forall l clock options,
  nondecreasing_clock clock -> (options = DEFAULT_TIMEOUT \/ (deadline - fst (clock O) <= options /\ options < DEFAULT_TIMEOUT)) ->
  exists l1 l2, l = l1 ++ l2
  /\ (forall k, (k < length l1)%nat -> snd (clock k) < deadline)
  /\ call_instruments clock deadline options l
     = (flat_map (fun e => cbs_observe (allowed clock deadline (fst e)) (fst (snd e)) (snd (snd e))) (numbered l1),
        match l2 with [] => false | _ => true end,
        map (fun e => (fst (snd e), map (after_call (allowed clock deadline (fst e))) (snd (snd e)))) (numbered l1) ++ l2,
        flat_map (fun e => all_called (allowed clock deadline (fst e)) (fst (snd e)) (snd (snd e))) (numbered l1))
  /\ (l2 <> [] -> deadline <= snd (clock (length l1))).
Proof.
  induction l as [|[i bs] l IH]; intros clock options ND OP.
  - exists [], []. split; [reflexivity|]. split; [cbn; lia|]. split; [reflexivity|congruence].
  - cbn [call_instruments]. set (opt := if deadline - fst (clock O) <? DEFAULT_TIMEOUT then deadline - fst (clock O) else options).
    assert (EO : opt = allowed clock deadline 0).
    { unfold opt, allowed. change 10000000000 with DEFAULT_TIMEOUT. destruct (Z.ltb_spec (deadline - fst (clock O)) DEFAULT_TIMEOUT); [lia|]. destruct OP as [->|[? ?]]; lia. }
    destruct (Z.leb_spec deadline (snd (clock O))) as [T|T].
    + exists [], ((i, bs) :: l). split; [reflexivity|]. split; [cbn; lia|]. split; [reflexivity|]. intros _. exact T.
    + destruct (IH (fun k => clock (S k)) opt) as (l1 & l2 & -> & B & E & D).
      { intro k. apply ND. }
      { rewrite EO. unfold allowed. change 10000000000 with DEFAULT_TIMEOUT. specialize (ND O). cbn beta. destruct (Z.min_spec DEFAULT_TIMEOUT (deadline - fst (clock O))) as [[? ->]|[? ->]]; [now left|].
        destruct (Z.eq_dec (deadline - fst (clock O)) DEFAULT_TIMEOUT) as [->|]; [now left|right; lia]. }
      exists ((i, bs) :: l1), l2. split; [reflexivity|]. split.
      { intros [|k] K; [exact T|]. apply B. cbn in K. lia. }
      split; [|intro N; exact (D N)]. destruct (run_callbacks_spec opt bs) as [R1 R2]. destruct (run_callbacks opt bs) as [[obs bs'] n]. cbn [fst snd] in R1, R2. subst obs bs'.
      rewrite E. unfold numbered. cbn [length seq combine flat_map map app fst snd]. rewrite cbs_observe_eq, EO.
      assert (SH : forall {A} (m : list A), combine (seq 1 (length m)) m = map (fun e => (S (fst e), snd e)) (combine (seq 0 (length m)) m)).
      { intros A m. rewrite <- seq_shift. generalize (seq 0 (length m)). intro s. revert m. induction s as [|x s IHs]; intros [|y m]; cbn; try reflexivity. now rewrite IHs. }
      rewrite SH. rewrite !flat_map_concat_map, !map_map. cbn [fst snd]. reflexivity.
Qed.

(** ** What a run knows about its callbacks *)
Lemma orun_snoc s l o : orun s (l ++ [o]) = let (s', out) := ostep (fst (orun s l)) o in (s', snd (orun s l) ++ [out]).
Proof. unfold orun. rewrite fold_left_app. reflexivity. Qed.
Lemma outs_length s l : length (snd (orun s l)) = length l.
Proof.
  induction l as [|o l IH] using rev_ind; [reflexivity|]. rewrite orun_snoc. destruct (ostep _ o). cbn [snd]. rewrite !app_length, IH. reflexivity.
Qed.
Lemma calls_of_app i k o1 o2 : calls_of i k (o1 ++ o2) = calls_of i k o1 ++ calls_of i k o2.
Proof. apply flat_map_app. Qed.

(** The callbacks of the measurement consumer's list, given what created them *)
Definition good (outs : list oout) (i : N) (cbs : list given_callback) (bs : list callback) : Prop :=
  length bs = length cbs /\ forall k c, nth_error cbs k = Some c -> exists b, nth_error bs k = Some b /\ stands c (calls_of i k outs) = Some b.
Lemma take_good cbs : forall bs, take_callbacks cbs = Ok bs ->
  length bs = length cbs /\ forall k c, nth_error cbs k = Some c -> exists b, nth_error bs k = Some b /\ stands c [] = Some b.
Proof.
  induction cbs as [|c cbs IH]; intros bs E; cbn [take_callbacks] in E.
  - injection E as <-. split; [reflexivity|]. intros [|k] c E; discriminate.
  - destruct (take_callback c) as [b|] eqn:T; [|discriminate]. destruct (take_callbacks cbs) as [bs'|]; [|discriminate]. injection E as <-.
    destruct (IH bs' eq_refl) as [L N]. split; [cbn; now rewrite L|]. intros [|k] c' E.
    + injection E as <-. exists b. split; [reflexivity|]. destruct c as [f|[|[a|] g]]; try discriminate T; injection T as <-; reflexivity.
    + apply N. exact E.
Qed.
Lemma stands_call c ts b t : stands c ts = Some b -> stands c (ts ++ [t]) = Some (after_call t b).
Proof.
  destruct c as [f|[|[a|] g]]; cbn [stands]; try discriminate; intros [= <-]; [reflexivity|]. f_equal. unfold after_call. rewrite app_length. cbn [length].
  rewrite Nat.add_1_r. generalize (length ts) as n. intro n.
  assert (K : forall n (g : list gstep), firstn (S n) g = firstn n g ++ match nth_error g n with Some x => [x] | None => [] end).
  { clear. induction n as [|n IH]; intros [|x g]; cbn; try reflexivity. f_equal. apply IH. }
  assert (J : forall n (g : list gstep), skipn n g = match nth_error g n with Some x => x :: skipn (S n) g | None => [] end).
  { clear. induction n as [|n IH]; intros [|x g]; cbn; try reflexivity. apply IH. }
  rewrite K, existsb_app. destruct (existsb is_raise (firstn n g)); [reflexivity|]. cbn [orb]. rewrite (J n g).
  destruct (nth_error g n) as [[a'|]|] eqn:E; cbn [existsb is_raise orb run_callback snd]; try reflexivity.
  assert (X : skipn (S n) g = []) by (apply skipn_all2; apply nth_error_None in E; lia). now rewrite X.
Qed.
Definition the_calls (i : N) (k : nat) (calls : list (N * nat * Z)) : list Z :=
  flat_map (fun e : N * nat * Z => let '(j, k', t) := e in if N.eqb j i && Nat.eqb k' k then [t] else []) calls.
Lemma the_calls_app i k a b : the_calls i k (a ++ b) = the_calls i k a ++ the_calls i k b.
Proof. apply flat_map_app. Qed.
Lemma all_called_of t i (bs : list callback) k : (k < length bs)%nat -> the_calls i k (all_called t i bs) = [t].
Proof.
  intro L. unfold all_called. assert (X : forall n s, the_calls i k (map (fun k => (i, k, t)) (seq s n)) = if (s <=? k)%nat && (k <? s + n)%nat then [t] else []).
  { induction n as [|n IH]; intro s; cbn [seq map the_calls flat_map].
    - destruct (Nat.leb_spec s k), (Nat.ltb_spec k (s + 0)); cbn; try reflexivity; lia.
    - fold (the_calls i k (map (fun k => (i, k, t)) (seq (S s) n))). rewrite IH, N.eqb_refl. cbn [andb].
      destruct (Nat.eqb_spec s k) as [->|Ne].
      + destruct (Nat.leb_spec (S k) k); [lia|]. cbn [andb app]. destruct (Nat.leb_spec k k); [|lia]. destruct (Nat.ltb_spec k (k + S n)); [|lia]. reflexivity.
      + cbn [app]. destruct (Nat.leb_spec (S s) k), (Nat.leb_spec s k), (Nat.ltb_spec k (S s + n)), (Nat.ltb_spec k (s + S n)); cbn; try reflexivity; lia. }
  rewrite X. destruct (Nat.leb_spec 0 k), (Nat.ltb_spec k (0 + length bs)); try reflexivity; lia.
Qed.
Lemma all_called_other t i j (bs : list callback) k : i <> j -> the_calls i k (all_called t j bs) = [].
Proof.
  intro N. unfold all_called. generalize (seq 0 (length bs)). induction l as [|x l IH]; [reflexivity|]. cbn [map the_calls flat_map].
  destruct (N.eqb_spec j i); [congruence|]. exact IH.
Qed.
Lemma the_calls_none i k clock deadline (l1 : async_list) : forall s, ~ In i (map fst l1) ->
  the_calls i k (flat_map (fun e => all_called (allowed clock deadline (fst e)) (fst (snd e)) (snd (snd e))) (combine s l1)) = [].
Proof.
  induction l1 as [|[j bs] l1 IH]; intros [|x s] N; try reflexivity. cbn [combine flat_map fst snd]. rewrite the_calls_app, IH, app_nil_r.
  - apply all_called_other. intro E. apply N. now left.
  - intro I. apply N. now right.
Qed.
Lemma NoDup_left {A} (a b : list A) : NoDup (a ++ b) -> NoDup a.
Proof.
  induction a as [|x a IH]; intro N; [constructor|]. cbn [app] in N. inversion N as [|? ? N1 N2]; subst. constructor; [|auto]. intro I. apply N1. apply in_or_app. now left.
Qed.
(** One collection *)
Lemma collect_good clock deadline l1 l2 outs p (C : N -> list given_callback -> Prop) : NoDup (map fst (l1 ++ l2)) ->
  (forall i bs, In (i, bs) (l1 ++ l2) -> exists cbs, C i cbs /\ good outs i cbs bs) ->
  forall s, (length l1 <= length s)%nat ->
  let calls := flat_map (fun e => all_called (allowed clock deadline (fst e)) (fst (snd e)) (snd (snd e))) (combine s l1) in
  forall i bs, In (i, bs) (map (fun e => (fst (snd e), map (after_call (allowed clock deadline (fst e))) (snd (snd e)))) (combine s l1) ++ l2) ->
  exists cbs, C i cbs /\ good (outs ++ [OCollected p calls]) i cbs bs.
Proof.
  intros ND G s Ls calls i bs I.
  assert (CO : forall k, calls_of i k (outs ++ [OCollected p calls]) = calls_of i k outs ++ the_calls i k calls).
  { intro k. rewrite calls_of_app. f_equal. cbn. apply app_nil_r. }
  apply in_app_or in I as [I|I].
  - assert (X : exists t bs0, In (i, bs0) l1 /\ bs = map (after_call t) bs0 /\ forall k, (k < length bs0)%nat -> the_calls i k calls = [t]).
    { clear CO G. unfold calls. clear calls. rewrite map_app in ND. apply NoDup_left in ND. revert s Ls I. induction l1 as [|[j cs] l1 IH]; intros s Ls I; [destruct s; destruct I|]. destruct s as [|x s]; [cbn in Ls; lia|]. destruct I as [H|H].
      - cbn [combine map fst snd] in H. injection H as -> <-. exists (allowed clock deadline x), cs. split; [now left|]. split; [reflexivity|]. intros k K. cbn [combine flat_map fst snd].
        inversion ND as [|? ? N1 _]; subst. rewrite the_calls_app, all_called_of, the_calls_none; auto.
      - inversion ND as [|? ? N1 ND']; subst. destruct (IH ND' s ltac:(cbn in Ls; lia) H) as (t & bs0 & I0 & -> & Y). exists t, bs0. split; [now right|]. split; [reflexivity|].
        intros k K. cbn [combine flat_map fst snd]. rewrite the_calls_app, all_called_other; [now apply Y|].
        intro E. subst j. apply N1. apply (in_map fst) in I0. exact I0. }
    destruct X as (t & bs0 & I0 & -> & X). destruct (G i bs0 (in_or_app _ _ _ (or_introl I0))) as (cbs & HC & L & B). exists cbs. split; [exact HC|]. split; [now rewrite map_length|].
    intros k c E. destruct (B k c E) as (b & Eb & St). exists (after_call t b). split; [now apply map_nth_error|]. rewrite CO, X.
    + now apply stands_call.
    + apply nth_error_Some. congruence.
  - destruct (G i bs (in_or_app _ _ _ (or_intror I))) as (cbs & HC & L & B). exists cbs. split; [exact HC|]. split; [exact L|]. intros k c E. destruct (B k c E) as (b & Eb & St). exists b. split; [exact Eb|].
    rewrite CO. unfold calls. rewrite the_calls_none; [now rewrite app_nil_r|]. intro I1. rewrite map_app in ND.
    clear - ND I I1. apply (in_map fst) in I. cbn in I. induction l1 as [|y l1 IH]; [destruct I1|]. cbn [map app] in ND. inversion ND as [|? ? N1 ND']; subst. destruct I1 as [<-|I1]; [|auto].
    apply N1. apply in_or_app. now right.
Qed.

(** ** Runs *)
Definition OInv (next : N) (l : list oop) (outs : list oout) (s : ostate) : Prop :=
  NoDup (map fst (os_async s))
  /\ (forall i, In i (map fst (os_async s)) -> (i < os_next s)%N)
  /\ (forall i bs, In (i, bs) (os_async s) -> exists cbs, created_by l outs i cbs /\ good outs i cbs bs)
  /\ (forall i, In (OInstrument i) outs -> In i (map fst (os_async s)))
  /\ (forall id i, dget id (os_instrs s) = Some i -> In (OInstrument i) outs)
  /\ (forall p calls j k t, In (OCollected p calls) outs -> In (j, k, t) calls -> In j (map fst (os_async s))).
Lemma created_more l outs i cbs o out : length outs = length l -> created_by l outs i cbs -> created_by (l ++ [o]) (outs ++ [out]) i cbs.
Proof.
  intros L (n & c & A & B & D). assert (Ln : (n < length l)%nat) by (apply nth_error_Some; congruence).
  exists n, c. rewrite !nth_error_app1 by lia. split; [exact A|]. split; [exact B|]. rewrite firstn_app. replace (n - length outs)%nat with O by lia. cbn [firstn]. now rewrite app_nil_r.
Qed.
Lemma good_more outs i cbs bs out : (forall k, calls_of i k [out] = []) -> good outs i cbs bs -> good (outs ++ [out]) i cbs bs.
Proof.
  intros N [L B]. split; [exact L|]. intros k c E. destruct (B k c E) as (b & Eb & S). exists b. split; [exact Eb|]. now rewrite calls_of_app, N, app_nil_r.
Qed.
Lemma orun_inv next l : Forall ostep_ok l -> OInv next l (snd (orun (ostart next) l)) (fst (orun (ostart next) l)).
Proof.
  induction l as [|o l IH] using rev_ind; intro F.
  { split; [constructor|]. split; [intros i []|]. split; [intros i bs []|]. split; [intros i []|]. split; [discriminate|]. intros p calls j k t []. }
  apply Forall_app in F as [F Fo]. inversion Fo as [|? ? Oo _]; subst. specialize (IH F). rewrite orun_snoc.
  pose proof (outs_length (ostart next) l) as LN. destruct (orun (ostart next) l) as [s outs]. cbn [fst snd] in *.
  destruct IH as (ND & LT & CR & OU & DI & CA).
  assert (QUIET : forall s' out, os_async s' = os_async s -> os_next s' = os_next s -> os_instrs s' = os_instrs s -> (forall i k, calls_of i k [out] = []) ->
     (forall i, out = OInstrument i -> In (OInstrument i) outs) -> (forall p calls, out <> OCollected p calls) -> OInv next (l ++ [o]) (outs ++ [out]) s').
  { intros s' out E1 E2 E3 Nc No Np. split; [now rewrite E1|]. split; [rewrite E1, E2; exact LT|]. split; [|split; [|split]].
    - intros i bs I. rewrite E1 in I. destruct (CR i bs I) as (cbs & A & B). exists cbs. split; [now apply created_more|]. apply good_more; auto.
    - intros i I. rewrite E1. apply in_app_or in I as [I|[E|[]]]; [now apply OU|]. apply OU. now apply No.
    - intros id i E. rewrite E3 in E. apply in_or_app. left. eapply DI. exact E.
    - intros p calls j k t I. rewrite E1. apply in_app_or in I as [I|[E|[]]]; [eapply CA; exact I|]. exfalso. eapply Np. exact E. }
  destruct o as [c cbs|i attrs amount now|r clock start timeout now]; cbn [ostep].
  - unfold ocreate. destruct (existsb (str_eqb (instrument_id c)) (os_ids s)).
    + destruct (dget (instrument_id c) (os_instrs s)) as [i|] eqn:E; apply QUIET; auto; try discriminate. intros j [= <-]. eapply DI. exact E.
    + destruct (negb (acceptable c)); [apply QUIET; auto; discriminate|]. destruct (take_callbacks cbs) as [bs|e] eqn:T; [|apply QUIET; auto; discriminate]. cbn [fst snd].
      assert (NI : ~ In (os_next s) (map fst (os_async s))) by (intro I; apply LT in I; lia).
      split; [|split; [|split; [|split; [|split]]]]; cbn [os_async os_next os_instrs].
      * rewrite map_app. cbn [map fst]. apply NoDup_rev in ND. rewrite <- (rev_involutive (map fst (os_async s) ++ [os_next s])). apply NoDup_rev. rewrite rev_app_distr. cbn [rev app].
        constructor; [|exact ND]. now rewrite <- in_rev.
      * intros i I. rewrite map_app in I. apply in_app_or in I as [I|[<-|[]]]; [apply LT in I|]; cbn; lia.
      * intros i bs' I. apply in_app_or in I as [I|[[= <- <-]|[]]].
        -- destruct (CR i bs' I) as (cbs' & A & B). exists cbs'. split; [now apply created_more|]. apply good_more; auto.
        -- exists cbs. split.
           ++ exists (length l), c. rewrite nth_error_app2 by lia. rewrite Nat.sub_diag. split; [reflexivity|]. rewrite nth_error_app2 by lia. rewrite LN, Nat.sub_diag. split; [reflexivity|].
              rewrite firstn_app, LN, Nat.sub_diag. cbn [firstn]. rewrite app_nil_r, <- LN, firstn_all. intro I. apply NI. now apply OU.
           ++ destruct (take_good cbs bs T) as [L B]. split; [exact L|]. intros k c' E. destruct (B k c' E) as (b & Eb & S). exists b. split; [exact Eb|].
              replace (calls_of (os_next s) k (outs ++ [OInstrument (os_next s)])) with (@nil Z); [exact S|]. symmetry. rewrite calls_of_app. cbn. rewrite app_nil_r.
              unfold calls_of. assert (H : forall out, In out outs -> match out with OCollected _ calls => forall j k' t, In (j, k', t) calls -> In j (map fst (os_async s)) | _ => True end).
              { intros [| | |p calls] I; auto. intros j k' t. eapply CA. exact I. }
              clear - NI H. induction outs as [|out outs IH]; [reflexivity|]. cbn [flat_map]. rewrite IH by (intros o I; apply H; now right). rewrite app_nil_r.
              specialize (H out (or_introl eq_refl)). destruct out as [| | |p calls]; try reflexivity. induction calls as [|[[j k'] t] calls IHc]; [reflexivity|]. cbn [flat_map].
              destruct (N.eqb_spec j (os_next s)) as [->|]; [exfalso; apply NI; eapply H; now left|]. cbn [andb app]. apply IHc. intros; eapply H; right; eassumption.
      * intros i I. rewrite map_app. apply in_or_app. apply in_app_or in I as [I|[[= <-]|[]]]; [left; now apply OU|right; now left].
      * intros id i E. apply in_or_app. destruct (str_eqb (instrument_id c) id) eqn:Ei.
        -- apply str_eqb_eq in Ei. subst id. rewrite dget_dset_eq in E. injection E as <-. right. now left.
        -- left. apply (DI id). rewrite dget_dset_ne in E; [exact E|]. intros ->. rewrite str_eqb_refl in Ei. discriminate.
      * intros p calls j k t I. rewrite map_app. intro J. apply in_or_app. left. apply in_app_or in I as [I|[E|[]]]; [|discriminate]. eapply CA; eassumption.
  - apply QUIET; auto; discriminate.
  - destruct (call_spec (start + timeout) (os_async s) clock DEFAULT_TIMEOUT Oo (or_introl eq_refl)) as (l1 & l2 & E & _ & C & _). unfold observe_all. rewrite C. cbn [fst snd].
    set (new := map _ (numbered l1) ++ l2). set (calls := flat_map _ (numbered l1)).
    assert (FN : map fst new = map fst (os_async s)).
    { unfold new. rewrite E, !map_app, map_map. cbn [fst]. f_equal. unfold numbered. rewrite <- (map_map snd fst). f_equal.
      clear. assert (X : forall (m : async_list) n, map snd (combine (seq n (length m)) m) = m) by (induction m as [|x m IH]; intro n; cbn; [reflexivity|now rewrite IH]). apply X. }
    split; [|split; [|split; [|split; [|split]]]]; cbn [os_async os_next os_instrs].
    + now rewrite FN.
    + rewrite FN. exact LT.
    + intros i bs I. destruct (collect_good clock (start + timeout) l1 l2 outs (PCollect r (flat_map (fun e => cbs_observe (allowed clock (start + timeout) (fst e)) (fst (snd e)) (snd (snd e))) (numbered l1)) (match l2 with [] => false | _ => true end) now) (created_by l outs)) with (s := seq 0 (length l1)) (i := i) (bs := bs) as (cbs & A & B).
      * now rewrite <- E.
      * intros j bs'. rewrite <- E. apply CR.
      * now rewrite seq_length.
      * exact I.
      * exists cbs. split; [now apply created_more|exact B].
    + intros i I. rewrite FN. apply in_app_or in I as [I|[X|[]]]; [now apply OU|discriminate].
    + intros id i X. apply in_or_app. left. eapply DI. exact X.
    + intros p cs j k t I J. rewrite FN. apply in_app_or in I as [I|[X|[]]]; [eapply CA; eassumption|]. injection X as <- <-.
      unfold calls in J. apply in_flat_map in J as ([n [i bs]] & I1 & I2). cbn [fst snd] in I2. unfold all_called in I2. apply in_map_iff in I2 as (x & [= <- _ _] & _).
      rewrite E, map_app. apply in_or_app. left. unfold numbered in I1. apply in_combine_r in I1. apply (in_map fst) in I1. exact I1.
Qed.

Lemma stands_observes c past b t : stands c past = Some b -> cb_observes t b = observes c past t.
Proof.
  destruct c as [f|[|[a|] g]]; cbn [stands]; try discriminate; intros [= <-]; [reflexivity|]. cbn [observes firstn existsb is_raise orb nth_error].
  generalize (length past) as n. intro n. destruct (existsb is_raise (firstn n g)); [reflexivity|].
  revert g. induction n as [|n IH]; intros [|x g]; try reflexivity. apply IH.
Qed.
Lemma numbered_flat {A B C} (f : nat * A -> list C) (g : B -> list C) : forall (l : list A) (l' : list B) s,
  length l' = length l -> (forall k x, nth_error l k = Some x -> exists y, nth_error l' k = Some y /\ g y = f (s + k, x)%nat) ->
  flat_map g l' = flat_map f (combine (seq s (length l)) l).
Proof.
  induction l as [|x l IH]; intros [|y l'] s L H; try discriminate L; [reflexivity|]. cbn [length seq combine flat_map]. f_equal.
  - destruct (H O x eq_refl) as (y' & E & Q). injection E as <-. now rewrite Nat.add_0_r in Q.
  - apply IH; [now injection L|]. intros k z E. destruct (H (S k) z E) as (y' & E' & Q). exists y'. split; [exact E'|]. now rewrite Nat.add_succ_r in Q.
Qed.
Lemma good_observe outs i cbs bs t : good outs i cbs bs -> cbs_observe t i bs = all_observe outs t i cbs.
Proof.
  intros [L G]. unfold cbs_observe, all_observe, numbered. apply numbered_flat; [exact L|]. intros k c E. destruct (G k c E) as (b & Eb & St).
  exists b. split; [exact Eb|]. cbn [fst snd plus]. now rewrite (stands_observes _ _ _ t St).
Qed.
Lemma first_seen_snoc outs o : first_seen (outs ++ [o]) =
  match o with OInstrument i => if existsb (N.eqb i) (first_seen outs) then first_seen outs else first_seen outs ++ [i] | _ => first_seen outs end.
Proof. unfold first_seen. rewrite fold_left_app. reflexivity. Qed.
Lemma orun_first_seen next l : Forall ostep_ok l -> map fst (os_async (fst (orun (ostart next) l))) = first_seen (snd (orun (ostart next) l)).
Proof.
  induction l as [|o l IH] using rev_ind; intro F; [reflexivity|]. apply Forall_app in F as [F Fo]. inversion Fo as [|? ? Oo _]; subst.
  specialize (IH F). pose proof (orun_inv next l F) as I. rewrite orun_snoc.
  destruct (orun (ostart next) l) as [s outs]. cbn [fst snd] in *. destruct I as (ND & LT & CR & OU & DI & CA).
  destruct o as [c cbs|i attrs amount now|r clock start timeout now]; cbn [ostep].
  - unfold ocreate. destruct (existsb (str_eqb (instrument_id c)) (os_ids s)).
    { destruct (dget (instrument_id c) (os_instrs s)) as [i|] eqn:E; cbn [fst snd]; rewrite first_seen_snoc; [|exact IH].
      assert (X : existsb (N.eqb i) (first_seen outs) = true).
      { apply existsb_exists. exists i. split; [|apply N.eqb_refl]. rewrite <- IH. apply OU. eapply DI. exact E. }
      rewrite X. exact IH. }
    destruct (negb (acceptable c)); [cbn [fst snd os_async]; rewrite first_seen_snoc; exact IH|].
    destruct (take_callbacks cbs) as [bs|e]; cbn [fst snd os_async]; rewrite first_seen_snoc; [|exact IH].
    assert (X : existsb (N.eqb (os_next s)) (first_seen outs) = false).
    { destruct (existsb (N.eqb (os_next s)) (first_seen outs)) eqn:E; [|reflexivity]. apply existsb_exists in E as (x & Ix & Ex).
      apply N.eqb_eq in Ex. subst x. rewrite <- IH in Ix. apply LT in Ix. lia. }
    rewrite X, map_app, IH. reflexivity.
  - cbn [fst snd]. rewrite first_seen_snoc. exact IH.
  - cbn [ostep_ok] in Oo. unfold observe_all.
    destruct (call_spec (start + timeout) (os_async s) clock DEFAULT_TIMEOUT Oo (or_introl eq_refl)) as (l1 & l2 & E & _ & R & _).
    rewrite R. cbn [fst snd os_async]. rewrite first_seen_snoc, <- IH, E, !map_app. f_equal. clear. unfold numbered. generalize 0%nat.
    induction l1 as [|x l1 IH]; intro n; [reflexivity|]. cbn [length seq combine map fst snd]. now rewrite IH.
Qed.
Lemma flat_numbered_map {A B C} (f : nat -> A -> list C) (g : nat -> B -> list C) : forall (l : list A) (l' : list B) s,
  Forall2 (fun x y => forall k, f k x = g k y) l l' ->
  flat_map (fun e => f (fst e) (snd e)) (combine (seq s (length l)) l) = flat_map (fun e => g (fst e) (snd e)) (combine (seq s (length l')) l').
Proof.
  intros l l' s H. revert s. induction H as [|x y l l' E H IH]; intro s; [reflexivity|]. cbn [length seq combine flat_map fst snd]. now rewrite E, IH.
Qed.

(** One collection after any program *)
Theorem collection next l r clock start timeout now :
  Forall ostep_ok l -> nondecreasing_clock clock ->
  exists ks1 ks2,
    map fst (ks1 ++ ks2) = first_seen (snd (orun (ostart next) l))
    /\ Forall (fun k => created_by l (snd (orun (ostart next) l)) (fst k) (snd k)) (ks1 ++ ks2)
    /\ (forall k, (k < length ks1)%nat -> snd (clock k) < start + timeout)
    /\ (ks2 <> [] -> start + timeout <= snd (clock (length ks1)))
    /\ snd (orun (ostart next) (l ++ [OCollect r clock start timeout now]))
       = snd (orun (ostart next) l) ++
         [OCollected (PCollect r (flat_map (fun e => all_observe (snd (orun (ostart next) l)) (allowed clock (start + timeout) (fst e)) (fst (snd e)) (snd (snd e))) (numbered ks1))
                               (match ks2 with [] => false | _ => true end) now)
                     (flat_map (fun e => all_called (allowed clock (start + timeout) (fst e)) (fst (snd e)) (snd (snd e))) (numbered ks1))].
Proof.
  intros F ND. pose proof (orun_inv next l F) as I. pose proof (orun_first_seen next l F) as FS. rewrite orun_snoc.
  destruct (orun (ostart next) l) as [s outs]. cbn [fst snd] in *. destruct I as (_ & _ & CR & _ & _ & _). cbn [ostep]. unfold observe_all.
  destruct (call_spec (start + timeout) (os_async s) clock DEFAULT_TIMEOUT ND (or_introl eq_refl)) as (l1 & l2 & E & T & R & T2).
  rewrite R. cbn [snd].
  assert (X : exists ks, Forall2 (fun (k : N * list given_callback) (e : N * list callback) => fst k = fst e /\ created_by l outs (fst k) (snd k) /\ good outs (fst e) (snd k) (snd e)) ks (os_async s)).
  { clear -CR. induction (os_async s) as [|[i bs] a IH]; [exists []; constructor|]. destruct IH as (ks & K); [intros; apply CR; now right|].
    destruct (CR i bs (or_introl eq_refl)) as (cbs & A & B). exists ((i, cbs) :: ks). constructor; auto. }
  destruct X as (ks & K). rewrite E in K. apply Forall2_app_inv_r in K as (ks1 & ks2 & K1 & K2 & ->).
  assert (L1 : length ks1 = length l1) by (clear -K1; induction K1; cbn; congruence).
  exists ks1, ks2. split; [|split; [|split; [|split]]].
  - rewrite <- FS, E, !map_app. f_equal; [clear -K1; induction K1 as [|? ? ? ? (A & _) _ IH]|clear -K2; induction K2 as [|? ? ? ? (A & _) _ IH]]; cbn; congruence.
  - apply Forall_app. split; [clear -K1; induction K1 as [|? ? ? ? (_ & A & _) _ IH]|clear -K2; induction K2 as [|? ? ? ? (_ & A & _) _ IH]]; constructor; auto.
  - rewrite L1. exact T.
  - rewrite L1. intro N. apply T2. intros ->. inversion K2; subst. congruence.
  - assert (X1 : flat_map (fun e => cbs_observe (allowed clock (start + timeout) (fst e)) (fst (snd e)) (snd (snd e))) (numbered l1)
               = flat_map (fun e => all_observe outs (allowed clock (start + timeout) (fst e)) (fst (snd e)) (snd (snd e))) (numbered ks1)).
    { symmetry. apply (flat_numbered_map (fun k (e : N * list given_callback) => all_observe outs (allowed clock (start + timeout) k) (fst e) (snd e))
               (fun k (e : N * list callback) => cbs_observe (allowed clock (start + timeout) k) (fst e) (snd e))).
      clear -K1. induction K1 as [|x y ks l1 (A & _ & G) _ IH]; constructor; [|exact IH]. intro k. rewrite A. symmetry. apply good_observe. exact G. }
    assert (X2 : flat_map (fun e => all_called (allowed clock (start + timeout) (fst e)) (fst (snd e)) (snd (snd e))) (numbered l1)
               = flat_map (fun e => all_called (allowed clock (start + timeout) (fst e)) (fst (snd e)) (snd (snd e))) (numbered ks1)).
    { symmetry. apply (flat_numbered_map (fun k (e : N * list given_callback) => all_called (allowed clock (start + timeout) k) (fst e) (snd e))
               (fun k (e : N * list callback) => all_called (allowed clock (start + timeout) k) (fst e) (snd e))).
      clear -K1. induction K1 as [|x y ks l1 (A & _ & [G _]) _ IH]; constructor; [|exact IH]. intro k. unfold all_called. now rewrite A, G. }
    assert (X3 : match l2 with [] => false | _ => true end = match ks2 with [] => false | _ => true end) by (inversion K2; reflexivity).
    now rewrite X1, X2, X3.
Qed.
