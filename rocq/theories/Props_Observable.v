(** C106: which callbacks of observable instruments are called, with what, and what becomes of what they observe. *)
From Verif Require Import Proof_Observable Spec_Observable.
From Coq Require Import Lia.
Local Open Scope Z_scope.

(** After any program, a collection goes through the instruments in the order in which the program got them.  As long as the
    deadline has not passed when an instrument's turn comes (the clock is not read after the last one's callbacks), all the
    callbacks given when it was created are called, once each and in order, with what is left of the time, at most ten
    seconds; exactly what they observe, up to an exception in each, is taken.  The first instrument whose turn comes too late
    ends the collection: it and those after it are not called. *)
Theorem C106_collection : forall next l r clock start timeout now,
  Forall ostep_ok l -> nondecreasing_clock clock ->
  let outs := snd (orun (ostart next) l) in
  let deadline := start + timeout in
  exists ks1 ks2,
    map fst (ks1 ++ ks2) = first_seen outs
    /\ Forall (fun k => created_by l outs (fst k) (snd k)) (ks1 ++ ks2)
    /\ (forall k, (k < length ks1)%nat -> snd (clock k) < deadline)
    /\ (ks2 <> [] -> deadline <= snd (clock (length ks1)))
    /\ snd (orun (ostart next) (l ++ [OCollect r clock start timeout now]))
       = outs ++
         [OCollected
            (PCollect r (flat_map (fun e => all_observe outs (allowed clock deadline (fst e)) (fst (snd e)) (snd (snd e))) (numbered ks1))
                      (match ks2 with [] => false | _ => true end) now)
            (flat_map (fun e => all_called (allowed clock deadline (fst e)) (fst (snd e)) (snd (snd e))) (numbered ks1))].
Proof. intros. apply collection; assumption. Qed.
Print Assumptions C106_collection.

(** The case: a function that fails after one observation and knows how often it was called, then a function that observes, a
    generator; two instruments; the second collection comes to its deadline before the second instrument. *)
Definition ob_f : list Z -> answer := fun past => Answer [(None, Z.of_nat (length past))] true.
Definition ob_g : list gstep := [GYields (Answer [(None, 99)] false); GYields (Answer [(None, 7)] false); GRaises; GYields (Answer [(None, 8)] false)].
Definition ob_c (n : string) : ccall := CC IObservableCounter (lit n) [] [] None.
Definition ob_ops : list oop :=
  [OCreate (ob_c "a") [FunctionCallback ob_f; FunctionCallback (fun _ => Answer [(None, 5)] false)]; OCreate (ob_c "b") [GeneratorCallback ob_g];
   OCreate (ob_c "a") [FunctionCallback (fun _ => Answer [(None, 1000)] false)];
   OCollect 0 (fun k => (Z.of_nat k, Z.of_nat k)) 0 20000000000 5;
   OCollect 0 (fun k => (Z.of_nat k * 100, Z.of_nat k * 100)) 0 100 6;
   OCollect 0 (fun k => (Z.of_nat k, Z.of_nat k)) 0 500 7;
   OCollect 0 (fun k => (Z.of_nat k, Z.of_nat k)) 0 500 8].
Example C106_case :
  snd (orun (ostart 3) ob_ops)
  = [OInstrument 3; OInstrument 4; OInstrument 3;
     OCollected (PCollect 0 [(3%N, None, 1); (3%N, None, 5); (4%N, None, 7)] false 5)
                [(3%N, 0%nat, 10000000000); (3%N, 1%nat, 10000000000); (4%N, 0%nat, 10000000000)];
     OCollected (PCollect 0 [(3%N, None, 2); (3%N, None, 5)] true 6) [(3%N, 0%nat, 100); (3%N, 1%nat, 100)];
     OCollected (PCollect 0 [(3%N, None, 3); (3%N, None, 5)] false 7) [(3%N, 0%nat, 500); (3%N, 1%nat, 500); (4%N, 0%nat, 499)];
     OCollected (PCollect 0 [(3%N, None, 4); (3%N, None, 5)] false 8) [(3%N, 0%nat, 500); (3%N, 1%nat, 500); (4%N, 0%nat, 499)]]
  /\ Forall ostep_ok ob_ops.
Proof. split; [vm_compute; reflexivity|]. repeat (apply Forall_cons || apply Forall_nil); try exact I; intro k; cbn [fst]; lia. Qed.

(** A callback that fails does not keep the others from being called: what a collection takes does not depend on whether an
    answer ends with an exception. *)
Theorem C106_failures_apart : forall next l, snd (orun (ostart next) (map mend l)) = snd (orun (ostart next) l).
Proof.
  set (ma := fun a => Answer (an_obs a) false).
  set (mb := fun b => match b with CbFun f past => CbFun (fun past => ma (f past)) past
                                 | CbGen g => CbGen (map (fun s => match s with GYields a => GYields (ma a) | GRaises => GRaises end) g) end).
  set (ml := map (fun e : N * list callback => (fst e, map mb (snd e)))).
  assert (RB : forall t b, an_obs (fst (run_callback t (mb b))) = an_obs (fst (run_callback t b)) /\ snd (run_callback t (mb b)) = mb (snd (run_callback t b))).
  { intros t [f past|[|[a|] g]]; split; reflexivity. }
  assert (RS : forall t bs, fst (fst (run_callbacks t (map mb bs))) = fst (fst (run_callbacks t bs)) /\ snd (fst (run_callbacks t (map mb bs))) = map mb (snd (fst (run_callbacks t bs)))).
  { intros t bs. induction bs as [|b bs [I1 I2]]; [split; reflexivity|]. cbn [map run_callbacks]. destruct (RB t b) as [R1 R2].
    destruct (run_callback t b) as [a b'], (run_callback t (mb b)) as [a2 b2'], (run_callbacks t bs) as [[o bs'] n], (run_callbacks t (map mb bs)) as [[o2 bs2'] n2].
    cbn [fst snd] in *. rewrite R1, R2, I1, I2. split; reflexivity. }
  assert (CI : forall l clock d o, call_instruments clock d o (ml l) = let '(obs, t, l', calls) := call_instruments clock d o l in (obs, t, ml l', calls)).
  { induction l as [|[i bs] l IH]; intros clock d o; [reflexivity|]. cbn [ml map call_instruments fst snd]. fold (ml l).
    destruct (d <=? snd (clock O)); [reflexivity|]. destruct (RS (if d - fst (clock O) <? DEFAULT_TIMEOUT then d - fst (clock O) else o) bs) as [R1 R2].
    destruct (run_callbacks _ (map mb bs)) as [[o2 bs2] n2], (run_callbacks _ bs) as [[o1 bs1] n1]. cbn [fst snd] in *. subst o2 bs2.
    rewrite IH. destruct (call_instruments _ d _ l) as [[[ob t] l'] calls]. rewrite map_length. reflexivity. }
  assert (TC : forall cbs, take_callbacks (map mended cbs) = match take_callbacks cbs with Ok bs => Ok (map mb bs) | Raises e => Raises e end).
  { induction cbs as [|c cbs IH]; [reflexivity|]. cbn [map take_callbacks]. rewrite IH. destruct c as [f|[|[a|] g]]; cbn; try reflexivity; destruct (take_callbacks cbs); reflexivity. }
  intros next l.
  assert (H : orun (ostart next) (map mend l) = let (s, outs) := orun (ostart next) l in (OSt (os_ids s) (os_instrs s) (ml (os_async s)) (os_next s), outs)).
  { induction l as [|o l IH] using rev_ind; [reflexivity|]. rewrite map_app. cbn [map]. rewrite !orun_snoc, IH. destruct (orun (ostart next) l) as [s outs]. cbn [fst snd].
    destruct o as [c cbs|i a z n|r clock start timeout now]; cbn [mend ostep].
    - unfold ocreate. cbn [os_ids os_instrs os_async os_next]. destruct (existsb (str_eqb (instrument_id c)) (os_ids s)); [reflexivity|].
      destruct (negb (acceptable c)); [reflexivity|]. rewrite TC. destruct (take_callbacks cbs); [|reflexivity]. cbn [os_ids os_instrs os_async os_next]. unfold ml. rewrite map_app. reflexivity.
    - reflexivity.
    - unfold observe_all. cbn [os_ids os_instrs os_async os_next]. rewrite CI. destruct (call_instruments clock (start + timeout) DEFAULT_TIMEOUT (os_async s)) as [[[ob t] l'] calls]. reflexivity. }
  rewrite H. destruct (orun (ostart next) l). reflexivity.
Qed.
Print Assumptions C106_failures_apart.
Example C106_failures_apart_case : map mend ob_ops <> ob_ops /\ snd (orun (ostart 3) (map mend ob_ops)) = snd (orun (ostart 3) ob_ops).
Proof.
  split; [|vm_compute; reflexivity]. intro E.
  apply (f_equal (fun l => match l with OCreate _ (FunctionCallback f :: _) :: _ => an_raises (f []) | _ => true end)) in E. discriminate E.
Qed.

(** Callbacks given with the second creation of an instrument are never called, though the call succeeds. *)
Theorem C106_second_creation_refuted : exists c f, forall next l,
  Forall (fun o => match o with OCreate _ _ => False | _ => True end) l ->
  let outs := snd (orun (ostart next) ([OCreate c []; OCreate c [FunctionCallback f]] ++ l)) in
  nth_error outs 1 = Some (OInstrument next) /\ forall p calls, In (OCollected p calls) outs -> calls = [].
Proof.
  exists (ob_c "a"), (fun _ => Answer [(None, 1)] false). intros next l H. unfold orun. rewrite fold_left_app.
  set (s0 := OSt [instrument_id (ob_c "a")] [(instrument_id (ob_c "a"), next)] [(next, [])] (next + 1)).
  assert (E : fold_left (fun st o => let (s', out) := ostep (fst st) o in (s', snd st ++ [out])) [OCreate (ob_c "a") []; OCreate (ob_c "a") [FunctionCallback (fun _ => Answer [(None, 1)] false)]] (ostart next, [])
              = (s0, [OInstrument next; OInstrument next])).
  { cbn [fold_left fst snd app]. unfold ostep at 2, ocreate. cbn [os_ids ostart existsb]. replace (negb (acceptable (ob_c "a"))) with false by (vm_compute; reflexivity).
    cbn [take_callbacks os_ids os_instrs os_async os_next dset app]. unfold ostep, ocreate. cbn [os_ids existsb fst]. replace (str_eqb (instrument_id (ob_c "a")) (instrument_id (ob_c "a"))) with true by (vm_compute; reflexivity). cbn [orb os_instrs]. replace (dget (instrument_id (ob_c "a")) [(instrument_id (ob_c "a"), next)]) with (Some next) by (vm_compute; reflexivity). reflexivity. }
  rewrite E. clear E.
  assert (G : forall l outs, Forall (fun o => match o with OCreate _ _ => False | _ => True end) l ->
     (forall p calls, In (OCollected p calls) outs -> calls = []) -> nth_error outs 1 = Some (OInstrument next) ->
     let r := fold_left (fun st o => let (s', out) := ostep (fst st) o in (s', snd st ++ [out])) l (s0, outs) in
     nth_error (snd r) 1 = Some (OInstrument next) /\ forall p calls, In (OCollected p calls) (snd r) -> calls = []).
  { clear. induction l as [|o l IH]; intros outs F C N; [split; assumption|]. inversion F as [|? ? Fo Fl]; subst. cbn [fold_left fst snd].
    assert (M : forall x : oout, nth_error (outs ++ [x]) 1 = Some (OInstrument next)).
    { intro x. rewrite nth_error_app1; [exact N|]. apply nth_error_Some. congruence. }
    destruct o as [c cbs|i a z n|r clock start timeout now]; [destruct Fo| |].
    - cbn [ostep]. apply IH; auto. intros p calls I. apply in_app_or in I as [I|[I|[]]]; [eauto|discriminate].
    - cbn [ostep s0 os_async observe_all]. unfold observe_all. cbn [call_instruments]. destruct (start + timeout <=? snd (clock O)).
      + apply IH; auto. intros p calls I. apply in_app_or in I as [I|[I|[]]]; [eauto|]. injection I as <- <-. reflexivity.
      + cbn [run_callbacks map length seq app]. apply IH; auto. intros p calls I. apply in_app_or in I as [I|[I|[]]]; [eauto|]. injection I as <- <-. reflexivity. }
  apply G; [exact H| |reflexivity]. intros p calls [I|[I|[]]]; discriminate.
Qed.
Print Assumptions C106_second_creation_refuted.

(** A generator is one for all readers: what one reader is given, the other is not. *)
Theorem C106_each_reader_refuted : exists c g clock,
  nondecreasing_clock clock
  /\ snd (orun (ostart 0) [OCreate c [GeneratorCallback g]; OCollect 0 clock 0 1000 5; OCollect 1 clock 0 1000 5])
     = [OInstrument 0; OCollected (PCollect 0 [(0%N, None, 7)] false 5) [(0%N, 0%nat, 999)]; OCollected (PCollect 1 [] false 5) [(0%N, 0%nat, 999)]].
Proof.
  exists (ob_c "a"), [GYields (Answer [] false); GYields (Answer [(None, 7)] false)], (fun _ => (1, 1)). split; [intro; cbn; lia|]. vm_compute. reflexivity.
Qed.
Print Assumptions C106_each_reader_refuted.

(** A generator that ends before its first yield makes the creation fail, and then so does every further creation of that
    instrument, with proper callbacks too. *)
Theorem C106_creation_refuted : exists c, acceptable c = true /\ forall cbs,
  snd (orun (ostart 0) [OCreate c [GeneratorCallback []]; OCreate c cbs]) = [OError "StopIteration"; OError "KeyError"].
Proof. exists (ob_c "a"). split; [vm_compute; reflexivity|]. intro cbs. vm_compute. reflexivity. Qed.
Print Assumptions C106_creation_refuted.
