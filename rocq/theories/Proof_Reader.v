(** Invariants of the periodic reader, proved over every schedule. *)
From Verif Require Import Model_Proxy Proof_Proxy Model_Reader Spec_Reader.
From Coq Require Import Permutation Lia.

Section P.
Variable M : Type.
Implicit Types (s : rstate M) (tr : list (rev_ M)) (p : rpc M) (b : list M).

(** ** The transitions of one thread *)
Definition fin_pc (w : why) : rpc M := match w with WTick => PWait | WLast => PDead | WCollect => PIdle | WFlush => PExpFlush end.
Definition fin_ev (t : nat) (w : why) : list (rev_ M) := match w with WCollect => [ERet t OpCollect true] | _ => [] end.
Definition thr_pc (w : why) (timeout : bool) : rpc M :=
  match w with WTick => if timeout then PWait else PDead | WLast => PDead | _ => PIdle end.
Definition thr_ev (t : nat) (w : why) : list (rev_ M) := match w with WCollect | WFlush => [ERet t (op_of w) false] | _ => [] end.

Inductive trans s (t : nat) : rpc M -> rpc M -> list (rev_ M) -> list M -> option nat -> bool -> bool -> Prop :=
| TrCall op : trans s t PIdle (match op with OpCollect => PCollect WCollect | OpFlush => PCollect WFlush | OpShutdown => PFast end)
    [ECall t op] (rs_pending s) (rs_lock s) (rs_event s) (rs_done s)
| TrWait : trans s t PWait (PCollect (if rs_event s then WLast else WTick)) [] (rs_pending s) (rs_lock s) (rs_event s) (rs_done s)
| TrUnreg w : rs_reg s = false -> trans s t (PCollect w) (fin_pc w) (fin_ev t w) (rs_pending s) (rs_lock s) (rs_event s) (rs_done s)
| TrNone w : rs_reg s = true -> rs_pending s = [] -> trans s t (PCollect w) (fin_pc w) (fin_ev t w) [] (rs_lock s) (rs_event s) (rs_done s)
| TrSome w obs : rs_reg s = true ->
    trans s t (PCollect w) (PAttach w (rs_pending s ++ obs)) (map ERec obs) [] (rs_lock s) (rs_event s) (rs_done s)
| TrTimeout w obs : rs_reg s = true -> trans s t (PCollect w) (thr_pc w true) (map ERec obs ++ ETimeout t :: thr_ev t w)
    (rs_pending s ++ obs) (rs_lock s) (rs_event s) (rs_done s)
| TrRaise w obs : rs_reg s = true -> trans s t (PCollect w) (thr_pc w false)
    (map ERec obs ++ EBroken t (rs_pending s ++ obs) :: thr_ev t w) [] (rs_lock s) (rs_event s) (rs_done s)
| TrAttach w b : trans s t (PAttach w b) (PLock w b) [] (rs_pending s) (rs_lock s) (rs_event s) (rs_done s)
| TrLock w b : rs_lock s = None ->
    trans s t (PLock w b) (PExport w b) [EXBegin t b (get_sup t s)] (rs_pending s) (Some t) (rs_event s) (rs_done s)
| TrExport w b r : r <> XBase ->
    trans s t (PExport w b) (PDetach w) [EXEnd t b r] (rs_pending s) None (rs_event s) (rs_done s)
| TrBase w b : trans s t (PExport w b) (thr_pc w false) (EXEnd t b XBase :: thr_ev t w) (rs_pending s) None (rs_event s) (rs_done s)
| TrDetach w : trans s t (PDetach w) (fin_pc w) (fin_ev t w) (rs_pending s) (rs_lock s) (rs_event s) (rs_done s)
| TrExpFlush r : trans s t PExpFlush PIdle [EXFlush t; ERet t OpFlush r] (rs_pending s) (rs_lock s) (rs_event s) (rs_done s)
| TrFast : rs_done s = false -> trans s t PFast POnce [] (rs_pending s) (rs_lock s) (rs_event s) (rs_done s)
| TrFastDone : rs_done s = true -> trans s t PFast PIdle [ERet t OpShutdown true] (rs_pending s) (rs_lock s) (rs_event s) (rs_done s)
| TrOnceDone : rs_done s = true -> trans s t POnce PIdle [ERet t OpShutdown true] (rs_pending s) (rs_lock s) (rs_event s) (rs_done s)
| TrOnce : rs_done s = false -> trans s t POnce PSet [] (rs_pending s) (rs_lock s) (rs_event s) true
| TrSet : trans s t PSet PJoin [] (rs_pending s) (rs_lock s) true (rs_done s)
| TrJoin : get_pc 0 s = PDead -> trans s t PJoin PExpShut [] (rs_pending s) (rs_lock s) (rs_event s) (rs_done s)
| TrLate : trans s t PJoin PExpShut [ELate t] (rs_pending s) (rs_lock s) (rs_event s) (rs_done s)
| TrExpShut r : trans s t PExpShut PIdle [EXShut t; ERet t OpShutdown r] (rs_pending s) (rs_lock s) (rs_event s) (rs_done s).

(** The context of the thread in a transition: attached when it takes its batch to the lock, restored afterwards. *)
Definition ctx_step (p : rpc M) (th : thread M) : bool * bool :=
  match p with
  | PAttach _ _ => (true, th_sup th)
  | PDetach _ => (th_tok th, th_tok th)
  | _ => (th_sup th, th_tok th)
  end.

Lemma upd_ext : forall {A} (l : list A) i f g, (forall x, nth_error l i = Some x -> f x = g x) -> upd_nth i f l = upd_nth i g l.
Proof.
  induction l as [|x l IH]; intros [|i] f g H; cbn [upd_nth]; try reflexivity.
  - f_equal. apply H. reflexivity.
  - f_equal. apply IH. intros y Hy. apply H. exact Hy.
Qed.
Lemma upd_upd : forall {A} (l : list A) i f g, upd_nth i f (upd_nth i g l) = upd_nth i (fun x => f (g x)) l.
Proof. induction l as [|x l IH]; intros [|i] f g; cbn [upd_nth]; try reflexivity. now rewrite IH. Qed.

Definition next s (t : nat) (th : thread M) p' evs pend lock ev dn : rstate M :=
  RS (rs_reg s) pend lock ev dn
     (upd_nth t (fun _ => Th p' (fst (ctx_step (th_pc th) th)) (snd (ctx_step (th_pc th) th))) (rs_threads s)) (rs_trace s ++ evs).

Ltac fin_next := unfold next, finish, throw, emit, goto, set_pending, set_lock, set_ctx; cbn; rewrite ?upd_upd; f_equal; rewrite ?upd_upd; rewrite ?app_nil_r, <- ?app_assoc; try reflexivity;
  try (apply upd_ext; intros ? Hx; match goal with H : nth_error _ _ = Some _ |- _ => rewrite H in Hx; injection Hx as <-; cbn; congruence end).

Lemma run_trans : forall s t c th, nth_error (rs_threads s) t = Some th ->
  run t c s = s \/ exists p' evs pend lock ev dn, trans s t (th_pc th) p' evs pend lock ev dn /\
    run t c s = next s t th p' evs pend lock ev dn.
Proof.
  intros s t c th H. unfold run. assert (E : get_pc t s = th_pc th) by (unfold get_pc; now rewrite H).
  rewrite E. destruct th as [p u k]. cbn [th_pc] in *. destruct p as [| | |w|w b|w b|w b|w| | | | | |].
  - left; reflexivity.
  - right. do 6 eexists. split; [apply TrWait|]. fin_next.
  - left; reflexivity.
  - destruct (rs_reg s) eqn:R; cbn [negb].
    + destruct (ch_coll c) as [obs none|obs|obs].
      * destruct (rs_pending s ++ obs) as [|m l] eqn:P.
        -- apply app_eq_nil in P. destruct P as [P ->]. destruct none.
           ++ right. do 6 eexists. split; [apply (TrNone s t w R P)|]. destruct w; cbn; fin_next.
           ++ right. do 6 eexists. split; [apply (TrSome s t w [] R)|]. rewrite P. fin_next.
        -- right. do 6 eexists. split; [apply (TrSome s t w obs R)|]. rewrite P. fin_next.
      * right. do 6 eexists. split; [apply (TrTimeout s t w obs R)|]. destruct w; cbn; fin_next.
      * right. do 6 eexists. split; [apply (TrRaise s t w obs R)|]. destruct w; cbn; fin_next.
    + right. do 6 eexists. split; [apply (TrUnreg s t w R)|]. destruct w; cbn; fin_next.
  - right. do 6 eexists. split; [apply TrAttach|]. fin_next.
  - destruct (rs_lock s) eqn:L; [left; reflexivity|]. right. do 6 eexists. split; [apply (TrLock s t w b L)|]. fin_next.
  - destruct (ch_exp c).
    + right. do 6 eexists. split; [apply (TrExport s t w b XOk); discriminate|]. fin_next.
    + right. do 6 eexists. split; [apply (TrExport s t w b XExc); discriminate|]. fin_next.
    + right. do 6 eexists. split; [apply (TrBase s t w b)|]. destruct w; cbn; fin_next.
  - right. do 6 eexists. split; [apply (TrDetach s t w)|]. destruct w; cbn; fin_next.
  - right. do 6 eexists. split; [apply (TrExpFlush s t)|]. fin_next.
  - destruct (rs_done s) eqn:D; right; do 6 eexists; (split; [first [apply (TrFastDone s t D)|apply (TrFast s t D)]|]); fin_next.
  - destruct (rs_done s) eqn:D; right; do 6 eexists; (split; [first [apply (TrOnceDone s t D)|apply (TrOnce s t D)]|]); fin_next.
  - right. do 6 eexists. split; [apply (TrSet s t)|]. fin_next.
  - destruct (get_pc 0 s) eqn:G; try (right; do 6 eexists; split; [apply (TrJoin s t G)|]; fin_next; fail);
      (destruct (ch_late c); [right; do 6 eexists; split; [apply (TrLate s t)|]; fin_next|left; reflexivity]).
  - right. do 6 eexists. split; [apply (TrExpShut s t)|]. fin_next.
Qed.

(** Every step is a transition of a thread, a recording or the registration (or nothing). *)
Inductive stepped s : rstate M -> Prop :=
| St_same : stepped s s
| St_reg : stepped s (RS true (rs_pending s) (rs_lock s) (rs_event s) (rs_done s) (rs_threads s) (rs_trace s))
| St_rec m : rs_reg s = true -> stepped s (RS true (rs_pending s ++ [m]) (rs_lock s) (rs_event s) (rs_done s) (rs_threads s) (rs_trace s ++ [ERec m]))
| St_thr t th p' evs pend lock ev dn : nth_error (rs_threads s) t = Some th -> trans s t (th_pc th) p' evs pend lock ev dn ->
    stepped s (next s t th p' evs pend lock ev dn).

Lemma rstep_stepped : forall s a, stepped s (rstep s a).
Proof.
  intros s [|m|t op|t c]; cbn [rstep].
  - apply St_reg.
  - destruct (rs_reg s) eqn:R; [|apply St_same].
    replace (emit [ERec m] (set_pending (rs_pending s ++ [m]) s)) with
      (RS true (rs_pending s ++ [m]) (rs_lock s) (rs_event s) (rs_done s) (rs_threads s) (rs_trace s ++ [ERec m])); [now apply St_rec|].
    unfold emit, set_pending. cbn. now rewrite R.
  - destruct (nth_error (rs_threads s) t) as [th|] eqn:H; [|apply St_same].
    destruct th as [p u k]. destruct p; try apply St_same.
    replace (emit _ _) with (next s t (Th PIdle u k) (match op with OpCollect => PCollect WCollect | OpFlush => PCollect WFlush | OpShutdown => PFast end)
      [ECall t op] (rs_pending s) (rs_lock s) (rs_event s) (rs_done s)).
    + apply St_thr; [assumption|]. apply TrCall.
    + fin_next.
  - destruct (nth_error (rs_threads s) t) as [th|] eqn:H.
    + destruct (run_trans s t c th H) as [->|(p' & evs & pend & lock & ev & dn & T & ->)]; [apply St_same|].
      now apply St_thr.
    + unfold run, get_pc. rewrite H. apply St_same.
Qed.

Definition inductive (P : rstate M -> Prop) : Prop := forall s s', P s -> stepped s s' -> P s'.
Lemma run_inv : forall (P : rstate M -> Prop), inductive P -> forall l s, P s -> P (rrun s l).
Proof. intros P I. induction l as [|a l IH]; intros s H; [exact H|]. apply IH. eapply I; [exact H|apply rstep_stepped]. Qed.

(** ** Traces *)
Lemma recorded_app tr1 tr2 : recorded (tr1 ++ tr2) = recorded tr1 ++ recorded tr2.
Proof. apply flat_map_app. Qed.
Lemma exported_app tr1 tr2 : exported (tr1 ++ tr2) = exported tr1 ++ exported tr2.
Proof. apply flat_map_app. Qed.
Lemma lost_app tr1 tr2 : lost (tr1 ++ tr2) = lost tr1 ++ lost tr2.
Proof. apply flat_map_app. Qed.
Lemma recorded_map obs : recorded (map ERec obs : list (rev_ M)) = obs.
Proof. unfold recorded. induction obs; cbn; congruence. Qed.
Lemma exported_map obs : exported (map ERec obs : list (rev_ M)) = [].
Proof. unfold exported. induction obs; cbn; congruence. Qed.
Lemma lost_map obs : lost (map ERec obs : list (rev_ M)) = [].
Proof. unfold lost. induction obs; cbn; congruence. Qed.
Lemma serial_app tr1 : forall tr2 o, exports_serial o (tr1 ++ tr2)
  = match exports_serial o tr1 with Some o' => exports_serial o' tr2 | None => None end.
Proof.
  induction tr1 as [|e tr1 IH]; intros tr2 o; [reflexivity|].
  destruct e; cbn [app exports_serial]; try apply IH.
  - destruct o; [reflexivity|apply IH].
  - destruct o as [t'|]; [|reflexivity]. destruct (Nat.eqb t t'); [apply IH|reflexivity].
Qed.
Lemma serial_map obs : forall o tr, exports_serial o (map ERec obs ++ tr) = exports_serial o tr.
Proof. induction obs; intros; cbn; auto. Qed.
Lemma serial_map0 obs : forall o, exports_serial o (map ERec obs : list (rev_ M)) = Some o.
Proof. induction obs; intros; cbn; auto. Qed.

Definition held (p : rpc M) : list M := match p with PAttach _ b | PLock _ b | PExport _ b => b | _ => [] end.
Definition holding (l : list (thread M)) : list M := flat_map (fun th => held (th_pc th)) l.

Lemma holding_upd : forall l t th (th' : thread M), nth_error l t = Some th ->
  exists r, Permutation (holding l) (held (th_pc th) ++ r) /\ Permutation (holding (upd_nth t (fun _ => th') l)) (held (th_pc th') ++ r).
Proof.
  induction l as [|x l IH]; intros [|t] th th' H; try discriminate; cbn in *.
  - injection H as ->. exists (holding l). split; apply Permutation_refl.
  - destruct (IH _ _ th' H) as (r & A & B). exists (held (th_pc x) ++ r). split.
    + rewrite A. rewrite !app_assoc. apply Permutation_app_tail, Permutation_app_comm.
    + rewrite B. rewrite !app_assoc. apply Permutation_app_tail, Permutation_app_comm.
Qed.

(** ** Conservation *)
Definition inv_cons s : Prop := (rs_reg s = false -> rs_pending s = []) /\
  exists taken, recorded (rs_trace s) = taken ++ rs_pending s
    /\ Permutation taken (exported (rs_trace s) ++ holding (rs_threads s) ++ lost (rs_trace s)).

Ltac simp_tr := rewrite ?recorded_app, ?exported_app, ?lost_app, ?recorded_map, ?exported_map, ?lost_map.

Lemma perm1 (e r l p o : list M) : Permutation (e ++ r ++ l ++ p ++ o) (e ++ p ++ o ++ r ++ l).
Proof.
  apply Permutation_app_head. rewrite (app_assoc r l), (app_assoc p o (r ++ l)). apply Permutation_app_comm.
Qed.

Lemma inv_cons_ind : inductive inv_cons.
Proof.
  intros s s' [Rg (taken & A & B)] St. destruct St as [| |m R|t th p' evs pend lock ev dn H T].
  - split; eauto.
  - split; cbn [rs_reg rs_pending rs_trace rs_threads]; [discriminate|]. eauto.
  - split; cbn [rs_reg rs_pending rs_trace rs_threads]; [discriminate|]. exists taken. rewrite recorded_app, exported_app, lost_app. cbn. rewrite !app_nil_r.
    rewrite A, <- app_assoc. split; [reflexivity|exact B].
  - destruct (holding_upd _ _ _ (Th p' (fst (ctx_step (th_pc th) th)) (snd (ctx_step (th_pc th) th))) H) as (r & H1 & H2).
    assert (K : forall X, Permutation (exported (rs_trace s) ++ held (th_pc th) ++ r ++ lost (rs_trace s)) X -> Permutation taken X).
    { intros X HX. rewrite B. rewrite <- HX. apply Permutation_app_head. rewrite app_assoc. apply Permutation_app_tail. exact H1. }
    unfold next. split; cbn [rs_reg rs_pending].
    + intros R. inversion T; subst; try congruence; try (apply Rg; congruence); try reflexivity.
    + cbn [rs_trace rs_threads].
      assert (Z : exists taken', recorded (rs_trace s ++ evs) = taken' ++ pend /\
         Permutation taken' (exported (rs_trace s ++ evs) ++ (held p' ++ r) ++ lost (rs_trace s ++ evs))).
      2:{ destruct Z as (taken' & Z1 & Z2). exists taken'. split; [exact Z1|]. rewrite Z2. apply Permutation_app_head, Permutation_app_tail.
          symmetry. exact H2. }
      clear H H1 H2. rewrite recorded_app, exported_app, lost_app.
      destruct T as [op| |w R|w R Pe|w obs R|w obs R|w obs R|w b|w b Lk|w b rr Hr|w b|w|rr|D|D|D|D| |G| |rr].
      all: try (destruct w); try (destruct op).
      all: cbn [held fin_pc fin_ev thr_ev thr_pc op_of] in *; rewrite ?recorded_app, ?exported_app, ?lost_app, ?recorded_map, ?exported_map, ?lost_map;
        cbn [recorded exported lost flat_map app op_of]; rewrite ?app_nil_r.
      all: try (exists taken; split; [exact A|]; rewrite <- ?app_assoc; apply K; cbn [held app]; rewrite <- ?app_assoc; apply Permutation_refl).
      all: try (exists taken; split; [rewrite A; now rewrite ?Pe|]; apply K; apply Permutation_refl).
      all: try (exists taken; split; [rewrite A, <- app_assoc; reflexivity|]; apply K; apply Permutation_refl).
      all: exists (taken ++ rs_pending s ++ obs); (split; [rewrite A, <- app_assoc, app_nil_r; reflexivity|]);
          rewrite (K _ (Permutation_refl _)); cbn [held app]; rewrite <- ?app_assoc.
      all: try (apply perm1).
      all: try (apply Permutation_refl).
      all: try (rewrite !app_assoc; apply Permutation_refl).
Qed.

(** ** Threads *)
Lemma nth_set : forall l t j (x y : thread M), nth_error (upd_nth t (fun _ => x) l) j = Some y ->
  t = j /\ y = x \/ t <> j /\ nth_error l j = Some y.
Proof.
  intros l t j x y H. rewrite nth_upd in H. destruct (Nat.eqb_spec t j) as [->|N].
  - left. split; [reflexivity|]. destruct (nth_error l j); cbn in H; congruence.
  - right. auto.
Qed.
Lemma nth_set_eq : forall l t (x y : thread M), nth_error l t = Some y -> nth_error (upd_nth t (fun _ => x) l) t = Some x.
Proof. intros. rewrite nth_upd, Nat.eqb_refl, H. reflexivity. Qed.
Lemma nth_set_ne : forall l t j (x : thread M), t <> j -> nth_error (upd_nth t (fun _ => x) l) j = nth_error l j.
Proof. intros. rewrite nth_upd. destruct (Nat.eqb_spec t j); [contradiction|reflexivity]. Qed.

Definition collecting (p : rpc M) : option why :=
  match p with PCollect w | PAttach w _ | PLock w _ | PExport w _ | PDetach w => Some w | _ => None end.
Definition ticker_pc (p : rpc M) : Prop :=
  match p with
  | PWait | PDead => True
  | _ => match collecting p with Some WTick | Some WLast => True | _ => False end
  end.
Definition call_of (p : rpc M) : option rop :=
  match p with
  | PExpFlush => Some OpFlush
  | PFast | POnce | PSet | PJoin | PExpShut => Some OpShutdown
  | _ => match collecting p with Some WFlush => Some OpFlush | Some WCollect => Some OpCollect | _ => None end
  end.
Definition client_pc (p : rpc M) : Prop := match p with PIdle => True | _ => call_of p <> None end.

Definition inv_role s : Prop := forall t th, nth_error (rs_threads s) t = Some th ->
  if Nat.eqb t 0 then ticker_pc (th_pc th) else client_pc (th_pc th).

Ltac cases_T T := destruct T as [op0| |w R|w R Pe|w obs R|w obs R|w obs R|w b|w b Lk|w b rr Hr|w b|w|rr|D|D|D|D| |G| |rr].

Lemma inv_role_ind : inductive inv_role.
Proof.
  intros s s' I St. destruct St as [| |m R|t th p' evs pend lock ev dn H T]; try exact I.
  intros t' th' H'. cbn [rs_threads next] in H'. apply nth_set in H'. destruct H' as [[-> ->]|[N H']]; [|now apply I].
  specialize (I _ _ H). cbn [th_pc]. destruct (Nat.eqb t' 0); cases_T T; cbn in *; try (destruct w); try (destruct op0); cbn in *; try tauto; try congruence.
  all: try (destruct (rs_event s); exact Logic.I).
Qed.

(** ** The lock *)
Definition inv_lock s : Prop := exports_serial None (rs_trace s) = Some (rs_lock s) /\
  (forall t, rs_lock s = Some t <-> exists th w b, nth_error (rs_threads s) t = Some th /\ th_pc th = PExport w b).

Lemma inv_lock_ind : inductive inv_lock.
Proof.
  intros s s' [E I] St. destruct St as [| |m R|t th p' evs pend lock ev dn H T].
  - split; assumption.
  - split; assumption.
  - split; cbn [rs_trace rs_lock rs_threads]; [|assumption]. rewrite serial_app, E. reflexivity.
  - assert (Q : (p' <> PExport WTick [] -> True)) by auto.
    assert (O : forall t', t' <> t -> (exists th0 w b, nth_error (upd_nth t (fun _ => Th p' (fst (ctx_step (th_pc th) th)) (snd (ctx_step (th_pc th) th))) (rs_threads s)) t' = Some th0 /\ th_pc th0 = PExport w b)
       <-> rs_lock s = Some t').
    { intros t' N. rewrite I. rewrite nth_set_ne by auto. tauto. }
    assert (S' : (exists th0 w b, nth_error (upd_nth t (fun _ => Th p' (fst (ctx_step (th_pc th) th)) (snd (ctx_step (th_pc th) th))) (rs_threads s)) t = Some th0 /\ th_pc th0 = PExport w b)
       <-> exists w b, p' = PExport w b).
    { rewrite (nth_set_eq _ _ _ _ H). split.
      - intros (th0 & w & b & A & B). injection A as <-. eauto.
      - intros (w & b & ->). do 3 eexists. split; reflexivity. }
    assert (L : rs_lock s = Some t <-> exists w b, th_pc th = PExport w b).
    { rewrite I. split.
      - intros (th0 & w & b & A & B). rewrite H in A. injection A as <-. eauto.
      - intros (w & b & A). eauto. }
    assert (X : exports_serial (rs_lock s) evs = Some lock /\ (lock = Some t <-> exists w b, p' = PExport w b)
        /\ (forall t', t' <> t -> (lock = Some t' <-> rs_lock s = Some t'))).
    { clear O S' E I H.
      cases_T T; cbn [exports_serial fin_ev fin_pc thr_ev thr_pc app]; try (destruct w); try (destruct op0);
        cbn [exports_serial fin_ev fin_pc thr_ev thr_pc app op_of]; rewrite ?serial_map, ?serial_map0; cbn [exports_serial].
      all: try (split; [reflexivity|]; split; [|tauto]; rewrite L; split; intros (w0 & b0 & A); discriminate).
      all: try (rewrite Lk; cbn [exports_serial]; split; [reflexivity|]; split;
             [split; [eauto|reflexivity]|intros t' N; split; [intros A; congruence|discriminate]]).
      all: assert (L1 : rs_lock s = Some t) by (apply L; eauto); rewrite L1; cbn [exports_serial]; rewrite Nat.eqb_refl; cbn [exports_serial];
           (split; [reflexivity|]); split; [split; [discriminate|intros (w0 & b0 & A); discriminate]|intros t' N; split; [discriminate|intros A; congruence]]. }
    destruct X as (X1 & X2 & X3). split; cbn [rs_trace rs_lock rs_threads next].
    + rewrite serial_app, E. exact X1.
    + intros t'. destruct (Nat.eq_dec t' t) as [->|N].
      * rewrite S'. exact X2.
      * rewrite (O t' N). apply X3, N.
Qed.

(** ** Calls *)
Lemma in_call_app t tr1 tr2 : in_call t (tr1 ++ tr2) = fold_left (fun o e => match e with
    | ECall t' op => if Nat.eqb t t' then Some op else o
    | ERet t' _ _ => if Nat.eqb t t' then None else o
    | _ => o end) tr2 (in_call t tr1).
Proof. unfold in_call. apply fold_left_app. Qed.
Lemma fold_recs : forall t obs tr o, fold_left (fun o e => match e with
    | ECall t' op => if Nat.eqb t t' then Some op else o
    | ERet t' _ _ => if Nat.eqb t t' then None else o
    | _ => o end) (map ERec obs ++ tr) o = fold_left (fun o e => match e with
    | ECall t' op => if Nat.eqb t t' then Some op else o
    | ERet t' _ _ => if Nat.eqb t t' then None else o
    | _ => o end) (tr : list (rev_ M)) o.
Proof. induction obs; intros; cbn; auto. Qed.

Lemma fold_recs0 : forall t obs o, fold_left (fun o e => match e with
    | ECall t' op => if Nat.eqb t t' then Some op else o
    | ERet t' _ _ => if Nat.eqb t t' then None else o
    | _ => o end) (map ERec obs : list (rev_ M)) o = o.
Proof. induction obs; intros; cbn; auto. Qed.

Definition inv_call s : Prop := inv_role s /\ forall t th, t <> 0%nat -> nth_error (rs_threads s) t = Some th ->
  in_call t (rs_trace s) = call_of (th_pc th).

Lemma inv_call_ind : inductive inv_call.
Proof.
  intros s s' [Ro I] St. split; [eapply inv_role_ind; eassumption|]. destruct St as [| |m R|t th p' evs pend lock ev dn H T]; try exact I.
  - intros t th N H. cbn [rs_trace rs_threads] in *. rewrite in_call_app. cbn. now apply I.
  - intros t' th' N H'. cbn [rs_threads next rs_trace] in *. rewrite in_call_app. apply nth_set in H'.
    destruct H' as [[<- ->]|[N' H']].
    + specialize (I _ _ N H). specialize (Ro _ _ H). destruct (Nat.eqb_spec t 0); [contradiction|]. cbn [th_pc].
      cases_T T; cbn in Ro, I |- *; try (destruct w); try (destruct op0); cbn in Ro, I |- *;
        rewrite ?fold_recs, ?fold_recs0; cbn; rewrite ?Nat.eqb_refl; auto; try congruence; try tauto.
    + rewrite (I _ _ N H'). clear - T N'. assert (F : Nat.eqb t' t = false) by (apply Nat.eqb_neq; auto).
      cases_T T; cbn; try (destruct w); try (destruct op0); cbn; rewrite ?fold_recs, ?fold_recs0; cbn; rewrite ?F; auto.
Qed.

(** ** What a call has waited for *)
Definition calls_of (t : nat) tr : Prop := exists op, In (ECall t op) tr.
Lemma split_app : forall tr evs before (e : rev_ M) since, tr ++ evs = before ++ e :: since ->
  (exists since', tr = before ++ e :: since' /\ since = since' ++ evs)
  \/ (exists mid, before = tr ++ mid /\ evs = mid ++ e :: since).
Proof.
  induction tr as [|x tr IH]; intros evs before e since H; cbn in H.
  - right. exists before. auto.
  - destruct before as [|y before]; cbn in H; injection H as -> H.
    + left. exists tr. subst since. auto.
    + destruct (IH _ _ _ _ H) as [(s' & -> & ->)|(m & -> & ->)]; [left; exists s'|right; exists m]; split; reflexivity.
Qed.

Definition past (p : rpc M) : option rop :=
  match p with
  | PExpFlush => Some OpFlush
  | PAttach WFlush _ | PLock WFlush _ | PExport WFlush _ | PDetach WFlush => Some OpFlush
  | PAttach WCollect _ | PLock WCollect _ | PExport WCollect _ | PDetach WCollect => Some OpCollect
  | _ => None
  end.
(** Everything recorded in [before] has left the storage. *)
Definition gone s (before : list (rev_ M)) : Prop :=
  (length (recorded before) + length (rs_pending s) <= length (recorded (rs_trace s)))%nat.

Lemma trans_pend : forall s t p p' evs pend lock ev dn, trans s t p p' evs pend lock ev dn ->
  (length pend <= length (rs_pending s) + length (recorded evs))%nat.
Proof.
  intros s t p p' evs pend lock ev dn T. cases_T T; cbn [length]; try lia.
  rewrite recorded_app, recorded_map, !app_length. lia.
Qed.
Lemma trans_calls : forall s t p p' evs pend lock ev dn, trans s t p p' evs pend lock ev dn ->
  forall t' op, In (ECall t' op) evs -> t' = t /\ p = PIdle /\ evs = [ECall t op].
Proof.
  intros s t p p' evs pend lock ev dn T t' op' Hi.
  cases_T T; try (destruct w); cbn in Hi; rewrite ?in_app_iff, ?in_map_iff in Hi; cbn in Hi;
    repeat match goal with H : _ \/ _ |- _ => destruct H | H : exists _, _ |- _ => destruct H | H : _ /\ _ |- _ => destruct H end;
    try discriminate; try contradiction.
  injection H as -> ->. auto.
Qed.
Lemma gone_prefix : forall s before (e : rev_ M) since, rs_trace s = before ++ e :: since -> rs_pending s = [] -> gone s before.
Proof. intros s before e since H P. unfold gone. rewrite H, P, recorded_app, app_length. cbn [length]. lia. Qed.
Lemma gone_next : forall s t th p' evs pend lock ev dn before, trans s t (th_pc th) p' evs pend lock ev dn ->
  gone s before -> gone (next s t th p' evs pend lock ev dn) before.
Proof.
  intros s t th p' evs pend lock ev dn before T G. unfold gone, next in *. cbn [rs_pending rs_trace].
  rewrite recorded_app, app_length. apply trans_pend in T. lia.
Qed.

Definition inv_past s : Prop := inv_cons s /\ forall t th op before, nth_error (rs_threads s) t = Some th -> past (th_pc th) = Some op ->
  call_began t op before (rs_trace s) -> gone s before.

Lemma inv_past_ind : inductive inv_past.
Proof.
  intros s s' [Co I] St. split; [eapply inv_cons_ind; eassumption|]. destruct Co as [Rg _].
  destruct St as [| |m R|t th p' evs pend lock ev dn H T]; try exact I.
  - intros t th op before H P (since & E & N). cbn [rs_trace rs_threads] in *.
    destruct (split_app _ _ _ _ _ E) as [(s' & E' & ->)|(mid & -> & E')].
    + assert (G : gone s before). { eapply I; eauto. exists s'. split; [assumption|]. intros op' Hin. apply (N op'), in_or_app. auto. }
      unfold gone in *. cbn [rs_pending rs_trace]. rewrite recorded_app, !app_length. cbn. lia.
    + destruct mid as [|? [|? ?]]; discriminate.
  - intros t' th' op before H' P (since & E & N). cbn [rs_trace rs_threads next] in H', E. apply nth_set in H'.
    destruct H' as [[<- ->]|[N' H']].
    + destruct (split_app _ _ _ _ _ E) as [(s' & E' & ->)|(mid & -> & E')].
      * assert (N0 : forall op', ~ In (ECall t op') s') by (intros op' Hin; apply (N op'), in_or_app; auto).
        assert (Old : past (th_pc th) = Some op -> gone (next s t th p' evs pend lock ev dn) before).
        { intros P0. apply gone_next; [assumption|]. eapply I; eauto. exists s'. auto. }
        cbn [th_pc] in P.
        cases_T T; cbn in P; try discriminate; try (destruct w; discriminate); try (destruct op0; discriminate); try (apply Old; cbn; assumption).
        -- eapply gone_prefix; [|cbn; now apply Rg]. cbn [next rs_trace]. rewrite E', <- app_assoc. reflexivity.
        -- eapply gone_prefix; [|reflexivity]. cbn [next rs_trace]. rewrite E', <- app_assoc. reflexivity.
        -- eapply gone_prefix; [|reflexivity]. cbn [next rs_trace]. rewrite E', <- app_assoc. reflexivity.
        -- destruct w; try discriminate; apply Old; assumption.
      * destruct (trans_calls _ _ _ _ _ _ _ _ _ T t op) as (_ & P0 & _).
        { rewrite E'. apply in_or_app. right. left. reflexivity. }
        exfalso. cbn [th_pc] in P. rewrite P0 in T. inversion T; subst. destruct op0; cbn in P; discriminate.
    + destruct (split_app _ _ _ _ _ E) as [(s' & E' & ->)|(mid & -> & E')].
      * apply gone_next; [assumption|]. eapply I; eauto. exists s'. split; [assumption|]. intros op' Hin. apply (N op'), in_or_app. auto.
      * exfalso. destruct (trans_calls _ _ _ _ _ _ _ _ _ T t' op) as (-> & _); [|congruence].
        rewrite E'. apply in_or_app. right. left. reflexivity.
Qed.

(** ** Shutdown *)
Definition winner (p : rpc M) : bool := match p with PSet | PJoin | PExpShut => true | _ => false end.
Definition waited (p : rpc M) : bool := match p with PJoin | PExpShut => true | _ => false end.
Definition lasting (p : rpc M) : bool := match collecting p with Some WLast => true | _ => false end.
Definition post_last (p : rpc M) : bool :=
  match p with PDead | PAttach WLast _ | PLock WLast _ | PExport WLast _ | PDetach WLast => true | _ => false end.
Notation shuts := exporter_shutdowns.

Lemma clean_app tr1 tr2 : clean (tr1 ++ tr2) <-> clean tr1 /\ clean tr2.
Proof. apply Forall_app. Qed.
Lemma shuts_app tr1 tr2 : shuts (tr1 ++ tr2) = (shuts tr1 + shuts tr2)%nat.
Proof. unfold exporter_shutdowns. now rewrite filter_app, app_length. Qed.
Lemma shuts_map obs tr : shuts (map ERec obs ++ tr) = shuts tr.
Proof. rewrite shuts_app. replace (shuts (map ERec obs)) with 0%nat; [reflexivity|]. unfold exporter_shutdowns. induction obs; cbn; auto. Qed.

Lemma shuts_map0 obs : shuts (map ERec obs : list (rev_ M)) = 0%nat.
Proof. unfold exporter_shutdowns. induction obs; cbn; auto. Qed.

Record inv_shut (ticking : bool) s : Prop := IS {
  is_cons : inv_cons s;
  is_role : inv_role s;
  is_fresh : rs_done s = false -> rs_event s = false /\ shuts (rs_trace s) = 0%nat /\
      forall t th, nth_error (rs_threads s) t = Some th -> winner (th_pc th) = false;
  is_uniq : forall t t' th th', nth_error (rs_threads s) t = Some th -> nth_error (rs_threads s) t' = Some th' ->
      winner (th_pc th) = true -> winner (th_pc th') = true -> t = t';
  is_none : forall t th, nth_error (rs_threads s) t = Some th -> winner (th_pc th) = true -> shuts (rs_trace s) = 0%nat;
  is_once : (shuts (rs_trace s) <= 1)%nat;
  is_set : forall t th, nth_error (rs_threads s) t = Some th -> th_pc th = PSet -> rs_event s = false;
  is_event : rs_event s = false -> forall th, nth_error (rs_threads s) 0 = Some th -> lasting (th_pc th) = false
      /\ (th_pc th = PDead -> clean (rs_trace s) -> ticking = true -> False);
  is_bound : ticking = true -> clean (rs_trace s) -> forall th t tht before since op,
      nth_error (rs_threads s) 0 = Some th -> post_last (th_pc th) = true ->
      nth_error (rs_threads s) t = Some tht -> waited (th_pc tht) = true ->
      rs_trace s = before ++ ECall t op :: since -> gone s before;
  is_joined : clean (rs_trace s) -> forall t th th0, nth_error (rs_threads s) t = Some th -> th_pc th = PExpShut ->
      nth_error (rs_threads s) 0 = Some th0 -> th_pc th0 = PDead;
  is_done : ticking = true -> clean (rs_trace s) -> forall t before since op,
      rs_trace s = before ++ ECall t op :: since -> In (EXShut t) since ->
      gone s before /\ forall th0, nth_error (rs_threads s) 0 = Some th0 -> th_pc th0 = PDead }.

Lemma trans_done : forall s t p p' evs pend lock ev dn, trans s t p p' evs pend lock ev dn ->
  (rs_done s = true -> dn = true) /\ (rs_event s = true -> ev = true) /\
  (dn = rs_done s \/ rs_done s = false /\ p' = PSet /\ evs = [] /\ dn = true) /\
  (ev = rs_event s \/ p = PSet /\ p' = PJoin /\ evs = [] /\ ev = true) /\
  (winner p' = true -> winner p = true \/ p = POnce /\ rs_done s = false /\ p' = PSet) /\
  (waited p' = true -> waited p = true \/ p = PSet /\ p' = PJoin) /\
  (shuts evs = 0%nat \/ p = PExpShut /\ p' = PIdle /\ shuts evs = 1%nat).
Proof.
  intros s t p p' evs pend lock ev dn T.
  cases_T T; try (destruct w); try (destruct op0); cbn; rewrite ?shuts_map, ?shuts_map0; cbn;
    repeat split; auto; try congruence; try (left; reflexivity); try tauto.
  all: try (destruct (rs_event s); cbn; auto).
Qed.

(** How the ticker gets past its last collection. *)
Lemma trans_last : forall s t p p' evs pend lock ev dn, trans s t p p' evs pend lock ev dn -> inv_cons s ->
  post_last p' = true -> clean evs -> ticker_pc p ->
  post_last p = true \/ p = PCollect WLast /\ pend = [].
Proof.
  intros s t p p' evs pend lock ev dn T [Rg _] P C K.
  cases_T T; try (destruct w); cbn in P, C, K |- *; auto; try discriminate; try (destruct op0; discriminate); try contradiction.
  all: try (right; split; auto; fail).
  all: try (exfalso; apply Forall_app in C; destruct C as [_ C]; inversion C; contradiction).
  all: try (exfalso; inversion C; contradiction).
Qed.
Lemma trans_lasting : forall s t p p' evs pend lock ev dn, trans s t p p' evs pend lock ev dn ->
  lasting p' = true -> lasting p = true \/ rs_event s = true.
Proof.
  intros s t p p' evs pend lock ev dn T P.
  cases_T T; try (destruct w); cbn in P |- *; auto; try discriminate; try (destruct op0; discriminate).
  destruct (rs_event s); [auto|discriminate].
Qed.
Lemma trans_dead : forall s t p p' evs pend lock ev dn, trans s t p p' evs pend lock ev dn ->
  p' = PDead -> clean evs -> lasting p = true.
Proof.
  intros s t p p' evs pend lock ev dn T P C.
  cases_T T; try (destruct w); cbn in P, C |- *; auto; try discriminate; try (destruct op0; discriminate).
  all: exfalso; try (apply Forall_app in C; destruct C as [_ C]); inversion C; contradiction.
Qed.
Lemma trans_from_dead : forall s t p' evs pend lock ev dn, ~ trans s t PDead p' evs pend lock ev dn.
Proof. intros s t p' evs pend lock ev dn T. inversion T. Qed.
Lemma trans_shut : forall s t p p' evs pend lock ev dn t', trans s t p p' evs pend lock ev dn ->
  In (EXShut t') evs -> t' = t /\ p = PExpShut.
Proof.
  intros s t p p' evs pend lock ev dn t' T Hi.
  cases_T T; try (destruct w); cbn in Hi; rewrite ?in_app_iff, ?in_map_iff in Hi; cbn in Hi;
    repeat match goal with H : _ \/ _ |- _ => destruct H | H : exists _, _ |- _ => destruct H | H : _ /\ _ |- _ => destruct H end;
    try discriminate; try contradiction.
  injection H as ->. auto.
Qed.
Lemma trans_expshut : forall s t p p' evs pend lock ev dn, trans s t p p' evs pend lock ev dn -> p' = PExpShut ->
  p = PJoin /\ (evs = [ELate t] \/ evs = [] /\ get_pc 0 s = PDead).
Proof.
  intros s t p p' evs pend lock ev dn T P.
  cases_T T; try (destruct w); cbn in P |- *; auto; try discriminate; try (destruct op0; discriminate).
Qed.

Lemma trans_set : forall s t p p' evs pend lock ev dn, trans s t p p' evs pend lock ev dn -> p' = PSet -> rs_done s = false.
Proof.
  intros s t p p' evs pend lock ev dn T P.
  cases_T T; try (destruct w); cbn in P |- *; auto; try discriminate; try (destruct op0; discriminate).
Qed.

Lemma ticker_not_winner : forall p, ticker_pc p -> winner p = false.
Proof. intros p. destruct p; cbn; auto; tauto. Qed.

Lemma inv_shut_ind ticking : inductive (inv_shut ticking).
Proof.
  intros s s' I St. assert (I0 := I). destruct I as [Co Ro Fr Un No On Se Ev Bo Jo Do].
  destruct St as [| |m R|t th p' evs pend lock ev dn H T].
  - exact I0.
  - split; cbn [rs_trace rs_threads rs_done rs_event]; auto.
    + eapply inv_cons_ind; [exact Co|apply St_reg].
  - assert (Gr : forall before, gone s before -> gone (RS true (rs_pending s ++ [m]) (rs_lock s) (rs_event s) (rs_done s) (rs_threads s) (rs_trace s ++ [ERec m])) before).
    { intros before G. unfold gone in *. cbn [rs_pending rs_trace]. rewrite recorded_app, !app_length. cbn. lia. }
    split; cbn [rs_trace rs_threads rs_done rs_event].
    + eapply inv_cons_ind; [exact Co|now apply St_rec].
    + exact Ro.
    + intros D. rewrite shuts_app. cbn. rewrite Nat.add_0_r. auto.
    + assumption.
    + intros. rewrite shuts_app. cbn. rewrite Nat.add_0_r. eauto.
    + rewrite shuts_app. cbn. lia.
    + assumption.
    + intros E th H0. destruct (Ev E th H0) as [A B]. split; [assumption|]. intros P C. apply B; [assumption|]. now apply clean_app in C.
    + intros Tk C th t tht before since op H0 P Ht W E. apply clean_app in C. destruct C as [C _].
      apply Gr. destruct (split_app _ _ _ _ _ E) as [(s' & E' & ->)|(mid & -> & E')]; [eauto|].
      destruct mid as [|? [|? ?]]; discriminate.
    + intros C. apply clean_app in C. apply Jo, C.
    + intros Tk C t before since op E Hi. apply clean_app in C. destruct C as [C _].
      destruct (split_app _ _ _ _ _ E) as [(s' & E' & ->)|(mid & -> & E')]; [|destruct mid as [|? [|? ?]]; discriminate].
      apply in_app_or in Hi. destruct Hi as [Hi|[Hi|[]]]; [|discriminate].
      destruct (Do Tk C _ _ _ _ E' Hi). auto.
  - destruct (trans_done _ _ _ _ _ _ _ _ _ T) as (T1 & T2 & T3 & T4 & T5 & T6 & T7).
    assert (Wt : forall t0 th0, nth_error (rs_threads (next s t th p' evs pend lock ev dn)) t0 = Some th0 -> winner (th_pc th0) = true ->
        (exists th1, nth_error (rs_threads s) t0 = Some th1 /\ winner (th_pc th1) = true) \/ t0 = t /\ rs_done s = false /\ th_pc th = POnce).
    { intros t0 th0 H0 W. cbn [next rs_threads] in H0. apply nth_set in H0. destruct H0 as [[<- ->]|[N H0]].
      - cbn [th_pc] in W. destruct (T5 W) as [W'|(A & B & C)]; [left; eauto|right; auto].
      - left. eauto. }
    assert (Z0 : forall th0, nth_error (rs_threads (next s t th p' evs pend lock ev dn)) 0 = Some th0 ->
        t = 0%nat /\ th_pc th0 = p' \/ t <> 0%nat /\ nth_error (rs_threads s) 0 = Some th0).
    { intros th0 H0. cbn [next rs_threads] in H0. apply nth_set in H0. destruct H0 as [[<- ->]|[N H0]]; auto. }
    assert (Kt : t = 0%nat -> ticker_pc (th_pc th)). { intros ->. exact (Ro _ _ H). }
    assert (Ded : forall th0, nth_error (rs_threads s) 0 = Some th0 -> th_pc th0 = PDead -> forall th1,
        nth_error (rs_threads (next s t th p' evs pend lock ev dn)) 0 = Some th1 -> th_pc th1 = PDead).
    { intros th0 H0 P0 th1 H1. destruct (Z0 th1 H1) as [[-> P]|[N H2]].
      - exfalso. rewrite H in H0. injection H0 as <-. rewrite P0 in T. exact (trans_from_dead _ _ _ _ _ _ _ _ T).
      - congruence. }
    split.
    + eapply inv_cons_ind; [exact Co|]. now apply St_thr.
    + eapply inv_role_ind; [exact Ro|]. now apply St_thr.
    + cbn [next rs_done rs_event rs_trace]. intros D.
      assert (D0 : rs_done s = false) by (destruct (rs_done s); [rewrite T1 in D by reflexivity; discriminate|reflexivity]).
      destruct (Fr D0) as (A & B & C). split; [|split].
      * destruct T4 as [->|(P & _)]; [assumption|]. specialize (C _ _ H). rewrite P in C. discriminate.
      * rewrite shuts_app, B. destruct T7 as [->|(P & _)]; [reflexivity|]. specialize (C _ _ H). rewrite P in C. discriminate.
      * intros t0 th0 H0. destruct (winner (th_pc th0)) eqn:W; [|reflexivity].
        destruct (Wt _ _ H0 W) as [(th1 & A1 & B1)|(-> & _ & P)].
        -- rewrite (C _ _ A1) in B1. discriminate.
        -- cbn [next rs_threads] in H0. rewrite (nth_set_eq _ _ _ _ H) in H0. injection H0 as <-. cbn [th_pc] in W.
           destruct (T5 W) as [W'|(_ & _ & ->)]; [rewrite P in W'; discriminate|].
           destruct T3 as [E3|(_ & _ & _ & ->)]; [|discriminate]. subst dn. rewrite P in T. inversion T; congruence.
    + intros t0 t1 th0 th1 H0 H1 W0 W1.
      destruct (Wt _ _ H0 W0) as [(x0 & A0 & B0)|(-> & D0 & P0)]; destruct (Wt _ _ H1 W1) as [(x1 & A1 & B1)|(-> & D1 & P1)].
      * eapply Un; eassumption.
      * destruct (Fr D1) as (_ & _ & C). rewrite (C _ _ A0) in B0. discriminate.
      * destruct (Fr D0) as (_ & _ & C). rewrite (C _ _ A1) in B1. discriminate.
      * reflexivity.
    + intros t0 th0 H0 W0. cbn [next rs_trace]. rewrite shuts_app.
      assert (Sh : shuts (rs_trace s) = 0%nat).
      { destruct (Wt _ _ H0 W0) as [(x0 & A0 & B0)|(-> & D0 & P0)]; [eapply No; eassumption|apply Fr, D0]. }
      rewrite Sh. destruct T7 as [->|(P & P' & _)]; [reflexivity|]. exfalso.
      destruct (Wt _ _ H0 W0) as [(x0 & A0 & B0)|(-> & D0 & P0)]; [|congruence].
      assert (t = t0) by (eapply Un; [exact H|exact A0| |exact B0]; rewrite P; reflexivity). subst t0.
      cbn [next rs_threads] in H0. rewrite (nth_set_eq _ _ _ _ H) in H0. injection H0 as <-. cbn [th_pc] in W0. rewrite P' in W0. discriminate.
    + cbn [next rs_trace]. rewrite shuts_app. destruct T7 as [->|(P & _ & ->)]; [lia|].
      rewrite (No _ _ H); [lia|]. rewrite P. reflexivity.
    + intros t0 th0 H0 P0. cbn [next rs_event].
      assert (W0 : winner (th_pc th0) = true) by (rewrite P0; reflexivity).
      assert (E0 : rs_event s = false).
      { cbn [next rs_threads] in H0. apply nth_set in H0. destruct H0 as [[<- ->]|[N H0]]; [|eauto].
        cbn [th_pc] in P0. apply Fr. exact (trans_set _ _ _ _ _ _ _ _ _ T P0). }
      destruct T4 as [->|(P & P' & _)]; [assumption|]. exfalso.
      destruct (Wt _ _ H0 W0) as [(x0 & A0 & B0)|(-> & D0 & P1)]; [|congruence].
      assert (t = t0) by (eapply Un; [exact H|exact A0| |exact B0]; rewrite P; reflexivity). subst t0.
      cbn [next rs_threads] in H0. rewrite (nth_set_eq _ _ _ _ H) in H0. injection H0 as <-. cbn [th_pc] in P0. congruence.
    + intros E th0 H0. cbn [next rs_event] in E.
      assert (E0 : rs_event s = false) by (destruct (rs_event s); [rewrite T2 in E by reflexivity; discriminate|reflexivity]).
      destruct (Z0 _ H0) as [[-> P]|[N H1]].
      * destruct (Ev E0 _ H) as [A B]. rewrite P. split.
        -- destruct (lasting p') eqn:La; [|reflexivity]. destruct (trans_lasting _ _ _ _ _ _ _ _ _ T La); congruence.
        -- intros P' C Tk. cbn [next rs_trace] in C. apply clean_app in C. destruct C as [C1 C2].
           rewrite (trans_dead _ _ _ _ _ _ _ _ _ T P' C2) in A. discriminate.
      * destruct (Ev E0 _ H1) as [A B]. split; [assumption|]. intros P C. apply B; [assumption|].
        cbn [next rs_trace] in C. now apply clean_app in C.
    + intros Tk C th0 t1 th1 before since op H0 P0 H1 W1 E. cbn [next rs_trace] in C, E. apply clean_app in C. destruct C as [C1 C2].
      assert (Nid : t1 = t -> th_pc th <> PIdle).
      { intros -> Pi. cbn [next rs_threads] in H1. rewrite (nth_set_eq _ _ _ _ H) in H1. injection H1 as <-. cbn [th_pc] in W1.
        destruct (T6 W1) as [W'|(P' & _)]; rewrite Pi in *; discriminate. }
      destruct (split_app _ _ _ _ _ E) as [(s' & E' & ->)|(mid & -> & E')].
      2:{ exfalso. destruct (trans_calls _ _ _ _ _ _ _ _ _ T t1 op) as (A & B & _); [rewrite E'; apply in_or_app; right; left; reflexivity|]. exact (Nid A B). }
      (* the caller had waited before, or the event is being set now *)
      assert (Wold : (exists x1, nth_error (rs_threads s) t1 = Some x1 /\ waited (th_pc x1) = true) \/ t1 = t /\ th_pc th = PSet).
      { cbn [next rs_threads] in H1. apply nth_set in H1. destruct H1 as [[<- ->]|[N1 H1]]; [|left; eauto].
        cbn [th_pc] in W1. destruct (T6 W1) as [W'|(A & _)]; [left; eauto|right; auto]. }
      destruct (Z0 _ H0) as [[-> P]|[N H2]].
      * rewrite P in P0. destruct (trans_last _ _ _ _ _ _ _ _ _ T Co P0 C2 (Kt eq_refl)) as [Pl|[Pc ->]].
        -- apply gone_next; [assumption|]. destruct Wold as [(x1 & A & B)|[-> A]].
           ++ exact (Bo Tk C1 _ _ _ _ _ _ H Pl A B E').
           ++ rewrite A in Pl. discriminate.
        -- eapply gone_prefix; [|reflexivity]. cbn [next rs_trace]. rewrite E', <- app_assoc. reflexivity.
      * apply gone_next; [assumption|]. destruct Wold as [(x1 & A & B)|[-> A]].
        -- exact (Bo Tk C1 _ _ _ _ _ _ H2 P0 A B E').
        -- exfalso. assert (E0 := Se _ _ H A). destruct (Ev E0 _ H2) as [A1 B1].
           destruct (th_pc th0); try discriminate; try (destruct w; discriminate). apply B1; auto.
    + intros C t1 th1 th0 H1 P1 H0. cbn [next rs_trace] in C. apply clean_app in C. destruct C as [C1 C2].
      assert (Old : exists x, nth_error (rs_threads s) 0 = Some x /\ th_pc x = PDead).
      { assert (Ex : exists x, nth_error (rs_threads s) 0 = Some x).
        { destruct (Z0 _ H0) as [[-> P]|[N H2]]; eauto. }
        destruct Ex as [x Hx]. exists x. split; [assumption|].
        cbn [next rs_threads] in H1. apply nth_set in H1. destruct H1 as [[<- ->]|[N1 H1]]; [|eauto].
        cbn [th_pc] in P1. destruct (trans_expshut _ _ _ _ _ _ _ _ _ T P1) as [_ [->|[_ G]]].
        - inversion C2. contradiction.
        - unfold get_pc in G. rewrite Hx in G. assumption. }
      destruct Old as (x & A & B). eapply Ded; eassumption.
    + intros Tk C t1 before since op E Hi. cbn [next rs_trace] in C, E. apply clean_app in C. destruct C as [C1 C2].
      destruct (split_app _ _ _ _ _ E) as [(s' & E' & ->)|(mid & -> & E')].
      2:{ exfalso. destruct (trans_calls _ _ _ _ _ _ _ _ _ T t1 op) as (A & B & C); [rewrite E'; apply in_or_app; right; left; reflexivity|].
          rewrite C in E'. destruct mid as [|? [|? ?]]; try discriminate. injection E' as _ <-. destruct Hi. }
      apply in_app_or in Hi. destruct Hi as [Hi|Hi].
      * destruct (Do Tk C1 _ _ _ _ E' Hi) as [A B]. split; [now apply gone_next|].
        intros th0 H0. destruct (Z0 _ H0) as [[-> P]|[N H2]]; [|auto].
        exfalso. rewrite (B _ H) in T. exact (trans_from_dead _ _ _ _ _ _ _ _ T).
      * destruct (trans_shut _ _ _ _ _ _ _ _ _ _ T Hi) as [-> P].
        assert (N : t <> 0%nat). { intros ->. specialize (Kt eq_refl). rewrite P in Kt. exact Kt. }
        assert (De : forall th0, nth_error (rs_threads s) 0 = Some th0 -> th_pc th0 = PDead) by (intros th0 Hz; exact (Jo C1 _ _ _ H P Hz)).
        split.
        -- apply gone_next; [assumption|].
           destruct (nth_error (rs_threads s) 0) as [x|] eqn:Hx.
           ++ eapply (Bo Tk C1); [reflexivity|rewrite (De _ eq_refl); reflexivity|exact H|rewrite P; reflexivity|exact E'].
           ++ exfalso. destruct (rs_threads s); [destruct t; discriminate|discriminate].
        -- intros th0 H0. destruct (Z0 _ H0) as [[-> _]|[_ H2]]; [contradiction|auto].
Qed.

(** ** Order, when the ticker alone collects *)
Definition held0 (l : list (thread M)) : list M := match l with th :: _ => held (th_pc th) | [] => [] end.
Definition inv_order s : Prop := inv_cons s /\ inv_role s /\ (only_ticker_collects (rs_trace s) ->
  (forall t th, t <> 0%nat -> nth_error (rs_threads s) t = Some th -> collecting (th_pc th) = None /\ th_pc th <> PExpFlush)
  /\ (lost (rs_trace s) = [] -> recorded (rs_trace s) = exported (rs_trace s) ++ held0 (rs_threads s) ++ rs_pending s)).

Lemma only_app tr1 tr2 : only_ticker_collects (tr1 ++ tr2) -> only_ticker_collects tr1.
Proof. intros H t. destruct (H t) as [A B]. split; intros Hi; [apply A|apply B]; apply in_or_app; auto. Qed.

Lemma inv_order_ind : inductive inv_order.
Proof.
  intros s s' (Co & Ro & I) St. split; [eapply inv_cons_ind; eassumption|]. split; [eapply inv_role_ind; eassumption|].
  destruct Co as [Rg _]. destruct St as [| |m R|t th p' evs pend lock ev dn H T]; try exact I.
  - cbn [rs_trace rs_threads rs_pending]. intros O. destruct (I (only_app _ _ O)) as [A B]. split; [assumption|].
    rewrite lost_app, recorded_app, exported_app. cbn. rewrite !app_nil_r. intros L. rewrite (B L), <- !app_assoc. reflexivity.
  - cbn [next rs_trace rs_threads rs_pending]. intros O. destruct (I (only_app _ _ O)) as [A B]. split.
    + intros t' th' N H'. apply nth_set in H'. destruct H' as [[<- ->]|[_ H']]; [|now apply (A t')].
      cbn [th_pc]. destruct (A _ _ N H) as [A1 A2]. clear B I.
      specialize (Ro _ _ H). destruct (Nat.eqb_spec t 0); [contradiction|].
      cases_T T; try (exfalso; apply Ro; reflexivity); cbn in A1, A2 |- *; try discriminate; try (split; [reflexivity|discriminate]); try congruence.
      destruct op0; cbn; try (split; [reflexivity|discriminate]); exfalso; destruct (O t) as [O1 O2]; [apply O1|apply O2]; apply in_or_app; right; left; reflexivity.
    + rewrite lost_app. intros L. apply app_eq_nil in L. destruct L as [L1 L2]. specialize (B L1).
      rewrite recorded_app, exported_app, B.
      destruct (Nat.eq_dec t 0) as [->|N].
      * destruct (rs_threads s) as [|x l]; [discriminate|]. cbn in H. injection H as ->. cbn [upd_nth held0 th_pc] in *.
        specialize (Ro 0%nat th). rewrite Nat.eqb_refl in Ro.
        clear I A O. cases_T T; cbn [held fin_pc thr_pc fin_ev thr_ev] in *; try (destruct w); cbn [held fin_pc thr_pc fin_ev thr_ev] in *;
          rewrite ?recorded_app, ?exported_app, ?recorded_map, ?exported_map; cbn [recorded exported flat_map]; rewrite ?app_nil_r; cbn [app];
          rewrite ?Pe, <- ?app_assoc; cbn [app]; rewrite ?app_nil_r; auto.
        all: try (destruct op0; cbn [held app]; rewrite ?app_nil_r; reflexivity).
        all: rewrite lost_app in L2; apply app_eq_nil in L2; destruct L2 as [_ L2]; cbn in L2; rewrite ?app_nil_r in L2; rewrite L2; apply app_nil_r.
      * assert (Hh : held0 (upd_nth t (fun _ => Th p' (fst (ctx_step (th_pc th) th)) (snd (ctx_step (th_pc th) th))) (rs_threads s)) = held0 (rs_threads s)).
        { destruct (rs_threads s); [destruct t; discriminate|]. destruct t; [contradiction|reflexivity]. }
        rewrite Hh. destruct (A _ _ N H) as [A1 A2]. clear Hh I O B Ro.
        cases_T T; cbn in A1 |- *; try discriminate; rewrite ?app_nil_r; auto. 
Qed.

(** ** The context of exports *)
Definition in_export (p : rpc M) : bool := match p with PLock _ _ | PExport _ _ | PDetach _ => true | _ => false end.
Definition inv_ctx s : Prop := (forall t b sup, In (EXBegin t b sup) (rs_trace s) -> sup = true) /\
  forall t th, nth_error (rs_threads s) t = Some th ->
    (in_export (th_pc th) = true -> th_sup th = true) /\
    ((forall b, ~ In (EXEnd t b XBase) (rs_trace s)) -> if in_export (th_pc th) then th_tok th = false else th_sup th = false).

Lemma inv_ctx_ind : inductive inv_ctx.
Proof.
  intros s s' [I J] St. destruct St as [| |m R|t th p' evs pend lock ev dn H T]; try (split; assumption).
  - split; cbn [rs_trace rs_threads].
    + intros t b sup Hi. apply in_app_or in Hi. destruct Hi as [Hi|[Hi|[]]]; [eauto|discriminate].
    + intros t th H. destruct (J _ _ H) as [A B]. split; [assumption|]. intros N. apply B. intros b Hi. apply (N b), in_or_app. auto.
  - destruct (J _ _ H) as [A B]. split; cbn [next rs_trace rs_threads].
    + intros t' b' sup Hi. apply in_app_or in Hi. destruct Hi as [Hi|Hi]; [eauto|].
      assert (Ge : get_sup t s = th_sup th) by (unfold get_sup; now rewrite H).
      cases_T T; cbn in A; try (destruct w); cbn in Hi; rewrite ?in_app_iff, ?in_map_iff in Hi; cbn in Hi;
        repeat match goal with H : _ \/ _ |- _ => destruct H | H : exists _, _ |- _ => destruct H | H : _ /\ _ |- _ => destruct H end;
        try discriminate; try contradiction; match goal with H : EXBegin _ _ _ = _ |- _ => injection H as <- <- <- end; rewrite Ge; auto.
    + intros t' th' H'. apply nth_set in H'. destruct H' as [[<- ->]|[N H']].
      * cbn [th_pc th_sup th_tok].
        assert (B' : (forall b, ~ In (EXEnd t b XBase) (rs_trace s ++ evs)) -> if in_export (th_pc th) then th_tok th = false else th_sup th = false).
        { intros N. apply B. intros b Hi. apply (N b), in_or_app. auto. }
        clear B. cases_T T; try (destruct w); try (destruct op0); cbn in *; split; auto; try discriminate; intros N; specialize (B' N); auto.
        all: try (destruct (rs_event s); auto; fail).
        all: exfalso; apply (N b), in_or_app; right; left; reflexivity.
      * destruct (J _ _ H') as [A1 B1]. split; [assumption|]. intros N'. apply B1. intros b Hi. apply (N' b), in_or_app. auto.
Qed.

(** ** The initial state *)
Lemma nth_init : forall ticking n t th, nth_error (rs_threads (rs_init ticking n : rstate M)) t = Some th ->
  th_sup th = false /\ th_pc th = (if Nat.eqb t 0 then if ticking then PWait else PDead else PIdle).
Proof.
  intros ticking n [|t] th H; cbn in H.
  - injection H as <-. split; reflexivity.
  - apply nth_error_In, repeat_spec in H. subst th. split; reflexivity.
Qed.
Lemma holding_init : forall ticking n, holding (rs_threads (rs_init ticking n)) = [].
Proof. intros. cbn. destruct ticking; cbn; induction n; cbn; auto. Qed.

Lemma init_cons ticking n : inv_cons (rs_init ticking n).
Proof. split; [reflexivity|]. exists []. rewrite holding_init. split; [reflexivity|apply Permutation_refl]. Qed.
Lemma init_role ticking n : inv_role (rs_init ticking n).
Proof. intros t th H. apply nth_init in H. destruct H as [_ ->]. destruct (Nat.eqb t 0); [destruct ticking|]; exact Logic.I. Qed.
Lemma init_lock ticking n : inv_lock (rs_init ticking n).
Proof.
  split; [reflexivity|]. intros t. split; [discriminate|]. intros (th & w & b & H & P). apply nth_init in H. destruct H as [_ Q].
  rewrite P in Q. destruct (Nat.eqb t 0); [destruct ticking|]; discriminate.
Qed.
Lemma init_call ticking n : inv_call (rs_init ticking n).
Proof.
  split; [apply init_role|]. intros t th N H. apply nth_init in H. destruct H as [_ ->]. destruct (Nat.eqb_spec t 0); [contradiction|]. reflexivity.
Qed.
Lemma init_past ticking n : inv_past (rs_init ticking n).
Proof. split; [apply init_cons|]. intros t th op before H P (since & E & _). destruct before; discriminate. Qed.
Lemma init_shut ticking n : inv_shut ticking (rs_init ticking n).
Proof.
  assert (W : forall t th, nth_error (rs_threads (rs_init ticking n : rstate M)) t = Some th -> winner (th_pc th) = false).
  { intros t th H. apply nth_init in H. destruct H as [_ ->]. destruct (Nat.eqb t 0); [destruct ticking|]; reflexivity. }
  split.
  - apply init_cons.
  - apply init_role.
  - intros _. split; [reflexivity|split; [reflexivity|exact W]].
  - intros t t' th th' H H' A B. rewrite (W _ _ H) in A. discriminate.
  - reflexivity.
  - cbn. lia.
  - reflexivity.
  - intros _ th H. apply nth_init in H. destruct H as [_ ->]. cbn [Nat.eqb]. destruct ticking; split; try reflexivity; discriminate.
  - intros _ _ th t tht before since op _ _ _ _ E. destruct before; discriminate.
  - intros _ t th th0 H P. specialize (W _ _ H). rewrite P in W. discriminate.
  - intros _ _ t before since op E. destruct before; discriminate.
Qed.
Lemma init_order ticking n : inv_order (rs_init ticking n).
Proof.
  split; [apply init_cons|]. split; [apply init_role|]. intros _. split.
  - intros t th N H. apply nth_init in H. destruct H as [_ ->]. destruct (Nat.eqb_spec t 0); [contradiction|]. split; [reflexivity|discriminate].
  - intros _. cbn. destruct ticking; reflexivity.
Qed.
Lemma init_ctx ticking n : inv_ctx (rs_init ticking n).
Proof.
  split; [intros t b sup []|]. intros t th H. apply nth_init in H. destruct H as [-> ->].
  destruct (Nat.eqb t 0); [destruct ticking|]; split; try discriminate; reflexivity.
Qed.

(** ** Consequences *)
Lemma gone_perm : forall s before (e : rev_ M) since, inv_cons s -> rs_trace s = before ++ e :: since -> gone s before ->
  exists rest, Permutation (recorded before ++ rest) (exported (rs_trace s) ++ holding (rs_threads s) ++ lost (rs_trace s)).
Proof.
  intros s before e since [_ (taken & A & B)] E G. unfold gone in G.
  exists (skipn (length (recorded before)) taken).
  assert (P : recorded before = firstn (length (recorded before)) taken).
  { assert (L : (length (recorded before) <= length taken)%nat) by (rewrite A, app_length in G; lia).
    rewrite E, recorded_app in A. apply (f_equal (firstn (length (recorded before)))) in A.
    rewrite firstn_app, Nat.sub_diag, firstn_all, firstn_O, app_nil_r in A. rewrite A at 1.
    rewrite firstn_app. replace (length (recorded before) - length taken)%nat with 0%nat by lia. rewrite firstn_O, app_nil_r. reflexivity. }
  rewrite P at 1. rewrite firstn_skipn. exact B.
Qed.
Lemma holding_nil : forall (l : list (thread M)), (forall t th, nth_error l t = Some th -> held (th_pc th) = []) -> holding l = [].
Proof.
  induction l as [|x l IH]; intros H; [reflexivity|]. cbn. rewrite (H 0%nat x eq_refl). apply IH. intros t th Ht. exact (H (S t) th Ht).
Qed.
Lemma clean_lost tr : clean tr -> lost tr = [].
Proof. induction 1 as [|e tr A B IH]; [reflexivity|]. cbn. unfold lost in IH. rewrite IH. destruct e; try reflexivity. contradiction. Qed.

(** ** The ticker makes progress *)
Definition inv_called s : Prop :=
  (forall t th, nth_error (rs_threads s) t = Some th -> call_of (th_pc th) = Some OpShutdown -> In (ECall t OpShutdown) (rs_trace s)) /\
  (rs_event s = true -> exists t, In (ECall t OpShutdown) (rs_trace s)).
Lemma trans_shutting : forall s t p p' evs pend lock ev dn, trans s t p p' evs pend lock ev dn -> call_of p' = Some OpShutdown ->
  call_of p = Some OpShutdown \/ In (ECall t OpShutdown) evs.
Proof.
  intros s t p p' evs pend lock ev dn T P.
  cases_T T; try (destruct w); cbn in P |- *; auto; try discriminate; try (destruct op0; try discriminate; auto).
  destruct (rs_event s); discriminate.
Qed.
Lemma inv_called_ind : inductive inv_called.
Proof.
  intros s s' [I J] St. destruct St as [| |m R|t th p' evs pend lock ev dn H T]; try (split; assumption).
  - split; cbn [rs_trace rs_threads rs_event].
    + intros t th H P. apply in_or_app. left. eauto.
    + intros E. destruct (J E) as [t Ht]. exists t. apply in_or_app. auto.
  - split; cbn [next rs_trace rs_threads rs_event].
    + intros t' th' H' P. apply in_or_app. apply nth_set in H'. destruct H' as [[<- ->]|[N H']]; [|eauto].
      cbn [th_pc] in P. destruct (trans_shutting _ _ _ _ _ _ _ _ _ T P); eauto.
    + intros E. destruct (trans_done _ _ _ _ _ _ _ _ _ T) as (_ & _ & _ & [->|(P & _)] & _).
      * destruct (J E) as [t' Ht]. exists t'. apply in_or_app. auto.
      * exists t. apply in_or_app. left. apply (I _ _ H). rewrite P. reflexivity.
Qed.
Lemma init_called ticking n : inv_called (rs_init ticking n).
Proof.
  split; [|discriminate]. intros t th H P. apply nth_init in H. destruct H as [_ Q]. rewrite Q in P.
  destruct (Nat.eqb t 0); [destruct ticking|]; discriminate.
Qed.

Lemma held_client : forall s t th, inv_call s -> no_collect_call (rs_trace s) -> t <> 0%nat -> nth_error (rs_threads s) t = Some th ->
  held (th_pc th) = [] /\ forall w b, th_pc th <> PExport w b.
Proof.
  intros s t th [Ro C] N Nt H. specialize (Ro _ _ H). destruct (Nat.eqb_spec t 0); [contradiction|].
  specialize (C _ _ Nt H). destruct (N t) as [N1 N2]. rewrite C in N1, N2.
  destruct (th_pc th); cbn in *; try (split; [reflexivity|discriminate]); destruct w; cbn in *; congruence.
Qed.

Definition smooth : choice M := Ch (CollOk [] false) XOk false.

Section Steps.
Variables (pend : list M) (dn : bool) (l : list (thread M)) (tr : list (rev_ M)).
Let st pend lock p u k tr : rstate M := RS true pend lock false dn (Th p u k :: l) tr.
Lemma st_wait u k : rstep (st pend None PWait u k tr) (ARun 0%nat smooth) = st pend None (PCollect WTick) u k tr.
Proof. reflexivity. Qed.
Lemma st_collect u k : rstep (st pend None (PCollect WTick) u k tr) (ARun 0%nat smooth) = st [] None (PAttach WTick pend) u k tr.
Proof. destruct pend; cbn; unfold st, goto, emit, set_pending; cbn; now rewrite ?app_nil_r. Qed.
Lemma st_attach b u k : rstep (st pend None (PAttach WTick b) u k tr) (ARun 0%nat smooth) = st pend None (PLock WTick b) true u tr.
Proof. reflexivity. Qed.
Lemma st_lock b u k : rstep (st pend None (PLock WTick b) u k tr) (ARun 0%nat smooth) = st pend (Some 0%nat) (PExport WTick b) u k (tr ++ [EXBegin 0 b u]).
Proof. reflexivity. Qed.
Lemma st_export lock b u k : rstep (st pend lock (PExport WTick b) u k tr) (ARun 0%nat smooth) = st pend None (PDetach WTick) u k (tr ++ [EXEnd 0 b XOk]).
Proof. reflexivity. Qed.
Lemma st_detach u k : rstep (st pend None (PDetach WTick) u k tr) (ARun 0%nat smooth) = st pend None PWait k k tr.
Proof. reflexivity. Qed.
End Steps.

Lemma ticker_progress : forall ticking s, inv_shut ticking s -> inv_lock s -> inv_call s -> inv_called s -> ticking = true ->
  (exists th, nth_error (rs_threads s) 0 = Some th) -> rs_reg s = true -> clean (rs_trace s) ->
  no_collect_call (rs_trace s) -> (forall t, ~ In (ECall t OpShutdown) (rs_trace s)) ->
  exists k, let s' := rrun s (repeat (ARun 0%nat smooth) k) in
    rs_pending s' = [] /\ holding (rs_threads s') = [] /\ lost (rs_trace s') = [] /\ recorded (rs_trace s') = recorded (rs_trace s).
Proof.
  intros ticking s Is Il Ic Ica Tk [th0 H0] Rg Cl Nc Ns.
  assert (Ev : rs_event s = false). { destruct (rs_event s) eqn:E; [|reflexivity]. destruct (proj2 Ica E) as [t Ht]. destruct (Ns t Ht). }
  destruct (is_event _ _ Is Ev _ H0) as [La De]. assert (Ro := is_role _ _ Is _ _ H0). cbn [Nat.eqb] in Ro.
  assert (Lk : rs_lock s = None \/ exists w b, rs_lock s = Some 0%nat /\ th_pc th0 = PExport w b).
  { destruct (rs_lock s) as [t|] eqn:L; [right|left; reflexivity]. destruct (proj1 (proj2 Il t) L) as (th & w & b & A & B).
    destruct (Nat.eq_dec t 0) as [->|Nt]; [exists w, b; split; congruence|].
    destruct (held_client _ _ _ Ic Nc Nt A) as [_ Q]. destruct (Q _ _ B). }
  assert (Hl : forall l th, rs_threads s = th0 :: l -> held (th_pc th) = [] -> holding (th :: l) = []).
  { intros l th E Q. apply holding_nil. intros [|t] th' H'; cbn in H'; [congruence|].
    apply (held_client s (S t) th' Ic Nc); [discriminate|]. rewrite E. exact H'. }
  assert (Cl0 := Cl). apply clean_lost in Cl.
  assert (Go : forall k, let s' := rrun s (repeat (ARun 0%nat smooth) k) in
     rs_pending s' = [] -> (exists th l, rs_threads s = th0 :: l /\ rs_threads s' = th :: l /\ held (th_pc th) = []) ->
     (exists evs, rs_trace s' = rs_trace s ++ evs /\ recorded evs = [] /\ lost evs = []) ->
     rs_pending s' = [] /\ holding (rs_threads s') = [] /\ lost (rs_trace s') = [] /\ recorded (rs_trace s') = recorded (rs_trace s)).
  { intros k s' P (th & l & E1 & E2 & Q) (evs & E & Er & El). split; [exact P|]. rewrite E2, E, lost_app, recorded_app, Er, El, !app_nil_r.
    split; [eapply Hl; eassumption|]. split; [assumption|reflexivity]. }
  destruct s as [reg pend lock ev dn ths tr]. cbn [rs_threads rs_reg rs_event rs_lock rs_trace] in *. subst reg ev.
  destruct ths as [|x l]; [discriminate|]. cbn in H0. injection H0 as ->. destruct th0 as [p u k0]. cbn [th_pc] in *.
  assert (Fin : forall k pend' u' k' evs, recorded evs = [] -> lost evs = [] ->
     rrun (RS true pend lock false dn (Th p u k0 :: l) tr) (repeat (ARun 0%nat smooth) k) = RS true pend' None false dn (Th PWait u' k' :: l) (tr ++ evs) ->
     exists k, let s' := rrun (RS true pend lock false dn (Th p u k0 :: l) tr) (repeat (ARun 0%nat smooth) k) in
       rs_pending s' = [] /\ holding (rs_threads s') = [] /\ lost (rs_trace s') = [] /\ recorded (rs_trace s') = recorded tr).
  { intros k pend' u' k' evs Er El E. exists (k + 6)%nat.
    assert (F : rrun (RS true pend lock false dn (Th p u k0 :: l) tr) (repeat (ARun 0%nat smooth) (k + 6))
      = RS true [] None false dn (Th PWait u' u' :: l) (tr ++ evs ++ [EXBegin 0 pend' true; EXEnd 0 pend' XOk])).
    { rewrite repeat_app. unfold rrun in *. rewrite fold_left_app, E. cbn [repeat fold_left].
      rewrite st_wait, st_collect, st_attach, st_lock, st_export, st_detach. rewrite <- !app_assoc. reflexivity. }
    apply Go; rewrite F; cbn [rs_pending rs_threads rs_trace].
    - reflexivity.
    - do 2 eexists. split; [reflexivity|]. split; reflexivity.
    - eexists. split; [reflexivity|]. rewrite recorded_app, lost_app, Er, El. split; reflexivity. }
  unfold rrun in Fin.
  destruct p as [| | |w|w b|w b|w b|w| | | | | |]; cbn in Ro, La; try contradiction; try (destruct w; try contradiction; try discriminate).
  - destruct Lk as [->|(w & b & _ & E)]; [|discriminate].
    apply (Fin 0%nat pend u k0 []); [reflexivity|reflexivity|]. cbn [repeat fold_left]. rewrite app_nil_r. reflexivity.
  - exfalso. apply De; auto.
  - destruct Lk as [->|(w & b & _ & E)]; [|discriminate].
    apply (Fin 5%nat [] u u [EXBegin 0 pend true; EXEnd 0 pend XOk]); [reflexivity|reflexivity|]. cbn [repeat fold_left].
    rewrite st_collect, st_attach, st_lock, st_export, st_detach. rewrite <- !app_assoc. reflexivity.
  - destruct Lk as [->|(w & b' & _ & E)]; [|discriminate].
    apply (Fin 4%nat pend u u [EXBegin 0 b true; EXEnd 0 b XOk]); [reflexivity|reflexivity|]. cbn [repeat fold_left].
    rewrite st_attach, st_lock, st_export, st_detach. rewrite <- !app_assoc. reflexivity.
  - destruct Lk as [->|(w & b' & _ & E)]; [|discriminate].
    apply (Fin 3%nat pend k0 k0 [EXBegin 0 b u; EXEnd 0 b XOk]); [reflexivity|reflexivity|]. cbn [repeat fold_left].
    rewrite st_lock, st_export, st_detach. rewrite <- !app_assoc. reflexivity.
  - apply (Fin 2%nat pend k0 k0 [EXEnd 0 b XOk]); [reflexivity|reflexivity|]. cbn [repeat fold_left].
    rewrite st_export, st_detach. reflexivity.
  - destruct Lk as [->|(w & b' & _ & E)]; [|discriminate].
    apply (Fin 1%nat pend k0 k0 []); [reflexivity|reflexivity|]. cbn [repeat fold_left]. rewrite st_detach, app_nil_r. reflexivity.
Qed.

Definition reach (ticking : bool) (n : nat) (l : list (ract M)) : rstate M := rrun (rs_init ticking n) l.
Lemma reach_cons ticking n l : inv_cons (reach ticking n l). Proof. unfold reach. apply (run_inv _ inv_cons_ind). apply init_cons. Qed.
Lemma reach_lock ticking n l : inv_lock (reach ticking n l). Proof. unfold reach. apply (run_inv _ inv_lock_ind). apply init_lock. Qed.
Lemma reach_call ticking n l : inv_call (reach ticking n l). Proof. unfold reach. apply (run_inv _ inv_call_ind). apply init_call. Qed.
Lemma reach_past ticking n l : inv_past (reach ticking n l). Proof. unfold reach. apply (run_inv _ inv_past_ind). apply init_past. Qed.
Lemma reach_shut ticking n l : inv_shut ticking (reach ticking n l). Proof. unfold reach. apply (run_inv _ (inv_shut_ind ticking)). apply init_shut. Qed.
Lemma reach_order ticking n l : inv_order (reach ticking n l). Proof. unfold reach. apply (run_inv _ inv_order_ind). apply init_order. Qed.
Lemma reach_ctx ticking n l : inv_ctx (reach ticking n l). Proof. unfold reach. apply (run_inv _ inv_ctx_ind). apply init_ctx. Qed.
Lemma reach_called ticking n l : inv_called (reach ticking n l). Proof. unfold reach. apply (run_inv _ inv_called_ind). apply init_called. Qed.
Lemma reach_zero ticking n l : exists th, nth_error (rs_threads (reach ticking n l)) 0 = Some th.
Proof.
  assert (I : inductive (fun s => exists th, nth_error (rs_threads s) 0 = Some th)).
  { intros s s' [th H] St. destruct St as [| |m R|t th' p' evs pend lock ev dn H' T]; eauto. cbn [next rs_threads]. rewrite nth_upd.
    rewrite H. destruct (Nat.eqb t 0); cbn; eauto. }
  unfold reach. apply (run_inv _ I). cbn. eauto.
Qed.

(** ** Calls that returned *)
Lemma trans_ret : forall s t p p' evs pend lock ev dn t' op, trans s t p p' evs pend lock ev dn -> (rs_reg s = false -> rs_pending s = []) ->
  op <> OpShutdown -> In (ERet t' op true) evs -> t' = t /\ (past p = Some op \/ pend = []).
Proof.
  intros s t p p' evs pend lock ev dn t' op T Rg No Hi.
  cases_T T; try (destruct w); cbn in Hi; rewrite ?in_app_iff, ?in_map_iff in Hi; cbn in Hi;
    repeat match goal with H : _ \/ _ |- _ => destruct H | H : exists _, _ |- _ => destruct H | H : _ /\ _ |- _ => destruct H end;
    try discriminate; try contradiction; match goal with H : ERet _ _ _ = ERet _ _ _ |- _ => injection H as <- end; subst; try congruence; cbn; auto.
Qed.
Definition inv_ret s : Prop := inv_past s /\ forall t op before, op <> OpShutdown -> call_returned t op before (rs_trace s) -> gone s before.
Lemma inv_ret_ind : inductive inv_ret.
Proof.
  intros s s' [Pa I] St. split; [eapply inv_past_ind; eassumption|].
  destruct St as [| |m R|t th p' evs pend lock ev dn H T]; try exact I.
  - intros t op before No (since & E & N & Hr). cbn [rs_trace] in E.
    destruct (split_app _ _ _ _ _ E) as [(s' & E' & ->)|(mid & -> & E')]; [|destruct mid as [|? [|? ?]]; discriminate].
    apply in_app_or in Hr. destruct Hr as [Hr|[Hr|[]]]; [|discriminate].
    assert (G : gone s before). { apply (I t op before No). exists s'. split; [assumption|]. split; [|assumption]. intros op' Hi. apply (N op'), in_or_app. auto. }
    unfold gone in *. cbn [rs_pending rs_trace]. rewrite recorded_app, !app_length. cbn. lia.
  - intros t' op before No (since & E & N & Hr). cbn [next rs_trace] in E.
    destruct (split_app _ _ _ _ _ E) as [(s' & E' & ->)|(mid & -> & E')].
    2:{ exfalso. destruct (trans_calls _ _ _ _ _ _ _ _ _ T t' op) as (A & B & C); [rewrite E'; apply in_or_app; right; left; reflexivity|].
        rewrite C in E'. destruct mid as [|? [|? ?]]; try discriminate. injection E' as _ <-. destruct Hr. }
    assert (N0 : forall op', ~ In (ECall t' op') s') by (intros op' Hi; apply (N op'), in_or_app; auto).
    apply in_app_or in Hr. destruct Hr as [Hr|Hr].
    + apply gone_next; [assumption|]. apply (I t' op before No). exists s'. auto.
    + destruct Pa as [[Rg _] Pa].
      destruct (trans_ret _ _ _ _ _ _ _ _ _ _ _ T Rg No Hr) as [-> [P|Pn]].
      * apply gone_next; [assumption|]. apply (Pa _ _ _ _ H P). exists s'. auto.
      * subst pend. eapply gone_prefix; [|reflexivity]. cbn [next rs_trace]. rewrite E', <- app_assoc. reflexivity.
Qed.
Lemma reach_ret ticking n l : inv_ret (reach ticking n l).
Proof.
  unfold reach. apply (run_inv _ inv_ret_ind). split; [apply init_past|]. intros t op before _ (since & E & _). destruct before; discriminate.
Qed.
End P.
