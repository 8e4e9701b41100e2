(** Proofs for C90. *)
From Verif Require Import Spec_Tracing Proof_Span Proof_Sampling Props_Sampling Proof_Processor Proof_Batch Proof_Otlp Proof_OtlpFields.
From Coq Require Import Lia.
Local Open Scope nat_scope.

(** ** Histories *)
Lemma starts_app h k : starts (h ++ k) = starts h + starts k.
Proof. induction h as [|e h IH]; [reflexivity|]. destruct e; cbn [starts app]; rewrite IH; reflexivity. Qed.
Lemma calls_on_app n h k : calls_on n (h ++ k) = calls_on n h ++ calls_on n k.
Proof.
  induction h as [|e h IH]; [reflexivity|]. destruct e as [| m o| |]; cbn [calls_on app]; try exact IH.
  destruct (Nat.eqb m n); cbn [app]; now rewrite IH.
Qed.

(** ** Spans *)
Definition advance (acts : list act) (s : started) : started :=
  match s with Recording w => Recording (fold_left sw_step acts w) | NonRecording sc => NonRecording sc end.
Definition act_calls (acts : list act) : list sop := flat_map (fun a => match a with ACall o => [o] | AOnEnd => [] end) acts.
Lemma act_calls_app a b : act_calls (a ++ b) = act_calls a ++ act_calls b.
Proof. apply flat_map_app. Qed.
Lemma until_end_calls acts : until_end acts = until_end (map ACall (act_calls acts)).
Proof. induction acts as [|[o|] acts IH]; [reflexivity| |exact IH]. destruct o; cbn; try reflexivity; f_equal; exact IH. Qed.
Lemma first_end_calls acts : first_end acts = first_end (map ACall (act_calls acts)).
Proof. induction acts as [|[o|] acts IH]; [reflexivity| |exact IH]. destruct o; cbn; try reflexivity; exact IH. Qed.
Lemma advance_app a b s : advance (a ++ b) s = advance b (advance a s).
Proof. destruct s; cbn; [now rewrite fold_left_app|reflexivity]. Qed.

Lemma call_ctx s o : sp_start s <> None ->
  sp_ctx (span_call s o) = sp_ctx s /\ sp_start (span_call s o) = sp_start s.
Proof.
  intros H. destruct (is_end o) eqn:E.
  - destruct o; try discriminate. cbn. unfold end_locked. destruct (sp_start s) eqn:Q; [|auto]. destruct (is_ended s); cbn; auto.
  - destruct (call_keeps s o E H) as (A & _ & _ & _ & B & _). auto.
Qed.
Lemma sw_ctx acts w : sp_start (w_span w) <> None ->
  sp_ctx (w_span (fold_left sw_step acts w)) = sp_ctx (w_span w)
  /\ sp_start (w_span (fold_left sw_step acts w)) = sp_start (w_span w).
Proof.
  revert w. induction acts as [|a acts IH]; intros w H; [auto|]. cbn [fold_left].
  assert (E : sp_ctx (w_span (sw_step w a)) = sp_ctx (w_span w) /\ sp_start (w_span (sw_step w a)) = sp_start (w_span w)).
  { destruct a as [o|]; cbn; [now apply call_ctx|]. destruct (w_pending w); auto. }
  destruct E as [E1 E2]. destruct (IH (sw_step w a)) as [I1 I2]; [congruence|]. split; congruence.
Qed.
Definition live (s : started) : Prop := match s with Recording w => sp_start (w_span w) <> None | NonRecording _ => True end.
Lemma advance_ctx acts s : live s -> started_context (advance acts s) = started_context s /\ live (advance acts s).
Proof.
  destruct s as [w|sc]; cbn [advance live]; [|auto]. intros H. destruct (sw_ctx acts w H) as [A B].
  unfold started_context. split; [exact A|congruence].
Qed.

(** ** Starting a span *)
Lemma start_recording {G} (gt gs : G -> Z * G) tr cur c name kind attrs links st now g w g' :
  start_span gt gs tr cur c name kind attrs links st now g = (Ok (Recording w), g') ->
  let p := current_span_context (resolve cur c) in
  exists tid sid flags state s,
    let r := t_sampler tr cur c tid name kind attrs links in
    new_span (t_limits tr) name (SC tid sid false flags state) (if sc_is_valid p then Some p else None) kind (sr_attrs r) links = Ok s
    /\ w = sw_init s st now /\ sr_decision r <> DROP.
Proof.
  unfold start_span. cbn zeta. set (p := current_span_context (resolve cur c)).
  destruct (match (if sc_is_valid p then Some p else None) with
            | Some p0 => (sc_trace_id p0, g) | None => gt g end) as [tid g1].
  destruct (gs g1) as [sid g2].
  set (r := t_sampler tr cur c tid name kind attrs links).
  destruct (d_is_recording (sr_decision r)) eqn:D; [|discriminate].
  set (flags := if d_is_sampled (sr_decision r) then 1%Z else 0%Z).
  set (state := match sr_state r with Some s => s | None => ts_empty end).
  destruct (new_span _ _ _ _ _ _ _) as [s|] eqn:N; cbn [bind_out]; [|discriminate].
  intros H. injection H as <- _. exists tid, sid, flags, state, s.
  split; [exact N|]. split; [reflexivity|]. intros Q. change (sr_decision r = DROP) in Q. rewrite Q in D. discriminate.
Qed.
Lemma start_live {G} (gt gs : G -> Z * G) tr cur c name kind attrs links st now g s g' :
  limits_ok (t_limits tr) ->
  start_span gt gs tr cur c name kind attrs links st now g = (Ok s, g') -> live s.
Proof.
  intros L E. destruct s as [w|sc]; [|exact I]. destruct (start_recording _ _ _ _ _ _ _ _ _ _ _ _ _ _ E) as (tid & sid & f & ts & s & N & -> & _).
  destruct (new_span_describes _ _ _ _ _ _ _ _ st now L N) as (_ & _ & S0 & _). cbn [live sw_init w_span].
  cbn zeta in S0. congruence.
Qed.

Lemma set_nth_length {A} i (x : A) l : length (set_nth i x l) = length l.
Proof. revert i. induction l as [|y l IH]; intros [|i]; cbn; auto. Qed.
Lemma nth_set_nth {A} i (x : A) l j : nth_error (set_nth i x l) j =
  if Nat.eqb i j then match nth_error l i with Some _ => Some x | None => None end else nth_error l j.
Proof.
  revert i j. induction l as [|y l IH]; intros [|i] [|j]; cbn; auto; destruct (Nat.eqb i j); reflexivity.
Qed.

Section World.
Context {G : Type}.
Variable gt gs : G -> Z * G.
Variable tr : tracer.
Variable res : resource.
Variable maxq maxb : nat.
Hypothesis Lim : limits_ok (t_limits tr).
Notation step := (tw_step gt gs tr res maxq maxb).
Notation run := (tw_run gt gs tr res maxq maxb).

Definition do_start (w : tworld) (explicit : option context) (a : start_call) : outcome_of started * G :=
  let c := place_context (tw_spans w) (c_place a) in
  match explicit with
  | Some cur => start_span gt gs tr cur (Some c) (c_name a) (c_kind a) (c_attrs a) (c_links a) (c_start a) (c_now a) (tw_gen w)
  | None => start_span gt gs tr c None (c_name a) (c_kind a) (c_attrs a) (c_links a) (c_start a) (c_now a) (tw_gen w)
  end.
Lemma do_start_ok w ex a : exists s g', do_start w ex a = (Ok s, g') /\ live s.
Proof.
  unfold do_start. cbn zeta. destruct ex as [cur|].
  - pose proof (@start_span_spec G gt gs tr cur (Some (place_context (tw_spans w) (c_place a))) (c_name a) (c_kind a) (c_attrs a)
                  (c_links a) (c_start a) (c_now a) (tw_gen w) Lim) as H. cbn zeta in H.
    destruct (if sc_is_valid _ then _ else _) as [tid g1]. destruct H as (s & E & _). exists s, (snd (gs g1)).
    split; [exact E|]. eapply start_live; eassumption.
  - pose proof (@start_span_spec G gt gs tr (place_context (tw_spans w) (c_place a)) None (c_name a) (c_kind a) (c_attrs a)
                  (c_links a) (c_start a) (c_now a) (tw_gen w) Lim) as H. cbn zeta in H.
    destruct (if sc_is_valid _ then _ else _) as [tid g1]. destruct H as (s & E & _). exists s, (snd (gs g1)).
    split; [exact E|]. eapply start_live; eassumption.
Qed.
Lemma step_start w ex a :
  exists s g', do_start w ex a = (Ok s, g') /\ live s
  /\ step w (VStart (c_scope a) ex (c_place a) (c_name a) (c_kind a) (c_attrs a) (c_links a) (c_start a) (c_now a))
     = TW g' (tw_spans w ++ [(s, c_scope a)]) (tw_proc w).
Proof.
  destruct (do_start_ok w ex a) as (s & g' & E & L). exists s, g'. split; [exact E|]. split; [exact L|].
  unfold do_start in E. cbn zeta in E. cbn [tw_step]. destruct ex; rewrite E; reflexivity.
Qed.

Lemma step_span w e n s sco : nth_error (tw_spans w) n = Some (s, sco) ->
  exists acts, nth_error (tw_spans (step w e)) n = Some (advance acts s, sco) /\ act_calls acts = calls_on n [e].
Proof.
  intros H. destruct e as [sco' ex p name kind attrs links st now|m o|m t|e].
  - exists []. split; [|reflexivity]. destruct (step_start w ex (StartCall sco' p name kind attrs links st now)) as (s' & g' & _ & _ & E).
    cbn [c_scope c_place c_name c_kind c_attrs c_links c_start c_now] in E. rewrite E. cbn [tw_spans].
    rewrite nth_error_app1 by (apply nth_error_Some; congruence). rewrite H. destruct s; reflexivity.
  - cbn [tw_step calls_on]. destruct (Nat.eqb m n) eqn:Q.
    + apply Nat.eqb_eq in Q. subst m. exists [ACall o]. split; [|reflexivity]. rewrite H. destruct s as [sw|sc].
      * cbn [tw_spans]. rewrite nth_set_nth, Nat.eqb_refl, H. reflexivity.
      * exact H.
    + exists []. split; [|reflexivity]. replace (advance [] s) with s by (destruct s; reflexivity).
      destruct (nth_error (tw_spans w) m) as [[[sw|sc] sco']|]; [|exact H|exact H]. cbn [tw_spans]. rewrite nth_set_nth, Q. exact H.
  - cbn [tw_step calls_on]. assert (D : nth_error (tw_spans w) n = Some (advance [] s, sco)) by (destruct s; exact H).
    destruct (nth_error (tw_spans w) m) as [[[sw|sc] sco']|] eqn:Em; [|exists []; auto|exists []; auto].
    destruct (w_pending sw) eqn:P; [exists []; auto|]. destruct (in_no_call item _); [|exists []; auto]. cbn [tw_spans].
    rewrite nth_set_nth. destruct (Nat.eqb m n) eqn:Q; [|exists []; auto].
    apply Nat.eqb_eq in Q. subst m. rewrite H in Em |- *. injection Em as -> ->. exists [AOnEnd]. auto.
  - exists []. split; [|reflexivity]. cbn. destruct s; exact H.
Qed.
Lemma later_span later : forall w n s sco, nth_error (tw_spans w) n = Some (s, sco) ->
  exists acts, nth_error (tw_spans (fold_left step later w)) n = Some (advance acts s, sco) /\ act_calls acts = calls_on n later.
Proof.
  induction later as [|e later IH]; intros w n s sco H.
  - exists []. split; [destruct s; exact H|reflexivity].
  - cbn [fold_left]. destruct (step_span w e n s sco H) as (a1 & H1 & C1). destruct (IH _ _ _ _ H1) as (a2 & H2 & C2).
    exists (a1 ++ a2). rewrite advance_app, act_calls_app, C1, C2. split; [exact H2|].
    change (e :: later) with ([e] ++ later). now rewrite calls_on_app.
Qed.
Definition winv (w : tworld (G := G)) : Prop := Forall (fun s => live (fst s)) (tw_spans w).
Lemma step_length w e : length (tw_spans (step w e)) = length (tw_spans w) + starts [e].
Proof.
  destruct e as [sco' ex p name kind attrs links st now|m o|m t|e].
  - destruct (step_start w ex (StartCall sco' p name kind attrs links st now)) as (s' & g' & _ & _ & E).
    cbn [c_scope c_place c_name c_kind c_attrs c_links c_start c_now] in E. rewrite E. cbn [tw_spans starts].
    rewrite app_length. reflexivity.
  - cbn [tw_step starts]. rewrite Nat.add_0_r. destruct (nth_error (tw_spans w) m) as [[[sw|sc] sco']|]; try reflexivity. apply set_nth_length.
  - cbn [tw_step starts]. rewrite Nat.add_0_r. destruct (nth_error (tw_spans w) m) as [[[sw|sc] sco']|]; try reflexivity.
    destruct (w_pending sw); try reflexivity. destruct (in_no_call item _); try reflexivity. apply set_nth_length.
  - cbn. lia.
Qed.
Lemma run_snoc g h e : run g (h ++ [e]) = step (run g h) e.
Proof. unfold tw_run. rewrite fold_left_app. reflexivity. Qed.
Lemma run_app g h k : run g (h ++ k) = fold_left step k (run g h).
Proof. unfold tw_run. apply fold_left_app. Qed.
Lemma run_length g h : length (tw_spans (run g h)) = starts h.
Proof.
  induction h as [|e h IH] using rev_ind; [reflexivity|]. rewrite run_snoc, step_length, IH, starts_app. reflexivity.
Qed.
Lemma run_live g h : winv (run g h).
Proof.
  induction h as [|e h IH] using rev_ind; [constructor|]. rewrite run_snoc. unfold winv in *.
  apply Forall_forall. intros [s sco] I. apply In_nth_error in I. destruct I as [n I].
  destruct (nth_error (tw_spans (run g h)) n) as [[s0 sco0]|] eqn:E.
  - destruct (step_span _ e _ _ _ E) as (acts & H & _). rewrite H in I. injection I as <- <-.
    cbn [fst]. apply advance_ctx. rewrite Forall_forall in IH. apply (IH _ (nth_error_In _ _ E)).
  - destruct e as [sco' ex p name kind attrs links st now|m o|m t|e].
    + destruct (step_start (run g h) ex (StartCall sco' p name kind attrs links st now)) as (s' & g' & _ & L & Es).
      cbn [c_scope c_place c_name c_kind c_attrs c_links c_start c_now] in Es. rewrite Es in I. cbn [tw_spans] in I.
      apply nth_error_In, in_app_or in I. destruct I as [I|[I|[]]].
      * rewrite Forall_forall in IH. exact (IH _ I).
      * injection I as <- <-. exact L.
    + exfalso. apply nth_error_None in E. assert (K : n < length (tw_spans (step (run g h) (VCall m o)))) by (apply nth_error_Some; congruence).
      rewrite step_length in K. cbn in K. lia.
    + exfalso. apply nth_error_None in E. assert (K : n < length (tw_spans (step (run g h) (VOnEnd m t)))) by (apply nth_error_Some; congruence).
      rewrite step_length in K. cbn in K. lia.
    + exfalso. apply nth_error_None in E. assert (K : n < length (tw_spans (step (run g h) (VProc e)))) by (apply nth_error_Some; congruence).
      rewrite step_length in K. cbn in K. lia.
Qed.
Lemma context_later g h k n c : context_of (run g h) n = Some c -> context_of (run g (h ++ k)) n = Some c.
Proof.
  unfold context_of. intros H. destruct (nth_error (tw_spans (run g h)) n) as [[s sco]|] eqn:E; [|discriminate].
  rewrite run_app. destruct (later_span k _ _ _ _ E) as (acts & -> & _). cbn [option_map fst] in *.
  rewrite (proj1 (advance_ctx acts s ltac:(pose proof (run_live g h) as W; unfold winv in W; rewrite Forall_forall in W; exact (W _ (nth_error_In _ _ E))))).
  exact H.
Qed.

(** What became of a span that was started. *)
Lemma started_now g h n a later : started_by h n a later ->
  exists before ex s0 g' acts,
    starts before = n /\ do_start (run g before) ex a = (Ok s0, g') /\ live s0
    /\ nth_error (tw_spans (run g h)) n = Some (advance acts s0, c_scope a) /\ act_calls acts = calls_on n later
    /\ (exists k, h = before ++ k).
Proof.
  intros (before & ex & E & N). destruct (step_start (run g before) ex a) as (s & g' & D & L & S1).
  destruct (later_span later (TW g' (tw_spans (run g before) ++ [(s, c_scope a)]) (tw_proc (run g before))) n s (c_scope a)) as (acts & H & C).
  { cbn [tw_spans]. rewrite <- N, <- (run_length g before), nth_error_app2, Nat.sub_diag by lia. reflexivity. }
  exists before, ex, s, g', acts. split; [exact N|]. split; [exact D|]. split; [exact L|]. split; [|split; [exact C|eauto]].
  rewrite E, run_app. cbn [fold_left]. rewrite S1. exact H.
Qed.
(** Every span was started. *)
Lemma was_started h n : n < starts h -> exists a later, started_by h n a later.
Proof.
  induction h as [|e h IH] using rev_ind; cbn [starts]; [lia|]. rewrite starts_app. intros H.
  destruct (Nat.lt_ge_cases n (starts h)) as [K|K].
  - destruct (IH K) as (a & later & b & ex & -> & N). exists a, (later ++ [e]), b, ex. split; [|exact N].
    rewrite <- app_assoc. reflexivity.
  - destruct e as [sco' ex p name kind attrs links st now|m o|m t|e]; cbn [starts] in H; try lia.
    exists (StartCall sco' p name kind attrs links st now), [], h, ex. cbn. split; [reflexivity|lia].
Qed.

Section Valid.
Hypothesis Ids : valid_ids gt gs.
Lemma do_start_valid w ex a s g' : do_start w ex a = (Ok s, g') -> sc_is_valid (started_context s) = true.
Proof.
  unfold do_start. cbn zeta. destruct ex as [cur|]; intros E.
  - destruct (@started_valid G gt gs tr cur (Some (place_context (tw_spans w) (c_place a))) (c_name a) (c_kind a) (c_attrs a)
      (c_links a) (c_start a) (c_now a) (tw_gen w) Lim Ids) as (s' & E' & V). rewrite E in E'. injection E' as <-. exact V.
  - destruct (@started_valid G gt gs tr (place_context (tw_spans w) (c_place a)) None (c_name a) (c_kind a) (c_attrs a)
      (c_links a) (c_start a) (c_now a) (tw_gen w) Lim Ids) as (s' & E' & V). rewrite E in E'. injection E' as <-. exact V.
Qed.
Lemma context_valid g h n c : context_of (run g h) n = Some c -> sc_is_valid c = true.
Proof.
  unfold context_of. intros H. destruct (nth_error (tw_spans (run g h)) n) as [[s sco]|] eqn:E; [|discriminate].
  injection H as <-. destruct (was_started h n) as (a & later & B).
  { rewrite <- (run_length g h). apply nth_error_Some. congruence. }
  destruct (started_now g h n a later B) as (b & ex & s0 & g' & acts & _ & D & L & N & _). rewrite N in E. injection E as <- <-.
  cbn [fst]. rewrite (proj1 (advance_ctx acts s0 L)). exact (do_start_valid _ _ _ _ _ D).
Qed.
(** The parent of a span. *)
Lemma parent_is g before k p :
  let c := current_span_context (place_context (tw_spans (run g before)) p) in
  (if sc_is_valid c then Some c else None) = parent_of (run g (before ++ k)) (starts before) p.
Proof.
  cbn zeta. destruct p as [m base|c]; [|reflexivity]. cbn [place_context parent_of].
  destruct (Nat.ltb m (starts before)) eqn:Q.
  - apply Nat.ltb_lt in Q. rewrite <- (run_length g before) in Q. apply nth_error_Some in Q.
    destruct (nth_error (tw_spans (run g before)) m) as [[s sco]|] eqn:E; [|congruence].
    rewrite current_after.
    assert (C : context_of (run g before) m = Some (started_context s)) by (unfold context_of; rewrite E; reflexivity).
    rewrite (context_valid _ _ _ _ C). symmetry. now apply context_later.
  - apply Nat.ltb_ge in Q. rewrite <- (run_length g before) in Q. apply nth_error_None in Q. rewrite Q. reflexivity.
Qed.

Hypothesis Built : built_in (t_sampler tr).
Lemma recording_is g h n a later sw sco : started_by h n a later ->
  nth_error (tw_spans (run g h)) n = Some (Recording sw, sco) ->
  sco = c_scope a
  /\ carries (t_limits tr) (c_name a) (sp_ctx (w_span sw)) (parent_of (run g h) n (c_place a)) (c_kind a) (c_attrs a) (c_links a)
       (at_time (c_start a) (c_now a)) (recorded_on n later) (w_span sw)
  /\ sp_end (w_span sw) = end_of n later
  /\ match end_of n later with
     | None => w_pending sw = 0 /\ ended_spans (w_log sw) = []
     | Some _ => w_pending sw + length (ended_spans (w_log sw)) = 1
     end.
Proof.
  intros B H. destruct (started_now g h n a later B) as (b & ex & s0 & g' & acts & N & D & L & H' & C & k & Eh).
  rewrite H in H'. injection H' as E ->. split; [reflexivity|].
  destruct s0 as [w0|sc]; [|discriminate]. cbn [advance] in E. injection E as ->.
  pose proof (parent_is g b k (c_place a)) as P. cbn zeta in P. rewrite N, <- Eh in P.
  assert (R : exists ctx s1, new_span (t_limits tr) (c_name a) ctx (parent_of (run g h) n (c_place a)) (c_kind a) (c_attrs a) (c_links a) = Ok s1
                         /\ w0 = sw_init s1 (c_start a) (c_now a)).
  { unfold do_start in D. cbn zeta in D. rewrite <- P.
    destruct ex as [cur|]; apply start_recording in D; cbn zeta in D; cbn [resolve] in D;
      destruct D as (tid & sid & f & ts & s1 & M & -> & ND);
      (match type of M with context [sr_attrs ?r] =>
         assert (RA : sr_attrs r = c_attrs a) end);
      [|rewrite RA in M; eauto| |rewrite RA in M; eauto];
      (match goal with |- sr_attrs (t_sampler tr ?cur ?c ?t ?n ?k ?a ?l) = _ =>
         destruct (C88_built_in_samplers _ Built cur c t n k a l) as [-> _]; destruct (sr_decision _); congruence end). }
  destruct R as (ctx & s1 & M & ->).
  pose proof (c24_once _ _ _ _ _ _ _ _ (c_start a) (c_now a) acts Lim M) as (Q1 & Q2 & _ & Q3). cbn zeta in Q1, Q2, Q3.
  rewrite (ca_ctx _ _ _ _ _ _ _ _ _ _ Q1). unfold recorded_on, end_of. rewrite <- C, <- until_end_calls, <- first_end_calls.
  split; [exact Q1|]. split; [exact Q2|]. destruct (first_end acts); [apply Q3|exact Q3].
Qed.
End Valid.

(** ** The processor *)
Local Notation carried := (Proof_Batch.carried item).
Local Notation proc_cases := (Proof_Batch.proc_cases item item_sampled maxq maxb).
Local Notation still := (Proof_Batch.still item).
Local Notation still_step := (Proof_Batch.still_step item item_sampled maxq maxb).
Local Notation kept_in := (Proof_Batch.kept_in item item_sampled maxq maxb).
Local Notation in_flush := (Proof_Batch.in_flush item).
Local Notation in_shutdown := (Proof_Batch.in_shutdown item).
Local Notation flush_kept := (Proof_Batch.flush_kept item item_sampled maxq maxb).
Local Notation shutdown_kept := (Proof_Batch.shutdown_kept item item_sampled maxq maxb).
(** ** The invariant of the whole *)
Definition the_span (spans : list (started * option scope)) (n : nat) (x : rspan) : Prop :=
  exists sw sco, nth_error spans n = Some (Recording sw, sco) /\ w_pending sw = 0 /\ sp_end (w_span sw) <> None
                 /\ x = RSpan (w_span sw) res sco.
Record pinv (spans : list (started * option scope)) (b : bsp item) : Prop := PInv {
  p_acc : forall n x, In (n, x) (b_acc b) -> the_span spans n x;
  p_car : forall t n x, carried b t = Some (n, x) -> the_span spans n x;
  p_once : NoDup (map fst (b_acc b));
  p_one : forall t n x y, In (n, x) (b_acc b) -> carried b t = Some (n, y) -> False;
  p_two : forall t t' n x y, carried b t = Some (n, x) -> carried b t' = Some (n, y) -> t = t';
  p_all : forall n x, the_span spans n x -> item_sampled (n, x) = true ->
            In (n, x) (b_acc b) \/ (exists t, carried b t = Some (n, x)) \/ b_done b = true
}.
Lemma pinv_spans spans spans' b : (forall n x, the_span spans n x <-> the_span spans' n x) -> pinv spans b -> pinv spans' b.
Proof.
  intros H []. constructor; auto; intros.
  - apply H. eauto.
  - apply H. eauto.
  - apply H in H0. eauto.
Qed.
Lemma NoDup_snoc {A} (l : list A) x : NoDup l -> ~ In x l -> NoDup (l ++ [x]).
Proof.
  intros N I. induction l as [|y l IH]; [repeat constructor; auto|]. inversion N as [|? ? N1 N2]. subst. cbn. constructor.
  - rewrite in_app_iff. intros [K|[K|[]]]; [tauto|]. subst. apply I. left. reflexivity.
  - apply IH; [assumption|]. intros K. apply I. now right.
Qed.
Lemma pinv_proc spans b e b' : pinv spans b -> bsp_step item item_sampled maxq maxb b e = Some b' ->
  (forall t x, e <> ECall t (COnEnd x)) -> pinv spans b'.
Proof.
  intros P H NE. destruct (proc_cases b e b' H) as (D & [(A & C & _)|[(t & x & E & _)|[(t & x & A & C0 & C1 & C & R)|(t & x & A & C0 & C1 & C)]]]).
  - destruct P. constructor; rewrite ?A; auto.
    + intros t n x. rewrite C. eauto.
    + intros t n x y I. rewrite C. eauto.
    + intros t t' n x y. rewrite !C. eauto.
    + intros n x T S1. destruct (p_all0 n x T S1) as [K|[(t & K)|K]]; auto. right. left. exists t. now rewrite C.
  - destruct (NE _ _ E).
  - assert (CB : forall t' i, carried b' t' = Some i -> carried b t' = Some i).
    { intros t' i Q. destruct (Nat.eq_dec t' t) as [->|N]; [congruence|]. now rewrite <- C. }
    destruct P. constructor; rewrite ?A; auto.
    + intros t' n y Q. eauto.
    + intros t' n y z I Q. eauto.
    + intros t1 t2 n y z Q1 Q2. eauto.
    + intros n y T S1. destruct (p_all0 n y T S1) as [K|[(t' & K)|K]]; auto.
      destruct (Nat.eq_dec t' t) as [->|N]; [|right; left; exists t'; now rewrite C].
      rewrite C0 in K. injection K as ->. destruct R as [R|R]; [auto|congruence].
  - assert (CB : forall t' i, carried b' t' = Some i -> t' <> t /\ carried b t' = Some i).
    { intros t' i Q. destruct (Nat.eq_dec t' t) as [->|N]; [congruence|]. rewrite <- C; auto. }
    destruct P. constructor; rewrite ?A.
    + intros n y I. apply in_app_or in I. destruct I as [I|[I|[]]]; [eauto|]. subst x. eauto.
    + intros t' n y Q. apply CB in Q. destruct Q. eauto.
    + rewrite map_app. cbn [map]. apply NoDup_snoc; [assumption|]. intros I. apply in_map_iff in I. destruct I as ([n y] & E & I).
      destruct x as [n' y']. cbn in E. subst n'. eauto.
    + intros t' n y z I Q. apply CB in Q. destruct Q as [N Q]. apply in_app_or in I. destruct I as [I|[I|[]]]; [eauto|].
      subst x. apply N. eauto.
    + intros t1 t2 n y z Q1 Q2. apply CB in Q1, Q2. destruct Q1, Q2. eauto.
    + intros n y T S1. rewrite in_app_iff. destruct (p_all0 n y T S1) as [K|[(t' & K)|K]]; auto.
      destruct (Nat.eq_dec t' t) as [->|N]; [|right; left; exists t'; now rewrite C].
      rewrite C0 in K. injection K as ->. left. right. now left.
Qed.

Section Invariant.
Hypothesis Ids : valid_ids gt gs.
Hypothesis Built : built_in (t_sampler tr).
Lemma run_pinv g h : pinv (tw_spans (run g h)) (tw_proc (run g h)) /\ bsp_reach item item_sampled maxq maxb (tw_proc (run g h)).
Proof.
  induction h as [|e h [IH IR]] using rev_ind.
  { split; [|apply br_init]. constructor; try (intros; contradiction); try (intros; discriminate); [constructor|].
    intros n x (sw & sco & E & _). destruct n; discriminate. }
  pose proof (run_live g h) as LV. unfold winv in LV. rewrite Forall_forall in LV.
  assert (REC : forall n sw sco, nth_error (tw_spans (run g h)) n = Some (Recording sw, sco) ->
            sp_start (w_span sw) <> None /\ (w_pending sw <> 0 -> w_pending sw = 1 /\ sp_end (w_span sw) <> None)).
  { intros n sw sco E. split; [exact (LV _ (nth_error_In _ _ E))|]. destruct (was_started h n) as (a & later & B).
    { rewrite <- (run_length g h). apply nth_error_Some. congruence. }
    destruct (recording_is Ids Built g h n a later sw sco B E) as (_ & _ & Q1 & Q2). rewrite Q1.
    destruct (end_of n later); [intros; split; [lia|discriminate]|tauto]. }
  rewrite run_snoc. destruct e as [sco' ex p name kind attrs links st now|m o|m t|e].
  - destruct (step_start (run g h) ex (StartCall sco' p name kind attrs links st now)) as (s' & g' & D & L & E).
    cbn [c_scope c_place c_name c_kind c_attrs c_links c_start c_now] in E.
    split; [|rewrite E; exact IR].
    assert (FR : forall sw sco, nth_error (tw_spans (step (run g h) (VStart sco' ex p name kind attrs links st now))) (starts h)
                 = Some (Recording sw, sco) -> sp_end (w_span sw) = None).
    { intros sw sco N. rewrite <- run_snoc in N.
      refine (proj1 (proj2 (proj2 (recording_is Ids Built g _ (starts h) (StartCall sco' p name kind attrs links st now) [] sw sco _ N)))).
      exists h, ex. cbn. auto. }
    rewrite E in FR |- *. cbn [tw_spans tw_proc] in *. eapply pinv_spans; [|exact IH].
    intros n x. unfold the_span. destruct (Nat.lt_ge_cases n (length (tw_spans (run g h)))) as [K|K].
    + rewrite nth_error_app1 by exact K. tauto.
    + split; intros (sw & sco & N & P0 & X & _).
      * apply nth_error_None in K. congruence.
      * exfalso. assert (n = starts h).
        { assert (n < length (tw_spans (run g h) ++ [(s', sco')])) by (apply nth_error_Some; congruence).
          rewrite app_length in H. cbn in H. rewrite (run_length g h) in *. lia. }
        subst n. apply X. eapply FR. exact N.
  - cbn [tw_step]. destruct (nth_error (tw_spans (run g h)) m) as [[[sw|sc] sco]|] eqn:E; [|auto|auto].
    cbn [tw_spans tw_proc]. split; [|exact IR]. eapply pinv_spans; [|exact IH]. intros n x. unfold the_span. rewrite nth_set_nth, E.
    destruct (Nat.eqb m n) eqn:Q; [|tauto]. apply Nat.eqb_eq in Q. subst n. destruct (REC _ _ _ E) as [S0 _].
    destruct (sp_end (w_span sw)) eqn:EE.
    + assert (K : w_span (sw_step sw (ACall o)) = w_span sw /\ w_pending (sw_step sw (ACall o)) = w_pending sw).
      { cbn [sw_step w_span w_pending]. split; [apply ended_stays; congruence|]. unfold is_ended. rewrite EE.
        destruct o; try reflexivity. destruct (sp_start (w_span sw)); reflexivity. }
      destruct K as [K1 K2]. rewrite E. split; intros (sw' & sco1 & N & P0 & X & Y).
      * injection N as <- <-. exists (sw_step sw (ACall o)), sco. rewrite K1, K2. auto.
      * assert (sw' = sw_step sw (ACall o)) by congruence. assert (sco1 = sco) by congruence. subst sw' sco1.
        exists sw, sco. rewrite K1 in X, Y. rewrite K2 in P0. auto.
    + rewrite E. split; intros (sw' & sco1 & N & P0 & X & Y); [injection N as <- <-; congruence|]. exfalso.
      assert (sw' = sw_step sw (ACall o)) by congruence. subst sw'.
      cbn [sw_step w_span w_pending] in P0, X. destruct (is_end o) eqn:IE.
      * destruct o; try discriminate. unfold is_ended in P0. rewrite EE in P0.
        destruct (sp_start (w_span sw)); [discriminate|congruence].
      * destruct (call_keeps (w_span sw) o IE S0) as (_ & _ & _ & _ & _ & K). congruence.
  - cbn [tw_step]. destruct (nth_error (tw_spans (run g h)) m) as [[[sw|sc] sco]|] eqn:E; [|auto|auto].
    destruct (w_pending sw) as [|k] eqn:PE; [auto|]. destruct (in_no_call item (b_thr (tw_proc (run g h)) t)) eqn:NC; [|auto].
    destruct (REC _ _ _ E) as [S0 R1]. destruct R1 as [R1 R2]; [lia|]. assert (k = 0) by lia. subst k.
    unfold proc_step. set (it := (m, RSpan (w_span sw) res sco)).
    assert (ST : bsp_step item item_sampled maxq maxb (tw_proc (run g h)) (ECall t (COnEnd it)) = Some (tgoto item t (TOnEnd it) (tw_proc (run g h)))).
    { cbn [bsp_step]. now rewrite NC. }
    rewrite ST. cbn [tw_spans tw_proc]. split; [|eapply br_step; [exact IR|exact ST]].
    destruct (proc_cases _ _ _ ST) as (_ & [(_ & _ & F)|[(t' & x & Eq & A & D & C0 & C1 & C)|[(t' & x & A & C0 & C1 & _)|(t' & x & A & _)]]]).
    { destruct (F t it eq_refl). }
    2: { exfalso. unfold carried in C0, C1. cbn [b_thr tgoto] in C1. unfold tset in C1. destruct (Nat.eqb t' t) eqn:QQ; [discriminate|].
         rewrite C0 in C1. discriminate. }
    2: { exfalso. assert (L : length (b_acc (tw_proc (run g h))) = length (b_acc (tw_proc (run g h)) ++ [x])) by (now rewrite <- A).
         rewrite app_length in L. cbn in L. lia. }
    injection Eq as <- <-.
    set (b' := tgoto item t (TOnEnd it) (tw_proc (run g h))) in *.
    assert (SW : sw_step sw AOnEnd = SW (w_span sw) 0 (w_log sw ++ [POnEnd (w_span sw)])) by (cbn; now rewrite PE).
    assert (NEW : forall n x, the_span (set_nth m (Recording (sw_step sw AOnEnd), sco) (tw_spans (run g h))) n x <->
              (the_span (tw_spans (run g h)) n x \/ (n, x) = it)).
    { intros n x. unfold the_span. rewrite nth_set_nth, E. destruct (Nat.eqb m n) eqn:Q.
      - apply Nat.eqb_eq in Q. subst n. rewrite SW. split.
        + intros (sw' & sco1 & N & P0 & X & Y). injection N as <- <-. right. cbn in Y. subst x. reflexivity.
        + intros [(sw' & sco1 & N & P0 & X & Y)|Y]; [rewrite E in N; injection N as <- <-; congruence|].
          unfold it in Y. injection Y as ->. eexists _, _. split; [reflexivity|]. cbn. auto.
      - apply Nat.eqb_neq in Q. split; [auto|]. intros [K|K]; [exact K|]. unfold it in K. congruence. }
    assert (OLD : forall x, ~ the_span (tw_spans (run g h)) m x).
    { intros x (sw' & sco1 & N & P0 & _). rewrite E in N. injection N as <- <-. congruence. }
    assert (CB : forall t' i, carried b' t' = Some i -> (t' = t /\ i = it) \/ (t' <> t /\ carried (tw_proc (run g h)) t' = Some i)).
    { intros t' i Q. destruct (Nat.eq_dec t' t) as [->|N]; [left|right; rewrite <- C; auto]. split; congruence. }
    destruct IH. constructor; rewrite ?A.
    + intros n x I. apply NEW. left. eauto.
    + intros t' n x Q. apply NEW. destruct (CB _ _ Q) as [[_ Q1]|[_ Q1]]; [auto|left; eauto].
    + assumption.
    + intros t' n x y I Q. destruct (CB _ _ Q) as [[_ Q1]|[_ Q1]]; [|eauto].
      unfold it in Q1. injection Q1 as -> _. exact (OLD _ (p_acc0 _ _ I)).
    + intros t1 t2 n x y Q1 Q2. destruct (CB _ _ Q1) as [[-> E1]|[N1 E1]], (CB _ _ Q2) as [[-> E2]|[N2 E2]].
      * reflexivity.
      * unfold it in E1. injection E1 as -> _. destruct (OLD _ (p_car0 _ _ _ E2)).
      * unfold it in E2. injection E2 as -> _. destruct (OLD _ (p_car0 _ _ _ E1)).
      * eauto.
    + intros n x T S1. apply NEW in T. destruct T as [T|T].
      * destruct (p_all0 n x T S1) as [K|[(t' & K)|K]]; [auto| |right; right; congruence].
        right. left. exists t'. rewrite C; [exact K|]. intros ->. congruence.
      * right. left. exists t. now rewrite C1, T.
  - cbn [tw_step tw_spans tw_proc]. unfold proc_step.
    destruct (bsp_step item item_sampled maxq maxb (tw_proc (run g h)) (pev_bev e)) as [b'|] eqn:E; [|auto].
    split; [|eapply br_step; eassumption]. eapply pinv_proc; [exact IH|exact E|]. intros t x. destruct e; discriminate.
Qed.

Lemma the_span_is g h n x : the_span (tw_spans (run g h)) n x -> is_span (t_limits tr) res (run g h) h n x.
Proof.
  intros (sw & sco & E & P & X & ->). destruct (was_started h n) as (a & later & B).
  { rewrite <- (run_length g h). apply nth_error_Some. congruence. }
  destruct (recording_is Ids Built g h n a later sw sco B E) as (-> & Q1 & Q2 & _).
  exists a, later, (sp_ctx (w_span sw)). cbn [rs_span rs_scope rs_resource]. split; [exact B|].
  split; [unfold context_of; rewrite E; reflexivity|]. split; [exact Q1|]. split; [exact Q2|]. split; [congruence|auto].
Qed.

Hypothesis Q1 : 1 <= maxq.
Hypothesis B1 : 1 <= maxb.
Lemma exported_acc g h i : In i (exported (run g h)) -> In i (b_acc (tw_proc (run g h))).
Proof.
  intros I. destruct (c34_conservation item item_sampled maxq maxb Q1 B1 _ (proj2 (run_pinv g h))) as (A & L & _).
  rewrite A. apply in_or_app. left. unfold exported in I.
  assert (J : In i (map fst (filter (fun p => was_taken (snd p)) (b_gone (tw_proc (run g h)))))) by (rewrite <- L; apply in_or_app; now left).
  apply in_map_iff in J. destruct J as (y & E & J). apply filter_In in J. apply in_map_iff. exists y. tauto.
Qed.
Lemma exported_once g h : NoDup (map fst (exported (run g h))).
Proof.
  destruct (run_pinv g h) as [P R]. destruct (c34_conservation item item_sampled maxq maxb Q1 B1 _ R) as (A & L & _).
  unfold exported. apply (NoDup_prefix _ (map fst (assembling (b_wpc (tw_proc (run g h)))))).
  rewrite <- map_app. eapply eq_ind_r with (P := fun l => NoDup (map fst l)); [|exact L].
  assert (N : NoDup (map fst (map fst (b_gone (tw_proc (run g h)))))).
  { apply (NoDup_prefix _ (map fst (b_queue (tw_proc (run g h))))). rewrite <- map_app.
    exact (eq_ind _ (fun l => NoDup (map fst l)) (p_once _ _ P) _ A). }
  rewrite map_map in N |- *. now apply NoDup_map_filter.
Qed.
Lemma exported_is g h n x : In (n, x) (exported (run g h)) ->
  is_span (t_limits tr) res (run g h) h n x /\ flags_sampled (sc_flags (sp_ctx (rs_span x))) = true.
Proof.
  intros I. apply exported_acc in I. destruct (run_pinv g h) as [P R]. split; [apply the_span_is; exact (p_acc _ _ P _ _ I)|].
  destruct (c34_conservation item item_sampled maxq maxb Q1 B1 _ R) as (_ & _ & _ & S1 & _). exact (S1 _ I).
Qed.

(** *** Nothing is lost *)
Lemma accepted_when_done g h n ctx later a : started_by h n a later -> context_of (run g h) n = Some ctx ->
  flags_sampled (sc_flags ctx) = true -> end_of n later <> None -> handed_in (run g h) n ->
  b_done (tw_proc (run g h)) = false ->
  exists x, In (n, x) (b_acc (tw_proc (run g h))).
Proof.
  intros B C F E [H1 H2] D. unfold context_of in C. destruct (nth_error (tw_spans (run g h)) n) as [[[sw|sc] sco]|] eqn:N; [| |discriminate].
  - destruct (recording_is Ids Built g h n a later sw sco B N) as (-> & QC & QE & _).
    assert (T : the_span (tw_spans (run g h)) n (RSpan (w_span sw) res (c_scope a))).
    { exists sw, (c_scope a). split; [exact N|]. split; [exact (H1 _ _ eq_refl)|]. split; [congruence|reflexivity]. }
    exists (RSpan (w_span sw) res (c_scope a)). destruct (run_pinv g h) as [P R].
    destruct (p_all _ _ P n _ T) as [K|[(t & K)|K]].
    + unfold item_sampled. cbn. injection C as <-. exact F.
    + exact K.
    + exfalso. unfold carried in K. destruct (H2 t (RSpan (w_span sw) res (c_scope a))) as [K1 K2].
      destruct (b_thr (tw_proc (run g h)) t); try discriminate; injection K as ->; [now apply K1|now apply K2].
    + congruence.
  - exfalso. injection C as <-. destruct (started_now g h n a later B) as (b & ex & s0 & g' & acts & _ & DS & _ & N' & _).
    rewrite N in N'. injection N' as N' _. destruct s0 as [|sc']; [discriminate|]. injection N' as <-.
    assert (K : forall (s : started) (gg : G) cur c, start_span gt gs tr cur c (c_name a) (c_kind a) (c_attrs a) (c_links a) (c_start a) (c_now a) (tw_gen (run g b)) = (Ok s, gg) ->
                s = NonRecording sc -> flags_sampled (sc_flags sc) = false).
    { intros s gg cur c ES ->. unfold start_span in ES. cbn zeta in ES.
      destruct (match (if sc_is_valid _ then _ else _) with Some p0 => (sc_trace_id p0, tw_gen (run g b)) | None => gt (tw_gen (run g b)) end) as [tid g1].
      destruct (gs g1) as [sid g2]. destruct (d_is_recording _) eqn:DR.
      - destruct (new_span _ _ _ _ _ _ _); cbn in ES; discriminate.
      - injection ES as <- _. cbn [sc_flags]. destruct (sr_decision _); try discriminate; reflexivity. }
    unfold do_start in DS. cbn zeta in DS. change (flags_sampled (sc_flags sc) = true) in F.
    destruct ex; (rewrite (K _ _ _ _ DS eq_refl) in F; discriminate).
Qed.
Lemma still_later IC d1 acc1 t later : kept_in IC -> no_call_by t later -> forall w,
  still IC d1 acc1 t (tw_proc w) -> still IC d1 acc1 t (tw_proc (fold_left step later w)).
Proof.
  intros K. induction 1 as [|e later NC _ IH]; intros w H; [exact H|]. cbn [fold_left]. apply IH. clear IH.
  destruct e as [sco' ex p name kind attrs links st now|m o|m t'|e].
  - destruct (step_start w ex (StartCall sco' p name kind attrs links st now)) as (s' & g' & _ & _ & E).
    cbn [c_scope c_place c_name c_kind c_attrs c_links c_start c_now] in E. rewrite E. exact H.
  - cbn [tw_step]. destruct (nth_error (tw_spans w) m) as [[[sw|sc] sco']|]; exact H.
  - cbn [tw_step]. destruct (nth_error (tw_spans w) m) as [[[sw|sc] sco']|]; try exact H.
    destruct (w_pending sw); [exact H|]. destruct (in_no_call item _) eqn:Q; [|exact H]. cbn [tw_proc]. unfold proc_step.
    match goal with |- context [match ?x with Some _ => _ | None => _ end] => destruct x eqn:E end; [|exact H].
    eapply still_step; [exact K|exact H|exact E|]. intros c. congruence.
  - cbn [tw_step tw_proc]. unfold proc_step.
    destruct (bsp_step item item_sampled maxq maxb (tw_proc w) (pev_bev e)) eqn:E; [|exact H].
    eapply still_step; [exact K|exact H|exact E|]. intros c. destruct e; cbn; congruence.
Qed.

(** The span is in the log or was evicted when such a call has returned. *)
Lemma settled_span g h n x acc1 l : b_acc (tw_proc (run g h)) = acc1 ++ l -> In (n, x) acc1 -> settled (length acc1) (tw_proc (run g h)) ->
  In (n, x) (exported (run g h)) \/ evicted (run g h) (n, x).
Proof.
  intros EA I ST. apply In_nth_error in I. destruct I as [i I].
  assert (LI : i < length acc1) by (apply nth_error_Some; intros Q; pose proof (eq_trans (eq_sym I) Q); discriminate).
  specialize (ST i (n, x) LI). rewrite EA, nth_error_app1 in ST by exact LI. specialize (ST I).
  destruct ST as [ST|ST]; [left|right; exact (nth_error_In _ _ ST)].
  destruct (run_pinv g h) as [P R]. destruct (c34_conservation item item_sampled maxq maxb Q1 B1 _ R) as (A & L & FL & _).
  apply nth_error_In in ST.
  assert (J : In (n, x) (map fst (filter (fun p => was_taken (snd p)) (b_gone (tw_proc (run g h)))))).
  { apply in_map_iff. exists ((n, x), Exported). split; [reflexivity|]. apply filter_In. auto. }
  rewrite <- L in J. apply in_app_or in J. destruct J as [J|J]; [exact J|]. exfalso.
  assert (K : In (n, x) (current_batch (b_wpc (tw_proc (run g h))))) by (destruct (b_wpc (tw_proc (run g h))); try contradiction; exact J).
  rewrite <- FL in K. apply in_map_iff in K. destruct K as ([y f] & E & K). apply filter_In in K. destruct K as [K F]. cbn in E. subst y.
  assert (N : NoDup (map (fun p => fst (fst p)) (b_gone (tw_proc (run g h))))).
  { rewrite <- map_map. apply (NoDup_prefix _ (map fst (b_queue (tw_proc (run g h))))). rewrite <- map_app.
    exact (eq_ind _ (fun l => NoDup (map fst l)) (p_once _ _ P) _ A). }
  pose proof (NoDup_map_inj _ _ _ _ N ST K eq_refl) as Q. injection Q as <-. discriminate.
Qed.

Lemma flush_exports g before t later n a lat ctx :
  started_by before n a lat -> context_of (run g before) n = Some ctx -> flags_sampled (sc_flags ctx) = true ->
  end_of n lat <> None -> handed_in (run g before) n ->
  in_no_call item (b_thr (tw_proc (run g before)) t) = true -> no_call_by t later ->
  forall h, (h = before ++ VProc (PFlush t) :: later /\ (exists n0, b_thr (tw_proc (run g h)) t = TFlushRet n0 false true))
         \/ (h = before ++ VProc (PShutdown t) :: later /\ b_done (tw_proc (run g before)) = false
             /\ (exists n0 f, b_thr (tw_proc (run g h)) t = TShutRet n0 f)) ->
  exists x, (In (n, x) (exported (run g h)) \/ evicted (run g h) (n, x))
    /\ (length (b_acc (tw_proc (run g h))) <= maxq -> In (n, x) (exported (run g h))).
Proof.
  intros B C F E HI NC LC h H. set (w1 := run g before) in *. set (d1 := b_done (tw_proc w1)) in *.
  assert (KEY : d1 = false /\ exists l, b_acc (tw_proc (run g h)) = b_acc (tw_proc w1) ++ l /\ settled (length (b_acc (tw_proc w1))) (tw_proc (run g h))).
  { destruct H as [(-> & n0 & T)|(-> & D & n0 & f & T)].
    - assert (S1 : still in_flush d1 (b_acc (tw_proc w1)) t (tw_proc (step w1 (VProc (PFlush t))))).
      { cbn [tw_step tw_proc pev_bev]. unfold proc_step. cbn [bsp_step]. rewrite NC. unfold still. cbn [b_thr b_done b_acc tgoto].
        unfold tset. rewrite Nat.eqb_refl. split; [reflexivity|]. split; [auto|]. exists []. now rewrite app_nil_r. }
      pose proof (still_later in_flush d1 _ t later flush_kept LC _ S1) as (S2 & _ & l & S3).
      pose proof (proj2 (run_pinv g (before ++ VProc (PFlush t) :: later))) as R.
      pose proof (c36_flush item item_sampled maxq maxb Q1 B1 _ t n0 R T) as ST.
      rewrite run_app in T, ST |- *. cbn [fold_left] in *. fold w1 in T, ST |- *. rewrite T in S2. cbn in S2. destruct S2 as [-> S2].
      split; [auto|]. exists l. auto.
    - assert (S1 : still in_shutdown d1 (b_acc (tw_proc w1)) t (tw_proc (step w1 (VProc (PShutdown t))))).
      { cbn [tw_step tw_proc pev_bev]. unfold proc_step. cbn [bsp_step]. rewrite NC. unfold still. cbn [b_thr b_done b_acc tgoto].
        unfold tset. rewrite Nat.eqb_refl. split; [split; reflexivity|]. split; [auto|]. exists []. now rewrite app_nil_r. }
      pose proof (still_later in_shutdown d1 _ t later shutdown_kept LC _ S1) as (S2 & _ & l & S3).
      pose proof (proj2 (run_pinv g (before ++ VProc (PShutdown t) :: later))) as R.
      pose proof (c37_shutdown item item_sampled maxq maxb Q1 B1 _ t n0 f R T) as [_ ST].
      rewrite run_app in T, ST |- *. cbn [fold_left] in *. fold w1 in T, ST |- *. rewrite T in S2. cbn in S2. destruct S2 as [-> ->].
      split; [exact D|]. exists l. split; [exact S3|]. apply ST. subst d1. now rewrite D. }
  destruct KEY as (D & l & EA & ST). destruct (accepted_when_done g before n ctx lat a B C F E HI D) as (x & I).
  exists x. pose proof (settled_span g h n x _ l EA I ST) as Q. split; [exact Q|]. intros LE. destruct Q as [Q|Q]; [exact Q|].
  pose proof (Proof_Batch.evicted_full item item_sampled maxq maxb Q1 B1 _ (proj2 (run_pinv g h)) _ Q). lia.
Qed.
End Invariant.

(** ** Families of spans *)
Section Family.
Hypothesis Ids : valid_ids gt gs.
Lemma do_start_family w ex a s g' :
  do_start w ex a = (Ok s, g') ->
  let p := current_span_context (place_context (tw_spans w) (c_place a)) in sc_is_valid p = true ->
  sc_trace_id (started_context s) = sc_trace_id p
  /\ (built_in (t_sampler tr) -> sc_state (started_context s) = sc_state p)
  /\ (forall root, t_sampler tr = parent_based root default_delegates ->
        flags_sampled (sc_flags (started_context s)) = flags_sampled (sc_flags p) /\ sc_state (started_context s) = sc_state p).
Proof.
  intros E. cbn zeta. intros V. unfold do_start in E. cbn zeta in E.
  set (c := place_context (tw_spans w) (c_place a)) in *.
  assert (K : exists cur o, resolve cur o = c /\ start_span gt gs tr cur o (c_name a) (c_kind a) (c_attrs a) (c_links a) (c_start a) (c_now a) (tw_gen w) = (Ok s, g')).
  { destruct ex as [cur|]; [exists cur, (Some c)|exists c, None]; auto. }
  destruct K as (cur & o & R & E'). clear E.
  pose proof (start_span_spec gt gs tr cur o (c_name a) (c_kind a) (c_attrs a) (c_links a) (c_start a) (c_now a) (tw_gen w) Lim) as H.
  cbn zeta in H. rewrite R, V in H. destruct H as (s' & E2 & Ec & _). rewrite E' in E2. injection E2 as <- _.
  rewrite Ec. cbn [sc_trace_id sc_flags sc_state]. split; [reflexivity|]. split.
  - intros B. destruct (C88_built_in_samplers _ B cur o (sc_trace_id (current_span_context c)) (c_name a) (c_kind a) (c_attrs a) (c_links a)) as [_ S1].
    rewrite S1, R, V. reflexivity.
  - intros root T. rewrite T.
    pose proof (parent_based_default root cur o (sc_trace_id (current_span_context c)) (c_name a) (c_kind a) (c_attrs a) (c_links a)) as D.
    cbn zeta in D. rewrite R in D. destruct (D V) as (D1 & D2 & D3). rewrite D2. split; [|reflexivity].
    unfold sampled in D1. destruct D3 as [D3|D3]; rewrite D3 in *.
    + symmetry. now apply D1.
    + destruct (flags_sampled (sc_flags (current_span_context c))); [|reflexivity]. destruct D1 as [_ D1]. specialize (D1 eq_refl). discriminate.
Qed.
Lemma family g h n a later c p : started_by h n a later -> context_of (run g h) n = Some c -> parent_of (run g h) n (c_place a) = Some p ->
  sc_trace_id c = sc_trace_id p
  /\ (built_in (t_sampler tr) -> sc_state c = sc_state p)
  /\ (forall root, t_sampler tr = parent_based root default_delegates ->
        flags_sampled (sc_flags c) = flags_sampled (sc_flags p) /\ sc_state c = sc_state p).
Proof.
  intros B C P. destruct (started_now g h n a later B) as (b & ex & s0 & g' & acts & N & D & L & H & _ & k & Eh).
  unfold context_of in C. rewrite H in C. cbn [option_map fst] in C. rewrite (proj1 (advance_ctx acts s0 L)) in C. injection C as <-.
  pose proof (parent_is Ids g b k (c_place a)) as Q. cbn zeta in Q. rewrite N, <- Eh, P in Q.
  destruct (sc_is_valid (current_span_context (place_context (tw_spans (run g b)) (c_place a)))) eqn:V; [|discriminate].
  injection Q as <-. exact (do_start_family _ _ _ _ _ D V).
Qed.
End Family.

(** ** Messages *)
Lemma bytes_unique bs : forall bs', length bs = length bs' -> Forall (fun b => (b < 256)%N) bs -> Forall (fun b => (b < 256)%N) bs' ->
  number_of_bytes bs = number_of_bytes bs' -> bs = bs'.
Proof.
  induction bs as [|x bs IH] using rev_ind; intros bs' L F F' E.
  - destruct bs'; [reflexivity|discriminate].
  - destruct bs' as [|y bs' _] using rev_ind; [rewrite app_length in L; cbn in L; lia|].
    rewrite !app_length in L. cbn in L. apply Forall_app in F, F'. destruct F as [F1 F2], F' as [F1' F2'].
    apply Forall_inv in F2, F2'. unfold number_of_bytes in *. rewrite !fold_left_app in E. cbn [fold_left] in E.
    set (u := fold_left _ bs 0%Z) in E. set (v := fold_left _ bs' 0%Z) in E.
    assert (K : u = v /\ x = y) by lia. destruct K as [K ->].
    f_equal. apply IH; auto. lia.
Qed.
Lemma id_read_unique n z bs bs' : id_read n (Some z) bs -> id_read n (Some z) bs' -> bs = bs'.
Proof. intros [[L F] E] [[L' F'] E']. apply bytes_unique; congruence. Qed.
End World.
