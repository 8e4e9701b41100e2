(** C97: programs of nested [with tracer.start_as_current_span(...)] blocks, with any interference of other threads. *)
From Verif Require Import Spec_Blocks Proof_Runtime Proof_Sampling Proof_Span Proof_Blocks.
Local Open Scope nat_scope.

(** The instrumentation does not change what the program does: it returns or raises just what it would without it, and
    leaves its context as it was.  Every block that is entered is left, in proper nesting. *)
Theorem C97_transparent : forall (G : Type) (gen_trace_id gen_span_id : G -> Z * G) tr u clock noise describe,
  limits_ok (t_limits tr) ->
  forall program rt g spans t,
  let '(rt', st', out) := run gen_trace_id gen_span_id tr u clock noise describe program rt (Store g spans t []) in
  out = plains program /\ get_current u rt' = get_current u rt /\ well_nested describe (st_log st').
Proof.
  intros G gt gs tr u clock noise d Hl program rt g spans t.
  pose proof (program_good gt gs tr u clock noise d Hl program rt (Store g spans t [])) as H.
  destruct (run gt gs tr u clock noise d program rt (Store g spans t [])) as [[rt' st'] out].
  destruct H as [(new & Gr & W & _ & N) ->]. split; [reflexivity|]. split; [now apply nested_restores|].
  rewrite (g_log _ _ _ _ Gr). exact W.
Qed.
Print Assumptions C97_transparent.

(** Every block has a span of its own.  Its parent is the span of the context it was given, else of the innermost block
    around it (or of the context attached there, or of the one the program runs in); it is in the parent's trace; it
    records unless the sampler drops it, and then it shows the arguments of the block and the calls made on it, by
    anyone, until it was ended; the processor gets it exactly once, when it has ended. *)
Theorem C97_spans : forall (G : Type) (gen_trace_id gen_span_id : G -> Z * G) tr u clock noise describe,
  limits_ok (t_limits tr) -> valid_ids gen_trace_id gen_span_id ->
  forall program rt g spans t,
  let '(rt', st', out) := run gen_trace_id gen_span_id tr u clock noise describe program rt (Store g spans t []) in
  forall pre n b now post, st_log st' = pre ++ BEnter n b now :: post ->
  exists s, nth_error (st_spans st') n = Some s /\ n = length spans + starts pre
  /\ let c := started_context s in
     let p := found (get_current u rt) (st_spans st') b (enclosing pre) in
     sc_is_valid c = true
     /\ (sc_is_valid p = true -> sc_trace_id c = sc_trace_id p)
     /\ exists cur, current_span_context (resolve cur (b_context b)) = p
        /\ let r := t_sampler tr cur (b_context b) (sc_trace_id c) (b_name b) (b_kind b) (b_attrs b) (b_links b) in
           sc_flags c = (match sr_decision r with RECORD_AND_SAMPLE => 1 | _ => 0 end)%Z
           /\ match s with
              | NonRecording _ => sr_decision r = DROP
              | Recording w => sr_decision r <> DROP
                  /\ carries (t_limits tr) (b_name b) c (if sc_is_valid p then Some p else None) (b_kind b) (sr_attrs r)
                       (b_links b) (at_time (b_start b) now) (until_end (map ACall (calls_on n post))) (w_span w)
                  /\ sp_end (w_span w) = first_end (map ACall (calls_on n post))
                  /\ ended_spans (w_log w)
                     = match first_end (map ACall (calls_on n post)) with Some _ => [w_span w] | None => [] end
              end.
Proof.
  intros G gt gs tr u clock noise d Hl Hv program rt g spans t.
  pose proof (program_good gt gs tr u clock noise d Hl program rt (Store g spans t [])) as H.
  destruct (run gt gs tr u clock noise d program rt (Store g spans t [])) as [[rt' st'] out].
  destruct H as [(new & Gr & W & E & N) _]. pose proof (g_log _ _ _ _ Gr) as L. cbn in L.
  intros pre n b now post El. rewrite L in El.
  destruct (E pre n b now post El) as (cur & s0 & inner & o & live & t1 & t2 & rest & A1 & A2 & A3 & A4 & _).
  exists (after (calls_on n post) s0). split; [exact A3|]. split; [exact A2|]. cbn zeta.
  pose proof (born_content gt gs tr Hl cur b now s0 (calls_on n post) A1) as C. cbn zeta in C. rewrite A4 in C.
  destruct C as (C1 & C2 & C3 & C4). split; [now apply C2|]. split; [exact C1|]. exists cur. split; [exact A4|].
  split; [exact C3|exact C4].
Qed.
Print Assumptions C97_spans.

(** What happens when a block is left. *)
Theorem C97_left : forall (G : Type) (gen_trace_id gen_span_id : G -> Z * G) tr u clock noise describe,
  limits_ok (t_limits tr) ->
  forall program rt g spans t,
  let '(rt', st', out) := run gen_trace_id gen_span_id tr u clock noise describe program rt (Store g spans t []) in
  forall pre n b now post, st_log st' = pre ++ BEnter n b now :: post ->
  exists inner left live t1 t2 rest,
    post = inner ++ BLeave n left :: map (BExit n) (leaving describe b left live t1 t2) ++ rest
    /\ well_nested describe inner
    /\ (live = true <-> (exists w, nth_error (st_spans st') n = Some (Recording w))
                        /\ forall x te, ~ In (OEnd x te) (calls_on n inner))
    /\ (b_end b = true -> forall w, nth_error (st_spans st') n = Some (Recording w) ->
        ended_spans (w_log w) = [w_span w]
        /\ (live = true ->
            sp_end (w_span w) = Some t2
            /\ (forall e, left = Raised e -> ex_error e = true ->
                (b_status b = true -> (forall x, In x (flat_map requested (calls_on n inner)) -> fst x <> OK) ->
                 sp_status (w_span w) = St ERROR (PStr false (ex_type e ++ lit ": " ++ ex_msg e)))
                /\ (b_record b = true -> max_events (t_limits tr) <> Some 0%Z ->
                    exists l ev, bl_items (sp_events (w_span w)) = l ++ [ev]
                      /\ event_of (t_limits tr) (ORecordException (describe e) [] None false t1) ev))
            /\ ((left = Returned \/ b_status b = false \/ exists e, left = Raised e /\ ex_error e = false) ->
                flat_map requested (calls_on n inner) = [] ->
                sp_status (w_span w) = St UNSET PNone))).
Proof.
  intros G gt gs tr u clock noise d Hl program rt g spans t.
  pose proof (program_good gt gs tr u clock noise d Hl program rt (Store g spans t [])) as H.
  destruct (run gt gs tr u clock noise d program rt (Store g spans t [])) as [[rt' st'] out].
  destruct H as [(new & Gr & W & E & N) _]. pose proof (g_log _ _ _ _ Gr) as L. cbn in L.
  intros pre n b now post El. rewrite L in El.
  destruct (E pre n b now post El) as (cur & s0 & inner & o & live & t1 & t2 & rest & A1 & A2 & A3 & A4 & A5 & A6 & A7).
  exists inner, o, live, t1, t2, rest. split; [exact A5|]. split; [exact A6|].
  assert (Hrec : (exists w, nth_error (st_spans st') n = Some (Recording w)) <-> rec0 s0 = true).
  { rewrite A3. rewrite <- (rec0_after (calls_on n post) s0). destruct (after (calls_on n post) s0); cbn.
    - split; [reflexivity|]. intros _. now eexists.
    - split; [intros (w & [=])|discriminate]. }
  assert (Hno : existsb is_end (calls_on n inner) = false <-> forall x te, ~ In (OEnd x te) (calls_on n inner)).
  { split.
    - intros Hn x te Hin. assert (existsb is_end (calls_on n inner) = true); [|congruence].
      apply existsb_exists. exists (OEnd x te). now split.
    - intros Hn. destruct (existsb is_end (calls_on n inner)) eqn:Ex; [|reflexivity]. apply existsb_exists in Ex.
      destruct Ex as (o' & Hin & Ho). destruct o'; try discriminate. now apply Hn in Hin. }
  split.
  { rewrite A7, andb_true_iff, negb_true_iff, Hrec, Hno. reflexivity. }
  intros Eb w Ew. rewrite A3 in Ew. injection Ew as Ew.
  pose proof (born_content gt gs tr Hl cur b now s0 (calls_on n post) A1) as C. cbn zeta in C. rewrite Ew in C.
  destruct C as (_ & _ & _ & _ & C1 & C2 & C3).
  assert (Ec : calls_on n post = calls_on n inner ++ leaving d b o live t1 t2 ++ calls_on n rest).
  { rewrite A5, calls_on_app. f_equal.
    change (calls_on n (map (BExit n) (leaving d b o live t1 t2) ++ rest) = leaving d b o live t1 t2 ++ calls_on n rest).
    now rewrite calls_on_app, calls_on_exits. }
  rewrite Ec in C1, C2, C3.
  assert (Hend : existsb is_end (calls_on n inner ++ leaving d b o live t1 t2) = true).
  { rewrite existsb_app. apply orb_true_iff. right. apply existsb_exists. exists (OEnd None t2). split; [|reflexivity].
    now apply leaving_has_end. }
  split.
  { destruct (first_end_in _ Hend) as (x & te & _ & Hf). specialize (Hf (calls_on n rest)). rewrite <- app_assoc in Hf.
    rewrite Hf in C3. exact C3. }
  intros ->. symmetry in A7. apply andb_true_iff in A7. destruct A7 as [_ A7]. apply negb_true_iff in A7.
  destruct (first_end_skip _ (leaving d b o true t1 t2 ++ calls_on n rest) A7) as [F1 F2].
  destruct (until_leaving d b o true t1 t2 (calls_on n rest) Eb) as [U1 U2].
  rewrite F1, U2 in C2. rewrite F2, U1 in C1. split; [exact C2|].
  pose proof (ca_status _ _ _ _ _ _ _ _ _ _ C1) as Hst. pose proof (ca_events _ _ _ _ _ _ _ _ _ _ C1) as Hev.
  split.
  - intros e -> Ee. rewrite Ee in Hst, Hev. cbn [andb] in Hst, Hev. split.
    + intros Es Hok. rewrite Es in Hst. rewrite Hst, !flat_map_app.
      assert (Er : flat_map requested (if b_record b then [ORecordException (d e) [] None false t1] else []) = []) by now destruct (b_record b).
      rewrite Er. cbn [flat_map requested app].
      rewrite final_request_snoc. cbn [is_unset fst]. rewrite orb_false_r.
      assert (Hn : is_ok (final_request (flat_map requested (calls_on n inner))) = false).
      { set (rs := flat_map requested (calls_on n inner)) in *. destruct (is_ok (final_request rs)) eqn:Eo; [exfalso|reflexivity].
        unfold final_request in Eo. destruct (find is_ok _) as [y|] eqn:Ef.
        - apply find_some in Ef. destruct Ef as [Hin Hy]. apply filter_In in Hin. destruct Hin as [Hin _].
          apply (Hok y Hin). unfold is_ok in Hy. now destruct (fst y).
        - assert (Hin : forall l : list (status_code * pyval), l <> [] -> In (last l (UNSET, PNone)) l).
          { intros l Hne. destruct (exists_last Hne) as (l1 & x & ->). rewrite last_app_cons. apply in_app_iff. right. now left. }
          destruct (filter (fun r => negb (is_unset r)) rs) as [|a l] eqn:Efl; [discriminate|].
          rewrite (find_none _ _ Ef) in Eo; [discriminate|]. apply Hin. discriminate. }
      rewrite Hn. unfold kept_description. cbn [fst snd]. now destruct (ex_type e).
    + intros Er Hm. rewrite Er in Hev. destruct Hev as (evs & Hc & Hi & _).
      destruct (make_event_of (t_limits tr) (lit "exception") (exc_pairs (d e) [] false) t1 Hl) as (ev & Hme & M1 & M2 & M3).
      assert (Hx : event_of (t_limits tr) (ORecordException (d e) [] None false t1) ev) by (constructor; assumption).
      assert (Hc2 : collected (event_of (t_limits tr)) (calls_on n inner ++ [ORecordException (d e) [] None false t1]) evs).
      { rewrite app_assoc in Hc. destruct (b_status b); [|now rewrite app_nil_r in Hc].
        revert Hc. generalize (calls_on n inner ++ [ORecordException (d e) [] None false t1]). clear.
        intros l. revert evs. induction l as [|o l IH]; intros evs Hc; cbn in Hc.
        - inversion Hc as [|? ? ? ? R|? ? ? _ Hc2]; subst; [inversion R|inversion Hc2; subst; constructor].
        - inversion Hc; subst; [apply co_yes|apply co_no]; auto. }
      destruct (collected_last _ _ _ _ Hx _ Hc2) as (ys & y & -> & Hy).
      destruct (last_window (max_events (t_limits tr)) ys y Hm) as (l' & El'); [exact (proj1 (proj2 Hl))|].
      exists l', y. rewrite Hi. now split.
  - intros Hcase Hnone. rewrite Hst, flat_map_app, Hnone.
    assert (Er : flat_map requested match o with
        | Returned => []
        | Raised e => if ex_error e && true then
            (if b_record b then [ORecordException (d e) [] None false t1] else [])
            ++ (if b_status b then [OSetStatus (SAStatus ERROR (PStr false (ex_type e ++ lit ": " ++ ex_msg e))) PNone] else [])
            else []
        end = []).
    { destruct Hcase as [->|[Hs|(e & -> & ->)]]; [reflexivity| |reflexivity]. destruct o as [|e]; [reflexivity|].
      rewrite Hs. destruct (ex_error e && true); [|reflexivity]. destruct (b_record b); reflexivity. }
    rewrite Er. reflexivity.
Qed.
Print Assumptions C97_left.

(** With a clock that does not go backwards, and no explicit times, the span of an inner block lies within the time of
    the span of every block around it. *)
Theorem C97_intervals : forall (G : Type) (gen_trace_id gen_span_id : G -> Z * G) tr u clock noise describe,
  limits_ok (t_limits tr) -> (forall i j, i <= j -> (clock i <= clock j)%Z) ->
  forall program rt g spans t,
  let '(rt', st', out) := run gen_trace_id gen_span_id tr u clock noise describe program rt (Store g spans t []) in
  forall pre m bm tm mid n bn tn post wm wn,
  st_log st' = pre ++ BEnter m bm tm :: mid ++ BEnter n bn tn :: post ->
  In (inl m) (enclosing (pre ++ BEnter m bm tm :: mid)) ->
  b_end bm = true -> b_end bn = true -> b_start bm = None -> b_start bn = None ->
  (forall o, In (BCall m o) (st_log st') \/ In (BCall n o) (st_log st') -> is_end o = false) ->
  nth_error (st_spans st') m = Some (Recording wm) -> nth_error (st_spans st') n = Some (Recording wn) ->
  exists sm em sn en, sp_start (w_span wm) = Some sm /\ sp_end (w_span wm) = Some em
    /\ sp_start (w_span wn) = Some sn /\ sp_end (w_span wn) = Some en
    /\ (sm <= sn)%Z /\ (sn <= en)%Z /\ (en <= em)%Z.
Proof.
  intros G gt gs tr u clock noise d Hl M program rt g spans t.
  pose proof (program_good gt gs tr u clock noise d Hl program rt (Store g spans t [])) as H.
  destruct (run gt gs tr u clock noise d program rt (Store g spans t [])) as [[rt' st'] out].
  destruct H as [(new & Gr & W & E & N) _]. pose proof (g_log _ _ _ _ Gr) as L. cbn in L. rewrite <- L in Gr, W, E.
  intros. eapply intervals; eassumption.
Qed.
Print Assumptions C97_intervals.

(** A server span in an extracted context; within it a block that raises, and one that calls [end] itself; the error is
    caught outside.  At moment 4 another thread starts a span and sets an attribute of span 0. *)
Definition ex_blk (name : string) (c : option context) := Block (lit name) c 0 [] [] None true true true.
Definition ex_remote : context := [(SPAN_KEY, OSpan (SC 7 8 true 1 []) false None)].
Definition ex_exc : exc := Exc true (lit "ValueError") (lit "bad") 1.
Definition ex_program : list stmt :=
  [STry false
     [SAttached ex_remote
        [SWith (ex_blk "server" None)
           [SWith (ex_blk "first" None) [SCall 2 (OEnd None 100)];
            SBaggage (lit "k") (OStr (lit "v"))
              [SWith (ex_blk "second" None) [SRaise ex_exc]]]]];
   SWith (ex_blk "alone" None) []].
Definition ex_noise (t : nat) : list nact :=
  match t with
  | 4 => [NStart [] (ex_blk "other" None) 50; NCall 0 (OSetAttributes [(PStr false (lit "a"), PInt false 1)])]
  | _ => []
  end.
Definition ex_bgen (g : Z) : Z * Z := ((g mod 100 + 1)%Z, (g + 1)%Z).
Definition ex_tracer : tracer :=
  Tracer (parent_based ALWAYS_ON default_delegates) (SLimits None None None None None None None None).
Definition ex_run := run ex_bgen ex_bgen ex_tracer 0 Z.of_nat ex_noise
  (fun e => ExcI (lit "builtins") (ex_type e) (ex_msg e) (lit "stack")) ex_program rt_init (Store 10%Z [] 0 []).
Example C97_hypotheses : limits_ok (t_limits ex_tracer) /\ valid_ids ex_bgen ex_bgen
  /\ (forall i j, i <= j -> (Z.of_nat i <= Z.of_nat j)%Z).
Proof.
  split; [|split; [split; intros g; cbn; pose proof (Z.mod_pos_bound g 100); lia|lia]].
  unfold limits_ok, not_negative. cbn. repeat split; intros z; discriminate.
Qed.
Example C97_example :
  let '(rt', st', out) := ex_run in
  out = Returned /\ get_current 0 rt' = []
  /\ map (fun s => match s with
                   | Recording w => let x := w_span w in
                       (sp_name x, sc_trace_id (sp_ctx x), option_map sc_span_id (sp_parent x), sp_status x,
                        (sp_start x, sp_end x), map ev_name (bl_items (sp_events x)), length (ended_spans (w_log w)))
                   | NonRecording _ => (lit "none", 0%Z, None, St UNSET PNone, (None, None), [], 0)
                   end) (st_spans st')
     = [(lit "server", 7%Z, Some 8%Z, St ERROR (PStr false (lit "ValueError: bad")), (Some 3%Z, Some 20%Z), [lit "exception"], 1);
        (lit "other", 12%Z, None, St UNSET PNone, (Some 50%Z, None), [], 0);
        (lit "first", 7%Z, Some 11%Z, St UNSET PNone, (Some 5%Z, Some 100%Z), [], 1);
        (lit "second", 7%Z, Some 11%Z, St ERROR (PStr false (lit "ValueError: bad")), (Some 11%Z, Some 16%Z), [lit "exception"], 1);
        (lit "alone", 16%Z, None, St UNSET PNone, (Some 22%Z, Some 24%Z), [], 1)].
Proof. vm_compute. repeat split. Qed.
