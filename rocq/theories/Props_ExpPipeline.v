(** C137: exponential histograms, from the calls of the program through views and readers to what a collection delivers.
    Amounts are doubles, counted in units of 2^-1074 (Model_ExpHist); [log_floor] is the logarithm of the machine, of which
    [log_consistent] is assumed (it holds of the exact one, C42_exact_logarithm). *)
From Verif Require Import Model_Pipeline Spec_Pipeline Proof_Pipeline Proof_ExpPipeline Proof_ExpMapping.
From Verif Require Import Spec_ExpPipeline.
From Coq Require Import Lia.
Local Open Scope Z_scope.
Notation with_attrs := Spec_Streams.with_attrs.

(** A delta reader gets, for an instrument that a view or the reader gives an exponential histogram, one point for each set of
    (kept) attributes since its last collection, which describes exactly the amounts with these attributes. *)
Theorem C137_delta : forall float_int obj_hash fnmatch (Scope : Type) (ES : EqDec Scope) (the_scope : Scope -> scope) obj scope_of log_floor
    (G0 A0 D0 : Type) (default0 : G0) is_default0 is_explicit0 (create0 : G0 -> N -> mattrs -> Z -> A0) aggregate0
    (collect0 : temporality -> A0 -> Z -> A0 * option D0) shape0 views readers h r obs now h' rd i v max_size max_scale h0 part,
  log_consistent log_floor -> legal max_size max_scale ->
  x_seen_through fnmatch the_scope obj scope_of default0 is_explicit0 views i v ->
  x_asked obj is_default0 rd i v max_size max_scale ->
  nth_error readers r = Some rd -> rd_temporality rd (in_kind (obj i)) = DELTA ->
  synchronous (in_kind (obj i)) = true ->
  Forall (api_call float_int obj_hash obj) (h ++ PCollect r obs false now :: h') ->
  Forall (fun m => measurable (m_amount m)) (gets obj r i h) ->
  since r h h0 part -> (exists m, In m (gets obj r i part)) ->
  exists out points reps,
    x_output float_int obj_hash fnmatch the_scope obj scope_of log_floor default0 is_default0 is_explicit0 create0 aggregate0 collect0 shape0 views readers
      h (h ++ PCollect r obs false now :: h') = Some (CMetrics r out)
    /\ reports obj scope_of out i v DELTA points
    /\ each_attrs float_int obj_hash (v_keys v) (gets obj r i part) reps
    /\ Forall2 (fun a p => exists l s, with_attrs float_int obj_hash (v_keys v) a (gets obj r i part) l
         /\ interval_start float_int obj_hash obj (v_keys v) r i a h0 (gets obj r i part) s
         /\ exp_point_is log_floor max_size (v_keys v) now a s l p) reps points.
Proof.
  intros float_int obj_hash fnmatch Scope ES the_scope obj scope_of log_floor G0 A0 D0 default0 is_default0 is_explicit0 create0 aggregate0 collect0 shape0 views readers
    h r obs now h' rd i v max_size max_scale h0 part LC LG ST AS R T SY F M S E.
  destruct (exp_delivered float_int obj_hash obj fnmatch the_scope scope_of log_floor default0 is_default0 is_explicit0 create0 aggregate0 collect0 shape0 views readers
    LC h r obs now h' h0 part rd i v max_size max_scale ST AS LG R SY F M) as (out & points & reps & E1 & _ & E2 & E3).
  - rewrite T. discriminate.
  - rewrite T. right. auto.
  - exact E.
  - rewrite T in E2. exists out, points, reps. auto.
Qed.
Print Assumptions C137_delta.

(** A cumulative reader gets the same since the start of the program, if with all sets of attributes the first amount is
    not zero and the others have its sign or are zero.  Missing: other amounts, with which a collection can raise (C137_raises_refuted). *)
Theorem C137_cumulative_partial : forall float_int obj_hash fnmatch (Scope : Type) (ES : EqDec Scope) (the_scope : Scope -> scope) obj scope_of log_floor
    (G0 A0 D0 : Type) (default0 : G0) is_default0 is_explicit0 (create0 : G0 -> N -> mattrs -> Z -> A0) aggregate0
    (collect0 : temporality -> A0 -> Z -> A0 * option D0) shape0 views readers h r obs now h' rd i v max_size max_scale,
  log_consistent log_floor -> legal max_size max_scale ->
  x_seen_through fnmatch the_scope obj scope_of default0 is_explicit0 views i v ->
  x_asked obj is_default0 rd i v max_size max_scale ->
  nth_error readers r = Some rd -> rd_temporality rd (in_kind (obj i)) = CUMULATIVE ->
  synchronous (in_kind (obj i)) = true ->
  Forall (api_call float_int obj_hash obj) (h ++ PCollect r obs false now :: h') ->
  Forall (fun m => measurable (m_amount m)) (gets obj r i h) ->
  (forall a l, with_attrs float_int obj_hash (v_keys v) a (gets obj r i h) l -> one_sided l) ->
  (exists m, In m (gets obj r i h)) ->
  exists out points reps,
    x_output float_int obj_hash fnmatch the_scope obj scope_of log_floor default0 is_default0 is_explicit0 create0 aggregate0 collect0 shape0 views readers
      h (h ++ PCollect r obs false now :: h') = Some (CMetrics r out)
    /\ reports obj scope_of out i v CUMULATIVE points
    /\ each_attrs float_int obj_hash (v_keys v) (gets obj r i h) reps
    /\ Forall2 (fun a p => exists l s, with_attrs float_int obj_hash (v_keys v) a (gets obj r i h) l
         /\ first_at float_int obj_hash (v_keys v) a (gets obj r i h) s
         /\ exp_point_is log_floor max_size (v_keys v) now a s l p) reps points.
Proof.
  intros float_int obj_hash fnmatch Scope ES the_scope obj scope_of log_floor G0 A0 D0 default0 is_default0 is_explicit0 create0 aggregate0 collect0 shape0 views readers
    h r obs now h' rd i v max_size max_scale LC LG ST AS R T SY F M P E.
  destruct (exp_delivered float_int obj_hash obj fnmatch the_scope scope_of log_floor default0 is_default0 is_explicit0 create0 aggregate0 collect0 shape0 views readers
    LC h r obs now h' [] h rd i v max_size max_scale ST AS LG R SY F) as (out & points & reps & E1 & _ & E2 & E3 & E4).
  - exact M.
  - intros _. exact P.
  - left. auto.
  - exact E.
  - rewrite T in E2. exists out, points, reps. split; [exact E1|]. split; [exact E2|]. split; [exact E3|].
    clear - E4. induction E4 as [|a p l1 l2 (l & s & W & I & X) _ IH]; constructor; [|exact IH]. exists l, s. split; [exact W|]. split; [|exact X].
    destruct I as [(l' & h1 & c & _ & _ & B & _)|[_ B]]; [destruct h1; discriminate|exact B].
Qed.
Print Assumptions C137_cumulative_partial.

(** And the OTLP request made of the collection says so: it has an exponential histogram with the name, description and unit, whose
    messages describe exactly the amounts.  [dbl z] is the double z * 2^-1074 as the message has it.
    Missing: as for C137_cumulative_partial; a collection that cannot be encoded (then there is no request, C69). *)
Theorem C137_request_partial : forall float_int obj_hash fnmatch (Scope : Type) (ES : EqDec Scope) (the_scope : Scope -> scope) obj scope_of log_floor
    (G0 A0 D0 : Type) (default0 : G0) is_default0 is_explicit0 (create0 : G0 -> N -> mattrs -> Z -> A0) aggregate0
    (collect0 : temporality -> A0 -> Z -> A0 * option D0) shape0 views readers dbl infty data0 to_float h r obs now h' rd i v max_size max_scale h0 part,
  log_consistent log_floor -> legal max_size max_scale ->
  x_seen_through fnmatch the_scope obj scope_of default0 is_explicit0 views i v ->
  x_asked obj is_default0 rd i v max_size max_scale ->
  nth_error readers r = Some rd ->
  synchronous (in_kind (obj i)) = true ->
  Forall (api_call float_int obj_hash obj) (h ++ PCollect r obs false now :: h') ->
  (forall s, scope_ok (Some (the_scope s))) ->
  (forall s s', python_equal_scopes float_int (Some (the_scope s)) (Some (the_scope s')) -> s = s') ->
  Forall (fun m => measurable (m_amount m)) (gets obj r i h) ->
  (rd_temporality rd (in_kind (obj i)) = CUMULATIVE -> forall a l, with_attrs float_int obj_hash (v_keys v) a (gets obj r i h) l -> one_sided l) ->
  covers (rd_temporality rd (in_kind (obj i))) r h h0 part -> (exists m, In m (gets obj r i part)) ->
  exists out,
    x_output float_int obj_hash fnmatch the_scope obj scope_of log_floor default0 is_default0 is_explicit0 create0 aggregate0 collect0 shape0 views readers
      h (h ++ PCollect r obs false now :: h') = Some (CMetrics r out)
    /\ forall res req, x_otlp_request float_int the_scope dbl infty data0 to_float res out = Some req ->
       exists pts reps,
         x_metric_in the_scope obj scope_of res i v req (PbExponential pts (temporality_code (rd_temporality rd (in_kind (obj i)))))
         /\ each_attrs float_int obj_hash (v_keys v) (gets obj r i part) reps
         /\ Forall2 (fun a p => exists l s, with_attrs float_int obj_hash (v_keys v) a (gets obj r i part) l
              /\ interval_start float_int obj_hash obj (v_keys v) r i a h0 (gets obj r i part) s
              /\ exp_message_is log_floor dbl max_size (v_keys v) now a s l p) reps pts.
Proof.
  intros. eapply exp_requested; try eassumption. eapply scopes_injective; eassumption.
Qed.
Print Assumptions C137_request_partial.

(** With these conditions for all instruments that get exponential histograms, no aggregation is refused and no call on one
    raises, whatever is called. *)
Theorem C137_no_raise : forall float_int obj_hash fnmatch (Scope : Type) (ES : EqDec Scope) (the_scope : Scope -> scope) obj scope_of log_floor
    (G0 A0 D0 : Type) (default0 : G0) is_default0 is_explicit0 (create0 : G0 -> N -> mattrs -> Z -> A0) aggregate0
    (collect0 : temporality -> A0 -> Z -> A0 * option D0) shape0 views readers h,
  log_consistent log_floor ->
  Forall (api_call float_int obj_hash obj) h ->
  (forall r rd i v max_size max_scale, nth_error readers r = Some rd ->
     x_seen_through fnmatch the_scope obj scope_of default0 is_explicit0 views i v -> x_asked obj is_default0 rd i v max_size max_scale ->
     legal max_size max_scale /\ synchronous (in_kind (obj i)) = true
     /\ Forall (fun m => measurable (m_amount m)) (gets obj r i h)
     /\ (rd_temporality rd (in_kind (obj i)) = DELTA
         \/ (rd_temporality rd (in_kind (obj i)) = CUMULATIVE /\ forall a l, with_attrs float_int obj_hash (v_keys v) a (gets obj r i h) l -> one_sided l))) ->
  ~ something_raised (fst (x_run float_int obj_hash fnmatch the_scope obj scope_of log_floor default0 is_default0 is_explicit0 create0 aggregate0 collect0 shape0 views readers h)).
Proof. intros. now apply nothing_raised. Qed.
Print Assumptions C137_no_raise.

(** The case: a histogram that a view renames and gives an exponential histogram of 4 buckets, keeping one attribute; a gauge for
    which the second reader asks for an exponential histogram; an observable counter.  The other aggregations are those of
    Model_Metrics. *)
Definition xx_scope (b : bool) : scope := Scope (if b then lit "lib" else lit "app") None [] [].
Definition xx_obj (n : N) : instr :=
  match n with
  | 0%N => Instr 0 IHistogram (lit "size") (lit "By") (lit "Sizes") None
  | 1%N => Instr 1 IGauge (lit "load") [] [] None
  | 2%N => Instr 2 IObservableCounter (lit "cpu") (lit "s") [] None
  | _ => Instr 3 ICounter (lit "calls") [] [] None
  end.
Definition xx_scope_of (n : N) : bool := N.ltb n 1.
Definition xx_view : @view (xconf aggregation) :=
  View None (Some (lit "size")) None None None None (Some (lit "bytes")) None (Some [lit "verb"]) (Exponential 4 3).
Definition xx_readers : list (@reader (xconf aggregation)) :=
  [RD (fun _ => CUMULATIVE) (fun _ => Other Default);
   RD (fun _ => DELTA) (fun k => match k with IGauge => Exponential 160 2 | _ => Other Default end)].
#[local] Instance EqDec_bool2 : EqDec bool := Bool.bool_dec.
Definition xx_a (v w : string) : option mattrs := Some [(lit "verb", PStr false (lit v)); (lit "user", PStr false (lit w))].
Definition one := 2 ^ 1074.
Definition xx_calls : list pcall :=
  [PCall 0 (xx_a "GET" "a") one 100; PCall 0 (xx_a "GET" "b") (8 * one) 101; PCall 0 (xx_a "PUT" "a") (3 * one) 102;
   PCall 1 None (- one) 103; PCall 3 None (2 * one) 104; PCollect 0 [] false 110; PCollect 1 [] false 111;
   PCall 0 (xx_a "GET" "c") (2 * one) 120; PCall 1 None 0 121].
Definition xx_obs : list observation := [(2%N, None, 5 * one)].
Definition xx_output h r obs := x_output (fun _ => None) (fun _ => true) (fun a b => str_eqb a b) xx_scope xx_obj xx_scope_of exact_log_floor
  Default asks_default asks_explicit (fun g i => create g (in_kind (xx_obj i)) (in_adv (xx_obj i))) aggregate (fun t a now => collect a t now) (agg_shape xx_obj)
  [xx_view] xx_readers h (h ++ [PCollect r obs false 200]).
Definition xx_state h := fst (x_run (fun _ => None) (fun _ => true) (fun a b => str_eqb a b) xx_scope xx_obj xx_scope_of exact_log_floor
  Default asks_default asks_explicit (fun g i => create g (in_kind (xx_obj i)) (in_adv (xx_obj i))) aggregate (fun t a now => collect a t now) (agg_shape xx_obj)
  [xx_view] xx_readers h).
(** name and points of every metric: start, count, scale, offset and counts of the positive buckets, offset and counts of the negative ones *)
Definition xx_see (out : option (@cout bool (xpoint point))) :=
  match out with
  | Some (CMetrics _ d) => Some (map (fun '(s, ms) => (sco_name (xx_scope s), map (fun m => (m_name m, map (fun p => match p with
      | ExpPoint p => [(ep_start p, ep_count p, ep_scale p, (ep_pos_offset p, ep_pos_counts p), (ep_neg_offset p, ep_neg_counts p))]
      | OtherPoint _ => [] end) (m_points m))) ms)) d)
  | _ => None
  end.
(** The request: name and, of each exponential histogram, temporality and points (attributes, start, count, sum, minimum, maximum, scale, buckets).
    Here a double is the Z of which it is the multiple of 2^-1074. *)
Definition xx_request r :=
  match xx_output xx_calls r xx_obs with
  | Some (CMetrics _ out) =>
      option_map (map (fun g => map (fun sg => (ps_name (pg_scope sg), map (fun m => (pm_name m, match pm_data m with
          | PbExponential l t => (t, map (fun p => (length (px_at p), px_start p, (px_count p, px_sum p / one, option_map (fun z => z / one) (px_min p), option_map (fun z => z / one) (px_max p)),
                                           px_scale p, px_pos p, px_neg p)) l)
          | _ => (0, []) end)) (pg_items sg))) (pr_scopes g)))
        (x_otlp_request (fun _ => None) xx_scope (fun z => z) (fun b => if b then 999 else -999) (fun _ _ _ _ => MUnknown) Some (Res [] []) out)
  | _ => None
  end.
Notation xx_through := (x_seen_through (fun a b => str_eqb a b) xx_scope xx_obj xx_scope_of Default asks_explicit [xx_view]).
Notation xx_api := (api_call (fun _ => None) (fun _ => true) xx_obj).
Lemma xx_usable a b : usable (fun _ => None) (fun _ => true) None (xx_a a b).
Proof.
  split.
  - intros d [= <-]. repeat constructor; cbn; intros X; repeat (destruct X as [X|X]; [discriminate|]); exact X.
  - intros k v _ E. cbn in E. destruct (eq_dec k _); [injection E as <-; discriminate|]. destruct (eq_dec k _); [injection E as <-; discriminate|discriminate].
Qed.
Lemma no_usable : usable (fun _ => None) (fun _ => true) None None.
Proof. split; [discriminate|intros k v _ [=]]. Qed.
Example C137_case :
  xx_see (xx_output xx_calls 0 xx_obs)
    = Some [(lit "lib", [(lit "bytes", [[(100, 3, Some 0, (-1, [1; 1; 0; 1]), (0, [0]))]; [(102, 1, Some 3, (12, [1]), (0, [0]))]])]);
            (lit "app", [(lit "load", [[]]); (lit "calls", [[]]); (lit "cpu", [[]])])]
  /\ xx_see (xx_output xx_calls 1 xx_obs)
    = Some [(lit "lib", [(lit "bytes", [[(111, 1, Some 0, (0, [1]), (0, [0]))]])]);
            (lit "app", [(lit "load", [[(111, 1, Some 0, (0, [0]), (0, [0]))]]); (lit "cpu", [[]])])]
  /\ xx_request 1
    = Some [[(lit "lib", [(lit "bytes", (1, [(1%nat, 111, (1, 2, Some 2, Some 2), 0, Some (EB 0 [1]), Some (EB 0 [0]))]))]);
             (lit "app", [(lit "load", (1, [(0%nat, 111, (1, 0, Some 0, Some 0), 0, Some (EB 0 [0]), Some (EB 0 [0]))])); (lit "cpu", (0, []))])]]
  /\ xx_through 0%N xx_view /\ xx_through 1%N (DEFAULT_VIEW (Other Default))
  /\ x_asked xx_obj asks_default (RD (fun _ => CUMULATIVE) (fun _ => Other Default)) 0%N xx_view 4 3
  /\ (forall r, Forall xx_api (xx_calls ++ PCollect r xx_obs false 200 :: []))
  /\ since 1 xx_calls (firstn 7 xx_calls) (skipn 7 xx_calls)
  /\ Forall (fun m => measurable (m_amount m)) (gets xx_obj 0 0%N xx_calls)
  /\ (forall a l, with_attrs (fun _ => None) (fun _ => true) (v_keys xx_view) a (gets xx_obj 0 0%N xx_calls) l -> one_sided l)
  /\ legal 4 3 /\ log_consistent exact_log_floor
  (* the conditions of C137_no_raise *)
  /\ forall r rd i v max_size max_scale, nth_error xx_readers r = Some rd -> xx_through i v -> x_asked xx_obj asks_default rd i v max_size max_scale ->
     legal max_size max_scale /\ synchronous (in_kind (xx_obj i)) = true
     /\ Forall (fun m => measurable (m_amount m)) (gets xx_obj r i xx_calls)
     /\ (rd_temporality rd (in_kind (xx_obj i)) = DELTA
         \/ (rd_temporality rd (in_kind (xx_obj i)) = CUMULATIVE
             /\ forall a l, with_attrs (fun _ => None) (fun _ => true) (v_keys v) a (gets xx_obj r i xx_calls) l -> one_sided l)).
Proof.
  split; [vm_compute; reflexivity|]. split; [vm_compute; reflexivity|]. split; [vm_compute; reflexivity|].
  assert (AP : xx_through 0%N xx_view).
  { left. split; [now left|]. split; [intros ? [=]|]. split; [intros ? [= <-]; vm_compute; reflexivity|].
    repeat (split; [intros ? [=]|]); intros [X _]; discriminate. }
  split; [exact AP|]. split.
  { right. split; [|repeat split]. intros v [<-|[]] (_ & X & _); specialize (X _ eq_refl); vm_compute in X; discriminate. }
  split; [left; reflexivity|]. split.
  { intro r. cbn [app xx_calls]. repeat (apply Forall_cons || apply Forall_nil); cbn [api_call fst snd]; try (split; [reflexivity|]; apply xx_usable || apply no_usable; fail);
      repeat (apply Forall_cons || apply Forall_nil); cbn [fst snd]; split; try reflexivity; apply no_usable. }
  split.
  { split; [reflexivity|]. split.
    - intros c n I (o & ->). cbn in I. repeat (destruct I as [I|I]; [discriminate|]). destruct I.
    - right. exists (firstn 6 xx_calls), (PCollect 1 [] false 111), 111. split; [reflexivity|]. eexists; reflexivity. }
  assert (ME : forall k, 0 < k < 2 ^ 53 -> measurable (k * one)).
  { intros k K. right. exists k, 1074. split; [lia|]. split; [lia|]. unfold one. lia. }
  assert (P1 : 0 < one) by (unfold one; lia).
  assert (P0 : Forall (fun m => measurable (m_amount m) /\ 0 < m_amount m) (gets xx_obj 0 0%N xx_calls)).
  { change (gets xx_obj 0 0%N xx_calls) with [(xx_a "GET" "a", one, 100); (xx_a "GET" "b", 8 * one, 101); (xx_a "PUT" "a", 3 * one, 102); (xx_a "GET" "c", 2 * one, 120)].
    assert (measurable one) by (rewrite <- (Z.mul_1_l one); apply ME; lia).
    repeat (apply Forall_cons || apply Forall_nil); cbn [m_amount fst snd]; (split; [try (apply ME; lia); assumption|lia]). }
  assert (P2 : Forall (fun m => 0 < m_amount m) (gets xx_obj 0 0%N xx_calls)) by (eapply Forall_impl; [|exact P0]; now intros ? []).
  split; [eapply Forall_impl; [|exact P0]; now intros ? []|]. split; [intros a l; apply positive_sided, P2|]. split; [unfold legal; lia|]. split; [apply exact_consistent|].
  intros r rd i v max_size max_scale R ST AS.
  assert (G : forall r, gets xx_obj r 0%N xx_calls = gets xx_obj 0 0%N xx_calls) by (intros [|[|r']]; reflexivity).
  assert (V : v = xx_view \/ v_agg v = Other Default) by (destruct ST as [[[<-|[]] _]|(_ & _ & _ & _ & E)]; auto).
  assert (TR : forall r rd, nth_error xx_readers r = Some rd -> forall k, rd_temporality rd k = CUMULATIVE \/ rd_temporality rd k = DELTA).
  { intros [|[|[|r0]]] rd0 E k; cbn in E; try discriminate; injection E as <-; cbn; auto. }
  destruct V as [-> | V].
  - destruct AS as [AS|(? & AS & _)]; [|discriminate]. injection AS as <- <-. split; [unfold legal; lia|].
    assert (I0 : i = 0%N).
    { destruct ST as [[_ (_ & X & _)]|(_ & E & _)]; [|discriminate]. specialize (X _ eq_refl). destruct i as [|[p|[p|p|]|]]; try reflexivity; vm_compute in X; discriminate. }
    subst i. rewrite G. split; [reflexivity|]. split; [eapply Forall_impl; [|exact P0]; now intros ? []|].
    destruct (TR r rd R (in_kind (xx_obj 0%N))) as [T|T]; [right; split; [exact T|]; intros a l; apply positive_sided, P2|left; exact T].
  - destruct AS as [AS|(_ & _ & _ & AS)]; [congruence|]. destruct r as [|[|[|r]]]; cbn in R; try discriminate; injection R as <-; cbn in AS; [discriminate|].
    destruct i as [|[p|[p|p|]|]]; cbn in AS; try discriminate. injection AS as <- <-. split; [unfold legal; lia|]. split; [reflexivity|].
    split; [|left; reflexivity].
    change (gets xx_obj 1 1%N xx_calls) with [(@None mattrs, - one, 103); (None, 0, 121)].
    constructor; [|constructor; [now left|constructor]]. right. cbn [m_amount fst snd]. rewrite Z.abs_opp. exists 1, 1074. unfold one. lia.
Qed.

(** A cumulative reader: a histogram records 0, is collected, and then records 1.078E+68: the second collection raises. *)
Theorem C137_raises_refuted : exists h, Forall xx_api h
  /\ gets xx_obj 0 0%N h = [(None, 0, 100); (None, 2 ^ 1300, 120)]
  /\ Forall (fun m => measurable (m_amount m) /\ 0 <= m_amount m) (gets xx_obj 0 0%N h)
  /\ xx_through 0%N xx_view /\ legal 4 3
  /\ something_raised (xx_state h).
Proof.
  exists [PCall 0 None 0 100; PCollect 0 [] false 110; PCall 0 None (2 ^ 1300) 120; PCollect 0 [] false 130]. split.
  { repeat constructor; try apply no_usable; discriminate. }
  split; [reflexivity|]. split.
  { constructor; [split; [now left|cbn; lia]|]. constructor; [|constructor]. split; [|cbn; lia]. right. exists 1, 1300. cbn [m_amount fst snd]. lia. }
  split; [apply C137_case|]. split; [unfold legal; lia|].
  destruct (xx_state _) as [|st cs] eqn:E; [vm_compute in E; discriminate|].
  vm_compute in E. injection E as <- _.
  do 6 eexists. split; [now left|]. split; [now left|]. split; [now left|]. split; [now left|]. right. eexists. reflexivity.
Qed.
Print Assumptions C137_raises_refuted.

(** An observable instrument with an exponential histogram is never reported, whatever the temporality. *)
Theorem C137_observable_refuted : forall t, t = DELTA \/ t = CUMULATIVE -> exists readers h,
  Forall xx_api h /\ gets xx_obj 0 2%N h = [(None, 5 * one, 110); (None, 7 * one, 120)]
  /\ nth_error readers 0 = Some (RD (fun _ => t) (fun _ => Exponential 160 2))
  /\ snd (x_run (fun _ => None) (fun _ => true) (fun a b => str_eqb a b) xx_scope xx_obj xx_scope_of exact_log_floor
       Default asks_default asks_explicit (fun g i => create g (in_kind (xx_obj i)) (in_adv (xx_obj i))) aggregate (fun t a now => collect a t now) (agg_shape xx_obj)
       [] readers h) = [CMetrics 0 []; CMetrics 0 []].
Proof.
  intros t T. exists [RD (fun _ => t) (fun _ => Exponential 160 2)], [PCollect 0 [(2%N, None, 5 * one)] false 110; PCollect 0 [(2%N, None, 7 * one)] false 120]. split.
  { repeat constructor; try apply no_usable; discriminate. }
  split; [reflexivity|]. split; [reflexivity|]. destruct T as [-> | ->]; vm_compute; reflexivity.
Qed.
Print Assumptions C137_observable_refuted.
