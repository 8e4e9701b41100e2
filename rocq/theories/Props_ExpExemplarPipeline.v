(** C140: the exemplars of exponential histograms, from the calls to what a reader collects and to the OTLP request. *)
From Verif Require Import Proof_ExpExemplarErased Proof_ExpExemplarPipeline Props_ExpHist Spec_ExpExemplarPipeline.
From Verif Require Import Spec_ExpExemplar Spec_ExemplarPipeline Model_ExemplarPipeline Model_Exemplar Spec_Exemplar.
From Coq Require Import Lia.
Local Open Scope Z_scope.

(** For every history of calls and collections, all views, readers and other aggregations: if an exponential histogram is asked for, the collection
    delivers a metric with one point for each set of attributes measured (since the last collection of this reader if it is a delta reader);
    the point is the histogram of the amounts, and its exemplars are measurements of its stream since the last collection.
    Missing: zeros do not become exemplars; empty contexts given inside of a span; reservoirs of the user; cumulative readers with amounts
    that are not [one_sided], with which a collection can raise (C137_raises_refuted). *)
Theorem C140_pipeline_partial : forall float_int obj_hash fnmatch (Scope : Type) (ES : EqDec Scope) (the_scope : Scope -> scope) obj scope_of log_floor
    (the_call : N -> mcall) f rand (G0 A0 D0 : Type) (default0 : G0) is_default0 is_explicit0 create0 aggregate0
    (collect0 : temporality -> A0 -> Z -> A0 * option D0) shape0 views readers h r obs now h' rd i v max_size max_scale h0 part,
  let t := rd_temporality rd (in_kind (obj i)) in
  let new := e_gets obj the_call r i part in
  let cur := match t with DELTA => new | _ => e_gets obj the_call r i h end in
  log_consistent log_floor ->
  (forall i d s n b, 0 < b -> 0 <= rand i d s n b < b) ->
  x_seen_through fnmatch the_scope obj scope_of default0 is_explicit0 views i v -> x_asked obj is_default0 rd i v max_size max_scale ->
  legal max_size max_scale ->
  nth_error readers r = Some rd -> synchronous (in_kind (obj i)) = true ->
  Forall (e_allowed float_int obj_hash obj the_call) (h ++ ECollect r obs false now :: h') ->
  e_since r h h0 part ->
  (forall k, In k (e_gets obj the_call r i h) -> measurable (mc_value (the_call k)) /\ ~ left_span (the_call k)) ->
  (t = DELTA \/ t = CUMULATIVE /\ forall a l, e_with float_int obj_hash the_call (v_keys v) a (e_gets obj the_call r i h) l -> one_sided (map (fun k => mc_value (the_call k)) l)) ->
  (exists k, In k cur) ->
  exists out points reps,
    m_output float_int obj_hash fnmatch the_scope obj scope_of log_floor the_call f rand default0 is_default0 is_explicit0 create0 aggregate0 collect0 shape0
      views readers h (h ++ ECollect r obs false now :: h') = Some (CMetrics r out)
    /\ m_reports obj scope_of out i v t points
    /\ e_each float_int obj_hash the_call (v_keys v) cur reps
    /\ Forall2 (fun a pe => exists l new_l, e_with float_int obj_hash the_call (v_keys v) a cur l /\ e_with float_int obj_hash the_call (v_keys v) a new new_l
         /\ exp_histogram_of log_floor max_size (map (fun k => mc_value (the_call k)) l) (fst pe) /\ ep_attrs (fst pe) = shown (v_keys v) a /\ ep_time (fst pe) = now
         /\ e_starts float_int obj_hash obj the_call (v_keys v) r i a (match t with DELTA => h0 | _ => [] end) (match t with DELTA => part | _ => h end) (ep_start (fst pe))
         /\ exp_exemplars_are f (shown (v_keys v) a) (Z.min 20 max_size) (no_draws (map the_call new_l)) (snd pe)) reps points.
Proof.
  intros. edestruct exp_delivered as (out & points & reps & E1 & _ & E2 & E3 & E4); try eassumption.
  exists out, points, reps. split; [exact E1|]. split; [exact E2|]. split; [exact E3|exact E4].
Qed.
Print Assumptions C140_pipeline_partial.

(** The same in the request that the OTLP exporters send, if no two scopes are equal and all can be encoded.  Missing: as above. *)
Theorem C140_request_partial : forall float_int obj_hash fnmatch (Scope : Type) (ES : EqDec Scope) (the_scope : Scope -> scope) obj scope_of log_floor
    (the_call : N -> mcall) f rand (G0 A0 D0 : Type) (default0 : G0) is_default0 is_explicit0 create0 aggregate0
    (collect0 : temporality -> A0 -> Z -> A0 * option D0) shape0 views readers dbl infty data0 to_float h r obs now h' rd i v max_size max_scale h0 part,
  let t := rd_temporality rd (in_kind (obj i)) in
  let new := e_gets obj the_call r i part in
  let cur := match t with DELTA => new | _ => e_gets obj the_call r i h end in
  log_consistent log_floor ->
  (forall i d s n b, 0 < b -> 0 <= rand i d s n b < b) ->
  x_seen_through fnmatch the_scope obj scope_of default0 is_explicit0 views i v -> x_asked obj is_default0 rd i v max_size max_scale ->
  legal max_size max_scale ->
  nth_error readers r = Some rd -> synchronous (in_kind (obj i)) = true ->
  Forall (e_allowed float_int obj_hash obj the_call) (h ++ ECollect r obs false now :: h') ->
  e_since r h h0 part ->
  (forall k, In k (e_gets obj the_call r i h) -> measurable (mc_value (the_call k)) /\ ~ left_span (the_call k)) ->
  (t = DELTA \/ t = CUMULATIVE /\ forall a l, e_with float_int obj_hash the_call (v_keys v) a (e_gets obj the_call r i h) l -> one_sided (map (fun k => mc_value (the_call k)) l)) ->
  (exists k, In k cur) ->
  (forall s s', same_scope_key float_int (Some (the_scope s)) (Some (the_scope s')) = true -> s = s') ->
  exists out,
    m_output float_int obj_hash fnmatch the_scope obj scope_of log_floor the_call f rand default0 is_default0 is_explicit0 create0 aggregate0 collect0 shape0
      views readers h (h ++ ECollect r obs false now :: h') = Some (CMetrics r out)
    /\ forall res req, m_otlp_request float_int the_scope dbl infty data0 to_float res out = Some req ->
       exists ps reps, x_metric_in the_scope obj scope_of res i v req (PbExponential ps (temporality_code t))
       /\ e_each float_int obj_hash the_call (v_keys v) cur reps
       /\ Forall2 (fun a q => exists l new_l start es, e_with float_int obj_hash the_call (v_keys v) a cur l /\ e_with float_int obj_hash the_call (v_keys v) a new new_l
            /\ exp_message_is log_floor dbl max_size (v_keys v) now a start (map (fun k => mc_value (the_call k)) l) q
            /\ e_starts float_int obj_hash obj the_call (v_keys v) r i a (match t with DELTA => h0 | _ => [] end) (match t with DELTA => part | _ => h end) start
            /\ exp_exemplars_are f (shown (v_keys v) a) (Z.min 20 max_size) (no_draws (map the_call new_l)) es
            /\ Forall2 (double_exemplar_message dbl) es (px_exemplars q)) reps ps.
Proof. intros. eapply exp_requested; eassumption. Qed.
Print Assumptions C140_request_partial.

(** Apart from the exemplars, each collection delivers what it would without them (C137): the same metrics with the same points, for every
    history, filter and reservoir, whatever is measured in whatever context. *)
Theorem C140_pipeline_points : forall float_int obj_hash fnmatch (Scope : Type) (ES : EqDec Scope) (the_scope : Scope -> scope) obj scope_of log_floor
    (the_call : N -> mcall) f rand (G0 A0 D0 : Type) (default0 : G0) is_default0 is_explicit0 create0 aggregate0
    (collect0 : temporality -> A0 -> Z -> A0 * option D0) shape0 views readers h r obs now h' rd,
  nth_error readers r = Some rd ->
  Forall (e_allowed float_int obj_hash obj the_call) (h ++ ECollect r obs false now :: h') ->
  exists out out',
    m_output float_int obj_hash fnmatch the_scope obj scope_of log_floor the_call f rand default0 is_default0 is_explicit0 create0
      (fun a k => aggregate0 a (mc_value (the_call (Z.to_N k)))) collect0 shape0 views readers h (h ++ ECollect r obs false now :: h') = Some (CMetrics r out)
    /\ x_output float_int obj_hash fnmatch the_scope obj scope_of log_floor default0 is_default0 is_explicit0 create0 aggregate0 collect0 shape0
         views readers (map (plain_call the_call) h) (map (plain_call the_call) (h ++ ECollect r obs false now :: h')) = Some (CMetrics r out')
    /\ forall s, option_map (map metric_alone) (dget s out) = dget s out'.
Proof. intros. eapply exp_points_unchanged; eassumption. Qed.
Print Assumptions C140_pipeline_points.

(** ** A case: a histogram seen through a view that keeps the key "verb", with a collection in between *)
Definition xo_one : Z := Eval vm_compute in 2 ^ 1074.
Definition xo_scope (_ : unit) : scope := Scope (lit "lib") None [] [].
Definition xo_obj (n : N) : instr := Instr 0 IHistogram (lit "size") [] [] None.
Definition xo_view : @view (xconf unit) := View None (Some (lit "size")) None None None None None None (Some [lit "verb"]) (Exponential 4 0).
Definition xo_reader (t : temporality) : @reader (xconf unit) := RD (fun _ => t) (fun _ => Other tt).
Definition xo_a (u : string) : option mattrs := Some [(lit "verb", PStr false (lit "GET")); (lit "user", PStr false (lit u))].
Definition xo_in (s t : N) : ctx := SomeContext (Some (s, t, true)).
Definition xo_call (n : N) : mcall :=
  match n with
  | 0%N => MCall (8 * xo_one) (xo_a "a") None (xo_in 1 2) 100
  | 1%N => MCall xo_one (xo_a "b") None (xo_in 3 4) 102
  | 2%N => MCall 0 (xo_a "c") None (xo_in 1 2) 103
  | _ => MCall (4 * xo_one) (xo_a "d") (Some (xo_in 5 6)) EmptyContext 104
  end.
#[local] Instance EqDec_unit3 : EqDec unit.
Proof. intros [] []. now left. Defined.
Definition xo_calls : list ecall := [ECall 0 0 100; ECollect 0 [] false 101; ECall 0 1 102; ECall 0 2 103; ECall 0 3 104].
Definition xo_output t := m_output (fun _ => None) (fun _ => true) (fun a b => str_eqb a b) xo_scope xo_obj (fun _ => tt) exact_log_floor xo_call TraceBasedFilter
  (fun _ _ _ _ _ => 0) tt (fun _ => true) (fun _ => false) (fun _ _ _ _ => tt) (fun _ _ => tt) (fun _ _ _ => (tt, @None unit)) (fun _ _ => ShDrop)
  [xo_view] [xo_reader t] xo_calls (xo_calls ++ [ECollect 0 [] false 200]).
Definition xo_see (o : option (@cout unit (mpoint unit))) : list (str * list (option (mattrs * Z * list exemplar))) :=
  match o with
  | Some (CMetrics _ out) => flat_map (fun e => map (fun m => (m_name m, map (fun p => match p with MExpPoint (p, es) => Some (ep_attrs p, ep_count p, es) | _ => None end) (m_points m))) (snd e)) out
  | _ => []
  end.
Definition xo_sent (o : option (@cout unit (mpoint unit))) : list (list (list pb_exemplar)) :=
  match o with
  | Some (CMetrics _ out) =>
      match m_otlp_request (fun _ => None) xo_scope (fun z => z / xo_one) (fun _ => 0) (fun _ _ _ _ => MUnknown) Some (Res [] []) out with
      | Some req => flat_map (fun g => flat_map (fun sg => map (fun m => match pm_data m with PbExponential l _ => map px_exemplars l | _ => [] end) (pg_items sg)) (pr_scopes g)) req
      | None => []
      end
  | _ => []
  end.
Definition xo_get : mattrs := [(lit "verb", PStr false (lit "GET"))].
Definition xo_exemplars : list exemplar :=
  [Ex (Some [(lit "user", PStr false (lit "b"))]) xo_one 102 (Some 3%N) (Some 4%N); Ex (Some [(lit "user", PStr false (lit "d"))]) (4 * xo_one) 104 (Some 5%N) (Some 6%N)].
Lemma xo_usable k : usable (fun _ => None) (fun _ => true) None (mc_attrs (xo_call k)).
Proof.
  assert (U : forall u, usable (fun _ => None) (fun _ => true) None (xo_a u)).
  { intro u. split.
    - intros d [= <-]. repeat constructor; cbn; intros X; repeat (destruct X as [X|X]; [discriminate|]); exact X.
    - intros k' v _ E. cbn in E. destruct (eq_dec k' _); [injection E as <-; discriminate|]. destruct (eq_dec k' _); [injection E as <-; discriminate|discriminate]. }
  destruct k as [|p]; [apply U|]. do 2 (destruct p as [p|p|]; try apply U).
Qed.
Example C140_pipeline_case :
  xo_see (xo_output DELTA) = [(lit "size", [Some (xo_get, 3, xo_exemplars)])]
  /\ xo_see (xo_output CUMULATIVE) = [(lit "size", [Some (xo_get, 4, xo_exemplars)])]
  /\ xo_sent (xo_output DELTA)
     = [[[PbEx [(lit "user", AVStr (lit "b"))] 102 (NFloat 1) [0; 0; 0; 0; 0; 0; 0; 3]%N [0; 0; 0; 0; 0; 0; 0; 0; 0; 0; 0; 0; 0; 0; 0; 4]%N;
          PbEx [(lit "user", AVStr (lit "d"))] 104 (NFloat 4) [0; 0; 0; 0; 0; 0; 0; 5]%N [0; 0; 0; 0; 0; 0; 0; 0; 0; 0; 0; 0; 0; 0; 0; 6]%N]]]
  /\ x_seen_through (fun a b => str_eqb a b) xo_scope xo_obj (fun _ => tt) tt (fun _ => false) [xo_view] 0 xo_view
  /\ (forall t, x_asked xo_obj (fun _ => true) (xo_reader t) 0 xo_view 4 0) /\ legal 4 0
  /\ Forall (e_allowed (fun _ => None) (fun _ => true) xo_obj xo_call) (xo_calls ++ [ECollect 0 [] false 200])
  /\ e_since 0 xo_calls (firstn 2 xo_calls) (skipn 2 xo_calls)
  /\ e_gets xo_obj xo_call 0 0 xo_calls = [0%N; 1%N; 2%N; 3%N]
  /\ (forall k, In k [0%N; 1%N; 2%N; 3%N] -> measurable (mc_value (xo_call k)) /\ ~ left_span (xo_call k))
  /\ (forall a l, e_with (fun _ => None) (fun _ => true) xo_call (v_keys xo_view) a [0%N; 1%N; 2%N; 3%N] l -> one_sided (map (fun k => mc_value (xo_call k)) l)).
Proof.
  split; [vm_compute; reflexivity|]. split; [vm_compute; reflexivity|]. split; [vm_compute; reflexivity|]. split.
  { left. split; [now left|]. split; [intros ? [=]|]. split; [intros ? [= <-]; vm_compute; reflexivity|]. repeat (split; [intros ? [=]|]). intros [X _]; discriminate. }
  split; [intro; now left|]. split; [unfold legal; lia|]. split.
  { cbn [app xo_calls]. repeat (apply Forall_cons || apply Forall_nil); cbn [e_allowed]; try (split; [reflexivity|apply xo_usable]); try apply Forall_nil. }
  split.
  { split; [reflexivity|]. split; [|right; exists (firstn 1 xo_calls), [], 101; reflexivity]. intros o n J. cbn in J. repeat (destruct J as [J|J]; [discriminate|]). destruct J. }
  split; [vm_compute; reflexivity|].
  assert (MS : forall e, 1074 <= e <= 1080 -> measurable (2 ^ e)) by (intros e E; right; exists 1, e; split; [lia|]; split; [lia|]; rewrite Z.abs_eq; [lia|apply Z.pow_nonneg; lia]).
  split.
  2:{ assert (SA : forall a u w, same_stream (fun _ => None) (fun _ => true) (v_keys xo_view) a (xo_a u) -> same_stream (fun _ => None) (fun _ => true) (v_keys xo_view) a (xo_a w)) by (intros a u w X k [<-|[]]; exact (X (lit "verb") (or_introl eq_refl))).
      intros a l W. inversion W as [|k ms l1 S0 W1|k ms l1 S0 W1]; subst.
      - left. split; [vm_compute; reflexivity|]. apply Forall_map, Forall_forall. intros k _. destruct k as [|p]; [vm_compute; discriminate|]. do 2 (destruct p as [p|p|]; try (vm_compute; discriminate)).
      - assert (E : forall k, ~ same_stream (fun _ => None) (fun _ => true) (v_keys xo_view) a (mc_attrs (xo_call k))).
        { intros k X. apply S0. destruct k as [|p]; [exact X|]. do 2 (destruct p as [p|p|]; try exact (SA a _ "a"%string X)). }
        repeat match goal with X : e_with _ _ _ _ _ _ _ |- _ => inversion X; clear X; subst; try (exfalso; eapply E; eassumption) end. exact Logic.I. }
  intros k [<-|[<-|[<-|[<-|[]]]]]; (split; [|intros [X Y]; try discriminate X; destruct Y as (s0 & Y); discriminate Y]).
  - change (mc_value (xo_call 0)) with (8 * xo_one). replace (8 * xo_one) with (2 ^ 1077) by (vm_compute; reflexivity). apply MS. lia.
  - replace (mc_value (xo_call 1)) with (2 ^ 1074) by (vm_compute; reflexivity). apply MS. lia.
  - now left.
  - replace (mc_value (xo_call 3)) with (2 ^ 1076) by (vm_compute; reflexivity). apply MS. lia.
Qed.
Example C140_pipeline_points_case : exists out out', xo_output CUMULATIVE = Some (CMetrics 0 out)
  /\ x_output (fun _ => None) (fun _ => true) (fun a b => str_eqb a b) xo_scope xo_obj (fun _ => tt) exact_log_floor
       tt (fun _ => true) (fun _ => false) (fun _ _ _ _ => tt) (fun _ _ => tt) (fun _ _ _ => (tt, @None unit)) (fun _ _ => ShDrop)
       [xo_view] [xo_reader CUMULATIVE] (map (plain_call xo_call) xo_calls) (map (plain_call xo_call) (xo_calls ++ [ECollect 0 [] false 200])) = Some (CMetrics 0 out')
  /\ option_map (map (fun m => map (fun p => match p with ExpPoint p => Some (ep_count p, ep_sum p) | OtherPoint _ => None end) (m_points (metric_alone m)))) (dget tt out)
     = Some [[Some (4, 13 * xo_one)]]
  /\ option_map (map metric_alone) (dget tt out) = dget tt out'.
Proof. do 2 eexists. split; [vm_compute; reflexivity|]. split; [vm_compute; reflexivity|]. split; vm_compute; reflexivity. Qed.
