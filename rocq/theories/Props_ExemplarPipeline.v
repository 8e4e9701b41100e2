(** C139: exemplars, from the contexts in which the program measures to the data points of a collection. *)
From Verif Require Import Proof_ExemplarPipeline Proof_ExemplarErased Spec_ExemplarPipeline.
From Verif Require Import Model_Exemplar Spec_Exemplar.
From Coq Require Import Lia.
Local Open Scope Z_scope.

(** A collection delivers, for an instrument with a sum, a last value or a histogram, one point for each set of (kept) attributes;
    its exemplars are measurements with these attributes since the reader's last collection which the filter lets through, each once,
    with the attributes that the point does not show.  A histogram has the last one of each bucket, others have one if there is any.  If it was
    made in a span, then an exemplar names the span of the context that the program gave, or else of the current one.
    Missing: measurements with an empty context inside of a span (C139_context_refuted), exemplars of measurements outside of any span
    (C65_span_refuted), exponential histograms and reservoirs of the user. *)
Theorem C139_exemplars_partial : forall float_int obj_hash fnmatch (Scope : Type) (ES : EqDec Scope) (the_scope : Scope -> scope) obj scope_of
    (the_call : N -> mcall) f rand (views : list (@view aggregation)) (readers : list (@reader aggregation)) h r obs now h' rd i v g h0 part,
  let t := rd_temporality rd (in_kind (obj i)) in
  let new := e_gets obj the_call r i part ++ e_observed i obs in
  let cur := if gets_old (obj i) g t then e_gets obj the_call r i h ++ e_observed i obs else new in
  (forall i d s n b, 0 < b -> 0 <= rand i d s n b < b) ->
  seen_through fnmatch the_scope obj scope_of views i v -> asked obj rd i v g -> has_points (obj i) g ->
  nth_error readers r = Some rd ->
  Forall (e_allowed float_int obj_hash obj the_call) (h ++ ECollect r obs false now :: h') ->
  e_since r h h0 part ->
  (forall k, In k new -> ~ left_span (the_call k)) ->
  (exists k, In k cur) ->
  exists out points reps,
    e_output float_int obj_hash fnmatch the_scope obj scope_of the_call f rand views readers h (h ++ ECollect r obs false now :: h')
      = Some (CMetrics r out)
    /\ e_reports obj scope_of out i v g t points
    /\ e_each float_int obj_hash the_call (v_keys v) cur reps
    /\ Forall2 (fun a pe => exists l, e_with float_int obj_hash the_call (v_keys v) a new l
                                      /\ fits_shape (expected_shape (obj i) g) (fst pe)
                                      /\ exemplars_are the_call (v_keys v) f a l (fst pe) (snd pe)) reps points.
Proof.
  intros float_int obj_hash fnmatch Scope ES the_scope obj scope_of the_call f rand views readers h r obs now h' rd i v g h0 part t new cur H1 H2 H3 H4 H5 H6 H7 H8 H9.
  destruct (exemplars_delivered float_int obj_hash fnmatch the_scope obj scope_of the_call f rand views readers h r obs now h' rd i v g h0 part H1 H2 H3 H4 H5 H6 H7 H8 H9)
    as (out & points & reps & E1 & E2 & E3 & E4 & _). exists out, points, reps. auto.
Qed.
Print Assumptions C139_exemplars_partial.

(** With the default filter every exemplar names the sampled span in which, as the program meant it, its measurement was made. *)
Theorem C139_trace_based_partial : forall float_int obj_hash fnmatch (Scope : Type) (ES : EqDec Scope) (the_scope : Scope -> scope) obj scope_of
    (the_call : N -> mcall) rand (views : list (@view aggregation)) (readers : list (@reader aggregation)) h r obs now h' rd i v g h0 part,
  let t := rd_temporality rd (in_kind (obj i)) in
  let new := e_gets obj the_call r i part ++ e_observed i obs in
  let cur := if gets_old (obj i) g t then e_gets obj the_call r i h ++ e_observed i obs else new in
  (forall i d s n b, 0 < b -> 0 <= rand i d s n b < b) ->
  seen_through fnmatch the_scope obj scope_of views i v -> asked obj rd i v g -> has_points (obj i) g ->
  nth_error readers r = Some rd ->
  Forall (e_allowed float_int obj_hash obj the_call) (h ++ ECollect r obs false now :: h') ->
  e_since r h h0 part ->
  (forall k, In k new -> ~ left_span (the_call k)) ->
  (exists k, In k cur) ->
  exists out points,
    e_output float_int obj_hash fnmatch the_scope obj scope_of the_call TraceBasedFilter rand views readers h (h ++ ECollect r obs false now :: h')
      = Some (CMetrics r out)
    /\ e_reports obj scope_of out i v g t points
    /\ forall p es e, In (p, es) points -> In e es ->
       exists k s tr, In k new /\ span_meant (the_call k) = Some (s, tr, true)
         /\ ex_value e = mc_value (the_call k) /\ ex_time e = mc_time (the_call k) /\ ex_span_id e = Some s /\ ex_trace_id e = Some tr.
Proof.
  intros float_int obj_hash fnmatch Scope ES the_scope obj scope_of the_call rand views readers h r obs now h' rd i v g h0 part t new cur H1 H2 H3 H4 H5 H6 H7 H8 H9.
  destruct (exemplars_delivered float_int obj_hash fnmatch the_scope obj scope_of the_call TraceBasedFilter rand views readers h r obs now h' rd i v g h0 part H1 H2 H3 H4 H5 H6 H7 H8 H9)
    as (out & points & reps & E1 & E2 & _ & E3 & _).
  exists out, points. split; [exact E1|]. split; [exact E2|]. intros p es e Ip Ie.
  assert (X : exists a l, e_with float_int obj_hash the_call (v_keys v) a new l /\ exemplars_are the_call (v_keys v) TraceBasedFilter a l p es).
  { clear - E3 Ip. induction E3 as [|a pe reps points (l & W & _ & X) F IH]; [destruct Ip|]. destruct Ip as [->|Ip]; eauto. }
  destruct X as (a & l & W & (ps & _ & F) & _).
  assert (J : exists n m, nth_error (filter (lets_through TraceBasedFilter) (map (fun k => as_meant (the_call k)) l)) n = Some m
            /\ exemplar_of (shown (v_keys v) a) m e /\ span_rule (filter (lets_through TraceBasedFilter) (map (fun k => as_meant (the_call k)) l)) m e).
  { clear - F Ie. induction F as [|n e' ps es' (m & A & B & C) F IH]; [destruct Ie|]. destruct Ie as [->|Ie]; eauto. }
  destruct J as (n & m & E & (V & T & _) & (S & _)). apply nth_error_In in E. apply filter_In in E as [I L]. apply in_map_iff in I as (k & <- & Ik).
  assert (In k new) as Kn. { clear - W Ik. induction W; [exact Ik| |right; auto]. destruct Ik as [->|Ik]; [now left|right; auto]. }
  cbn [as_meant lets_through me_span] in L. destruct (span_meant (the_call k)) as [[[s tr] [|]]|] eqn:SM; try discriminate.
  exists k, s, tr. split; [exact Kn|]. split; [exact SM|]. split; [exact V|]. split; [exact T|].
  unfold names_span in S. cbn [as_meant me_span] in S. rewrite SM in S. apply S. left. discriminate.
Qed.
Print Assumptions C139_trace_based_partial.

(** In the OTLP request made of the collection, the instrument's metric has these points with these exemplars: their value, time and
    attributes, and the ids in 8 and 16 bytes.
    Missing: as above. *)
Theorem C139_request_partial : forall float_int obj_hash fnmatch (Scope : Type) (ES : EqDec Scope) (the_scope : Scope -> scope) obj scope_of
    (the_call : N -> mcall) f rand (views : list (@view aggregation)) (readers : list (@reader aggregation)) infty to_float
    h r obs now h' rd i v g h0 part,
  let t := rd_temporality rd (in_kind (obj i)) in
  let new := e_gets obj the_call r i part ++ e_observed i obs in
  let cur := if gets_old (obj i) g t then e_gets obj the_call r i h ++ e_observed i obs else new in
  (forall i d s n b, 0 < b -> 0 <= rand i d s n b < b) ->
  seen_through fnmatch the_scope obj scope_of views i v -> asked obj rd i v g -> has_points (obj i) g ->
  nth_error readers r = Some rd ->
  Forall (e_allowed float_int obj_hash obj the_call) (h ++ ECollect r obs false now :: h') ->
  e_since r h h0 part ->
  (forall k, In k new -> ~ left_span (the_call k)) ->
  (exists k, In k cur) ->
  (forall s s', same_scope_key float_int (Some (the_scope s)) (Some (the_scope s')) = true -> s = s') ->
  exists out,
    e_output float_int obj_hash fnmatch the_scope obj scope_of the_call f rand views readers h (h ++ ECollect r obs false now :: h')
      = Some (CMetrics r out)
    /\ forall res req, e_otlp_request float_int the_scope infty to_float res out = Some req ->
       exists d points reps, metric_in the_scope obj scope_of res i v req d
         /\ data_is to_float (expected_shape (obj i) g) t (only_increases (in_kind (obj i))) points d
         /\ e_each float_int obj_hash the_call (v_keys v) cur reps
         /\ Forall2 (fun a pe => exists l, e_with float_int obj_hash the_call (v_keys v) a new l
                                           /\ exemplars_are the_call (v_keys v) f a l (fst pe) (snd pe)) reps points.
Proof.
  intros float_int obj_hash fnmatch Scope ES the_scope obj scope_of the_call f rand views readers infty to_float h r obs now h' rd i v g h0 part t new cur H1 H2 H3 H4 H5 H6 H7 H8 H9 H10.
  destruct (exemplars_delivered float_int obj_hash fnmatch the_scope obj scope_of the_call f rand views readers h r obs now h' rd i v g h0 part H1 H2 H3 H4 H5 H6 H7 H8 H9)
    as (out & points & reps & E1 & E2 & E3 & E4 & E5). exists out. split; [exact E1|]. intros res req Q.
  assert (NE : points <> []).
  { intro Z0. rewrite Z0 in E4. inversion E4; subst. destruct E3 as (_ & _ & C). destruct H9 as (k0 & Ik0). destruct (C k0 Ik0) as (a & [] & _). }
  assert (FS : Forall (fun pe => fits_shape (expected_shape (obj i) g) (fst pe)) points).
  { clear - E4. induction E4 as [|a pe reps points (l & _ & X & _) F IH]; constructor; auto. }
  destruct (e_in_request float_int the_scope obj scope_of infty to_float out res req i v g t points H10 E5 E2 NE FS Q) as (d & D1 & D2).
  exists d, points, reps. split; [exact D1|]. split; [exact D2|]. split; [exact E3|].
  clear - E4. induction E4 as [|a pe reps points (l & A & _ & X) F IH]; constructor; eauto.
Qed.
Print Assumptions C139_request_partial.

(** Exemplars change nothing else: without them, every collection delivers what the same calls deliver in Model_Pipeline, whatever the
    filter and the reservoirs do, so what is said there about sums, last values and histograms (C104, C105) holds here too. *)
Theorem C139_points : forall float_int obj_hash fnmatch (Scope : Type) (ES : EqDec Scope) (the_scope : Scope -> scope) obj scope_of
    (the_call : N -> mcall) f rand (views : list (@view aggregation)) (readers : list (@reader aggregation)) h r obs now h' rd,
  nth_error readers r = Some rd ->
  Forall (e_allowed float_int obj_hash obj the_call) (h ++ ECollect r obs false now :: h') ->
  exists out out',
    e_output float_int obj_hash fnmatch the_scope obj scope_of the_call f rand views readers h (h ++ ECollect r obs false now :: h')
      = Some (CMetrics r out)
    /\ output_after float_int obj_hash fnmatch the_scope obj scope_of views readers (map (plain_call the_call) h)
         (map (plain_call the_call) (h ++ ECollect r obs false now :: h')) = Some (CMetrics r out')
    /\ forall s, option_map (map without_exemplars) (dget s out) = dget s out'.
Proof. intros. eapply points_unchanged; eassumption. Qed.
Print Assumptions C139_points.

(** ** Cases *)
Definition qx_scope (_ : unit) : scope := Scope (lit "lib") None [] [].
Definition qx_obj (n : N) : instr :=
  match n with
  | 0%N => Instr 0 IHistogram (lit "size") [] [] (Some [10; 20])
  | 1%N => Instr 1 ICounter (lit "hits") [] [] None
  | _ => Instr 2 IObservableGauge (lit "load") [] [] None
  end.
Definition qx_view : @view aggregation := View None (Some (lit "size")) None None None None None None (Some [lit "verb"]) Default.
Definition qx_reader (t : temporality) : @reader aggregation := RD (fun _ => t) (fun _ => Default).
Definition qx_a (u : string) : option mattrs := Some [(lit "verb", PStr false (lit "GET")); (lit "user", PStr false (lit u))].
Definition qx_in (s t : N) : ctx := SomeContext (Some (s, t, true)).
Definition qx_call (n : N) : mcall :=
  match n with
  | 0%N => MCall 5 (qx_a "a") None (qx_in 1 2) 100
  | 1%N => MCall 15 (qx_a "b") None EmptyContext 101
  | 2%N => MCall 7 (qx_a "c") (Some (qx_in 3 4)) (qx_in 1 2) 102
  | 3%N => MCall 1 None None (qx_in 5 6) 103
  | 4%N => MCall 9 None None (qx_in 7 8) 104
  | 5%N => MCall 25 (qx_a "d") None (qx_in 1 2) 105
  | _ => MCall 1 None (Some EmptyContext) (qx_in 5 6) 106
  end.
#[local] Instance EqDec_unit2 : EqDec unit.
Proof. intros [] []. now left. Defined.
Definition qx_output h t obs := e_output (fun _ => None) (fun _ => true) (fun a b => str_eqb a b) qx_scope qx_obj (fun _ => tt) qx_call TraceBasedFilter
  (fun _ _ _ _ _ => 0) [qx_view] [qx_reader t] h (h ++ [ECollect 0 obs false 200]).
Definition qx_calls : list ecall := [ECall 0 5 100; ECollect 0 [] false 101; ECall 0 0 102; ECall 1 3 103; ECall 0 1 104; ECall 0 2 105].
Definition qx_see (o : option (@cout unit (point * list exemplar))) : list (str * list (list exemplar)) :=
  match o with
  | Some (CMetrics _ out) => flat_map (fun e => map (fun m => (m_name m, map snd (m_points m))) (snd e)) out
  | _ => []
  end.
Lemma qx_usable u : usable (fun _ => None) (fun _ => true) None (qx_a u).
Proof.
  split.
  - intros d [= <-]. repeat constructor; cbn; intros X; repeat (destruct X as [X|X]; [discriminate|]); exact X.
  - intros k v _ E. cbn in E. destruct (eq_dec k _); [injection E as <-; discriminate|]. destruct (eq_dec k _); [injection E as <-; discriminate|discriminate].
Qed.
Lemma qx_all_usable k : usable (fun _ => None) (fun _ => true) None (mc_attrs (qx_call k)).
Proof.
  assert (U : usable (fun _ => None) (fun _ => true) None None) by (split; [discriminate|intros x v _ [=]]).
  destruct k as [|p]; [apply qx_usable|]. do 3 (destruct p as [p|p|]; try apply qx_usable; try exact U).
Qed.
Example C139_case :
  qx_see (qx_output qx_calls CUMULATIVE [(2%N, 4%N)])
    = [(lit "size", [[Ex (Some [(lit "user", PStr false (lit "c"))]) 7 102 (Some 3%N) (Some 4%N)]]);
       (lit "hits", [[Ex None 1 103 (Some 5%N) (Some 6%N)]]); (lit "load", [[Ex None 9 104 (Some 7%N) (Some 8%N)]])]
  /\ seen_through (fun a b => str_eqb a b) qx_scope qx_obj (fun _ => tt) [qx_view] 0 qx_view
  /\ asked qx_obj (qx_reader CUMULATIVE) 0 qx_view Default /\ has_points (qx_obj 0) Default
  /\ Forall (e_allowed (fun _ => None) (fun _ => true) qx_obj qx_call) (qx_calls ++ [ECollect 0 [(2%N, 4%N)] false 200])
  /\ e_since 0 qx_calls (firstn 2 qx_calls) (skipn 2 qx_calls)
  /\ e_gets qx_obj qx_call 0 0 (skipn 2 qx_calls) ++ e_observed 0 [(2%N, 4%N)] = [0%N; 1%N; 2%N]
  /\ (forall k, In k [0%N; 1%N; 2%N] -> ~ left_span (qx_call k)).
Proof.
  split; [vm_compute; reflexivity|]. split.
  { left. split; [now left|]. split; [intros ? [=]|]. split; [intros ? [= <-]; vm_compute; reflexivity|]. repeat (split; [intros ? [=]|]). intros [X _]; discriminate. }
  split; [right; auto|]. split; [exact I|]. split.
  { cbn [app qx_calls]. repeat (apply Forall_cons || apply Forall_nil); cbn [e_allowed]; try (split; [reflexivity|apply qx_all_usable]); try apply Forall_nil.
    all: try (split; [reflexivity|apply qx_all_usable]). }
  split.
  { split; [reflexivity|]. split; [|right; exists (firstn 1 qx_calls), [], 101; reflexivity]. intros o n J. cbn in J. repeat (destruct J as [J|J]; [discriminate|]). destruct J. }
  split; [reflexivity|]. intros k [<-|[<-|[<-|[]]]] [X _]; discriminate.
Qed.

Definition qx_messages (o : option (@cout unit (point * list exemplar))) : list (str * list (list pb_exemplar)) :=
  match o with
  | Some (CMetrics _ out) =>
      match e_otlp_request (fun _ => None) qx_scope (fun _ => 0) Some (Res [] []) out with
      | Some req => flat_map (fun g => flat_map (fun sg => map (fun m => (pm_name m,
          match pm_data m with PbSum l _ _ | PbGauge l => map pn_exemplars l | PbHistogram l _ => map ph_exemplars l | _ => [] end)) (pg_items sg)) (pr_scopes g)) req
      | None => []
      end
  | _ => []
  end.
Example C139_request_case :
  qx_messages (qx_output qx_calls CUMULATIVE [(2%N, 4%N)])
    = [(lit "size", [[PbEx [(lit "user", AVStr (lit "c"))] 102 (NInt 7) [0; 0; 0; 0; 0; 0; 0; 3]%N [0; 0; 0; 0; 0; 0; 0; 0; 0; 0; 0; 0; 0; 0; 0; 4]%N]]);
       (lit "hits", [[PbEx [] 103 (NInt 1) [0; 0; 0; 0; 0; 0; 0; 5]%N [0; 0; 0; 0; 0; 0; 0; 0; 0; 0; 0; 0; 0; 0; 0; 6]%N]]);
       (lit "load", [[PbEx [] 104 (NInt 9) [0; 0; 0; 0; 0; 0; 0; 7]%N [0; 0; 0; 0; 0; 0; 0; 0; 0; 0; 0; 0; 0; 0; 0; 8]%N]])].
Proof. vm_compute. reflexivity. Qed.

Example C139_points_case : exists out, qx_output qx_calls CUMULATIVE [(2%N, 4%N)] = Some (CMetrics 0 out)
  /\ option_map (map (fun m => (m_name m, m_points (without_exemplars m)))) (dget tt out)
     = Some [(lit "size", [HistogramPoint (HP [(lit "verb", PStr false (lit "GET"))] 100 200 4 52 [2; 1; 1] [10; 20] (Fin 5) (Fin 25))]);
             (lit "hits", [NumberPoint (NP [] (Some 103) 200 1)]); (lit "load", [NumberPoint (NP [] None 200 9)])].
Proof. eexists. split; vm_compute; reflexivity. Qed.

(** False of a measurement for which the program gave an empty context: it counts as no context, and the exemplar names the current
    span, although the program said that it measures outside of it. *)
Theorem C139_context_refuted : exists k h e, In (ECall 1 k 300) h
  /\ Forall (e_allowed (fun _ => None) (fun _ => true) qx_obj qx_call) (h ++ [ECollect 0 [] false 200])
  /\ mc_given (qx_call k) = Some EmptyContext /\ span_meant (qx_call k) = None /\ lets_through TraceBasedFilter (as_meant (qx_call k)) = false
  /\ qx_see (qx_output h DELTA []) = [(lit "hits", [[e]])]
  /\ ex_value e = mc_value (qx_call k) /\ ex_span_id e = Some 5%N /\ ex_trace_id e = Some 6%N.
Proof.
  exists 6%N, [ECall 1 6 300]. eexists. split; [now left|]. split.
  { repeat (apply Forall_cons || apply Forall_nil); cbn [e_allowed]; split; [reflexivity|apply qx_all_usable]. }
  do 3 (split; [reflexivity|]). split; [vm_compute; reflexivity|]. repeat split.
Qed.
Print Assumptions C139_context_refuted.
