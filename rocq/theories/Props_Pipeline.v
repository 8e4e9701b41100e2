(** C89: what the OTLP request of a collection says about the calls on the instruments. *)
From Verif Require Import Proof_Pipeline Spec_Pipeline.
From Coq Require Import Lia.
Local Open Scope Z_scope.

(** A counter or up-down counter: the request has, under the instrument's scope, a metric with its name, description and
    unit, and in it one point for each set of attributes that was used since the start (cumulative) or since the reader's
    last collection (delta), with the total of exactly the amounts added with these attributes. *)
Theorem C89_counters : forall float_int obj_hash fnmatch (Scope : Type) (ES : EqDec Scope) (the_scope : Scope -> scope) obj scope_of
    (views : list (@view aggregation)) (readers : list (@reader aggregation)) infty to_float h r obs now h' rd i h0 part,
  in_kind (obj i) = ICounter \/ in_kind (obj i) = IUpDownCounter ->
  (forall v, In v views -> ~ applies fnmatch (fun s => sco_name (the_scope s)) (fun s => sco_version (the_scope s))
                               (fun s => sco_schema (the_scope s)) obj scope_of wants_buckets i v) ->
  nth_error readers r = Some rd -> rd_aggregation rd (in_kind (obj i)) = Default ->
  Forall (api_call float_int obj_hash obj) (h ++ PCollect r obs false now :: h') ->
  covers (rd_temporality rd (in_kind (obj i))) r h h0 part ->
  (exists a l, amounts float_int obj_hash obj i a part l /\ l <> []) ->
  (forall s, scope_ok (Some (the_scope s))) ->
  (forall s s', python_equal_scopes float_int (Some (the_scope s)) (Some (the_scope s')) -> s = s') ->
  exists out,
    output_after float_int obj_hash fnmatch the_scope obj scope_of views readers h (h ++ PCollect r obs false now :: h')
      = Some (CMetrics r out)
    /\ forall res req, otlp_request float_int the_scope infty to_float res out = Some req ->
       exists pts mono reps,
         in_request obj res (the_scope (scope_of i)) i req
           (PbSum pts (temporality_code (rd_temporality rd (in_kind (obj i)))) mono)
         /\ (mono = true <-> in_kind (obj i) = ICounter)
         /\ each_set float_int obj_hash obj i part reps
         /\ Forall2 (fun a p => exists l s, amounts float_int obj_hash obj i a part l
                                /\ start_time float_int obj_hash obj i a r h0 part s /\ says_number now a s (total l) p) reps pts.
Proof. intros. eapply counter_request; eassumption. Qed.
Print Assumptions C89_counters.

(** A gauge: one point for each set of attributes used since the reader's last collection, with the last value set. *)
Theorem C89_gauges : forall float_int obj_hash fnmatch (Scope : Type) (ES : EqDec Scope) (the_scope : Scope -> scope) obj scope_of
    (views : list (@view aggregation)) (readers : list (@reader aggregation)) infty to_float h r obs now h' rd i h0 part,
  in_kind (obj i) = IGauge ->
  (forall v, In v views -> ~ applies fnmatch (fun s => sco_name (the_scope s)) (fun s => sco_version (the_scope s))
                               (fun s => sco_schema (the_scope s)) obj scope_of wants_buckets i v) ->
  nth_error readers r = Some rd -> rd_aggregation rd (in_kind (obj i)) = Default ->
  Forall (api_call float_int obj_hash obj) (h ++ PCollect r obs false now :: h') ->
  since r h h0 part ->
  (exists a l, amounts float_int obj_hash obj i a part l /\ l <> []) ->
  (forall s, scope_ok (Some (the_scope s))) ->
  (forall s s', python_equal_scopes float_int (Some (the_scope s)) (Some (the_scope s')) -> s = s') ->
  exists out,
    output_after float_int obj_hash fnmatch the_scope obj scope_of views readers h (h ++ PCollect r obs false now :: h')
      = Some (CMetrics r out)
    /\ forall res req, otlp_request float_int the_scope infty to_float res out = Some req ->
       exists pts reps,
         in_request obj res (the_scope (scope_of i)) i req (PbGauge pts)
         /\ each_set float_int obj_hash obj i part reps
         /\ Forall2 (fun a p => exists l z, amounts float_int obj_hash obj i a part (l ++ [z]) /\ says_number now a 0 z p) reps pts.
Proof. intros. eapply gauge_request; eassumption. Qed.
Print Assumptions C89_gauges.

(** A histogram: one point for each set of attributes, with the count, sum, minimum, maximum and buckets of exactly the
    amounts recorded with these attributes. *)
Theorem C89_histograms : forall float_int obj_hash fnmatch (Scope : Type) (ES : EqDec Scope) (the_scope : Scope -> scope) obj scope_of
    (views : list (@view aggregation)) (readers : list (@reader aggregation)) infty to_float h r obs now h' rd i h0 part bounds,
  in_kind (obj i) = IHistogram ->
  in_adv (obj i) = Some bounds \/ (in_adv (obj i) = None /\ bounds = standard_boundaries) -> sorted bounds ->
  (forall v, In v views -> ~ applies fnmatch (fun s => sco_name (the_scope s)) (fun s => sco_version (the_scope s))
                               (fun s => sco_schema (the_scope s)) obj scope_of wants_buckets i v) ->
  nth_error readers r = Some rd -> rd_aggregation rd (in_kind (obj i)) = Default ->
  Forall (api_call float_int obj_hash obj) (h ++ PCollect r obs false now :: h') ->
  covers (rd_temporality rd (in_kind (obj i))) r h h0 part ->
  (exists a l, amounts float_int obj_hash obj i a part l /\ l <> []) ->
  (forall s, scope_ok (Some (the_scope s))) ->
  (forall s s', python_equal_scopes float_int (Some (the_scope s)) (Some (the_scope s')) -> s = s') ->
  exists out,
    output_after float_int obj_hash fnmatch the_scope obj scope_of views readers h (h ++ PCollect r obs false now :: h')
      = Some (CMetrics r out)
    /\ forall res req, otlp_request float_int the_scope infty to_float res out = Some req ->
       exists pts reps,
         in_request obj res (the_scope (scope_of i)) i req
           (PbHistogram pts (temporality_code (rd_temporality rd (in_kind (obj i)))))
         /\ each_set float_int obj_hash obj i part reps
         /\ Forall2 (fun a p => exists l s, amounts float_int obj_hash obj i a part l
                                /\ start_time float_int obj_hash obj i a r h0 part s
                                /\ says_histogram to_float bounds now a s l p) reps pts.
Proof. intros. eapply histogram_request; eassumption. Qed.
Print Assumptions C89_histograms.

(** The case: two scopes, a counter and a histogram in the first, a gauge in the second; a cumulative and a delta reader. *)
Definition ex_scope (b : bool) : scope := Scope (if b then lit "lib" else lit "app") None [] [].
Definition ex_obj (n : N) : instr :=
  match n with
  | 0%N => Instr 0 ICounter (lit "hits") (lit "1") (lit "Hits") None
  | 1%N => Instr 1 IHistogram (lit "size") (lit "By") [] (Some [10; 20])
  | 2%N => Instr 2 IGauge (lit "load") [] [] None
  | _ => Instr 3 IObservableCounter (lit "cpu") [] [] None
  end.
Definition ex_scope_of (n : N) : bool := N.ltb n 2.
Definition ex_readers : list (@reader aggregation) := [RD (fun _ => CUMULATIVE) (fun _ => Default); RD (fun _ => DELTA) (fun _ => Default)].
Definition ex_get : option mattrs := Some [(lit "verb", PStr false (lit "GET"))].
Definition ex_calls : list pcall :=
  [PCall 0 ex_get 3 100; PCall 0 None 1 101; PCall 0 ex_get (-5) 102; PCall 1 None 7 103; PCall 2 None 50 104;
   PCollect 1 [(3%N, None, 9)] false 110;
   PCall 0 ex_get 4 120; PCall 1 None 15 121; PCall 1 None 99 122; PCall 2 None 60 123; PCall 2 None 55 124].
Definition ex_rest : list pcall := skipn 6 ex_calls.
#[local] Instance EqDec_bool0 : EqDec bool := Bool.bool_dec.
Definition ex_output r := output_after (fun _ => None) (fun _ => true) (fun _ _ => false) ex_scope ex_obj ex_scope_of [] ex_readers
  ex_calls (ex_calls ++ PCollect r [] false 200 :: [PCall 0 None 1 201]).
(** name, number of the kind and temporality, and the points, of every metric *)
Definition ex_see (m : pb_metric) : str * (Z * Z * list (nat * Z * list Z)) :=
  (pm_name m,
   match pm_data m with
   | PbSum ps t _ => (1, t, map (fun p => (length (pn_attrs p), pn_start p, match pn_value p with NInt z => [z] | _ => [] end)) ps)
   | PbGauge ps => (2, 0, map (fun p => (length (pn_attrs p), pn_start p, match pn_value p with NInt z => [z] | _ => [] end)) ps)
   | PbHistogram ps t => (3, t, map (fun p => (length (ph_attrs p), ph_start p, ph_count p :: ph_sum p :: ph_buckets p)) ps)
   | _ => (0, 0, [])
   end).
Definition ex_request r :=
  match ex_output r with
  | Some (CMetrics _ out) =>
      option_map (map (fun g => map (fun sg => (ps_name (pg_scope sg), map ex_see (pg_items sg))) (pr_scopes g)))
        (otlp_request (fun _ => None) ex_scope (fun _ => 0) Some (Res [] []) out)
  | _ => None
  end.
Example C89_case :
  (* the requests *)
  ex_request 0 = Some [[(lit "lib", [(lit "hits", (1, 2, [(1%nat, 100, [7]); (0%nat, 101, [1])]));
                                     (lit "size", (3, 2, [(0%nat, 103, [3; 121; 1; 1; 1])]))]);
                        (lit "app", [(lit "load", (2, 0, [(0%nat, 0, [55])]))])]]
  /\ ex_request 1 = Some [[(lit "lib", [(lit "hits", (1, 1, [(1%nat, 110, [4])])); (lit "size", (3, 1, [(0%nat, 110, [2; 114; 0; 1; 1])]))]);
                           (lit "app", [(lit "load", (2, 0, [(0%nat, 0, [55])]))])]]
  (* the hypotheses *)
  /\ (forall r, Forall (api_call (fun _ => None) (fun _ => true) ex_obj) (ex_calls ++ PCollect r [] false 200 :: [PCall 0 None 1 201]))
  /\ covers CUMULATIVE 0 ex_calls [] ex_calls /\ covers DELTA 1 ex_calls (firstn 6 ex_calls) ex_rest
  /\ amounts (fun _ => None) (fun _ => true) ex_obj 0 ex_get ex_calls [3; 4]
  /\ (forall s, scope_ok (Some (ex_scope s)))
  /\ (forall s s', python_equal_scopes (fun _ => None) (Some (ex_scope s)) (Some (ex_scope s')) -> s = s')
  /\ sorted [10; 20].
Proof.
  split; [vm_compute; reflexivity|]. split; [vm_compute; reflexivity|].
  assert (U : usable (fun _ => None) (fun _ => true) None None) by (split; [discriminate|intros k v _ [=]]).
  assert (U' : usable (fun _ => None) (fun _ => true) None ex_get).
  { split; [intros a [= <-]; repeat constructor; intros []|]. intros k v _ E. cbn in E. destruct (eq_dec k _); [injection E as <-; discriminate|discriminate]. }
  split; [intro r; cbn [app ex_calls]; repeat (apply Forall_cons || apply Forall_nil); cbn; auto; repeat constructor; auto; apply U|].
  split; [left; auto|].
  split.
  { right. split; [reflexivity|]. split; [reflexivity|]. split.
    - intros c n I (o & ->). cbn in I. repeat (destruct I as [I|I]; [discriminate|]). destruct I.
    - right. exists (firstn 5 ex_calls), (PCollect 1 [(3%N, None, 9)] false 110), 110. split; [reflexivity|]. eexists; reflexivity. }
  split.
  { assert (T : forall b n z h l, same_stream (fun _ => None) (fun _ => true) None ex_get b -> 0 <= z ->
       amounts (fun _ => None) (fun _ => true) ex_obj 0 ex_get h l -> amounts (fun _ => None) (fun _ => true) ex_obj 0 ex_get (PCall 0 b z n :: h) (z :: l)).
    { intros b n z h l S L A. apply am_take; [|exact A]. exists b, n. auto. }
    unfold ex_calls. apply T; [apply same_refl|discriminate|].
    apply am_skip. { intros z (b & n & [= <- _ _] & S & _). specialize (S (lit "verb") Logic.I). cbn in S. exact S. }
    apply am_skip. { intros z (b & n & [= _ <- _] & _ & C). cbn in C. now elim C. }
    do 3 (apply am_skip; [intros z (b & n & X & _); discriminate|]).
    apply T; [apply same_refl|discriminate|].
    do 4 (apply am_skip; [intros z (b & n & X & _); discriminate|]). constructor. }
  split; [intros []; vm_compute; repeat split; auto; constructor|].
  split; [intros [] [] (E & _); try reflexivity; discriminate|].
  intros [|[|x]] [|[|y]] [A B]; cbn in *; try lia.
Qed.
