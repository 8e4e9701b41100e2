(** C104, C105: what the OTLP request of a collection says about instruments seen through views, and about observable ones. *)
From Verif Require Import Proof_Streams Spec_Streams.
From Coq Require Import Lia.
Local Open Scope Z_scope.

(** C104, sums of what was added or recorded: the request has a metric with the name and description that the view gives (or the
    instrument's own), with one point for each set of attributes, as far as the view keeps them, and the total of exactly the
    amounts with these attributes, since the start or since the reader's last collection. *)
Theorem C104_sums : forall float_int obj_hash fnmatch (Scope : Type) (ES : EqDec Scope) (the_scope : Scope -> scope) obj scope_of
    (views : list (@view aggregation)) (readers : list (@reader aggregation)) infty to_float h r obs now h' rd i v g h0 part,
  seen_through fnmatch the_scope obj scope_of views i v -> asked obj rd i v g ->
  nth_error readers r = Some rd ->
  Forall (api_call float_int obj_hash obj) (h ++ PCollect r obs false now :: h') ->
  (forall s, scope_ok (Some (the_scope s))) ->
  (forall s s', python_equal_scopes float_int (Some (the_scope s)) (Some (the_scope s')) -> s = s') ->
  synchronous (in_kind (obj i)) = true -> gives_sum (in_kind (obj i)) g ->
  covers (rd_temporality rd (in_kind (obj i))) r h h0 part ->
  (exists m, In m (gets obj r i part)) ->
  exists out,
    output_after float_int obj_hash fnmatch the_scope obj scope_of views readers h (h ++ PCollect r obs false now :: h')
      = Some (CMetrics r out)
    /\ forall res req, otlp_request float_int the_scope infty to_float res out = Some req ->
       exists pts mono reps,
         metric_in the_scope obj scope_of res i v req (PbSum pts (temporality_code (rd_temporality rd (in_kind (obj i)))) mono)
         /\ (mono = true <-> in_kind (obj i) = ICounter \/ in_kind (obj i) = IObservableCounter)
         /\ each_attrs float_int obj_hash (v_keys v) (gets obj r i part) reps
         /\ Forall2 (fun a p => exists l s, with_attrs float_int obj_hash (v_keys v) a (gets obj r i part) l
              /\ interval_start float_int obj_hash obj (v_keys v) r i a h0 (gets obj r i part) s
              /\ number_is (v_keys v) now a s (total l) p) reps pts.
Proof. intros. eapply sums_in; eassumption. Qed.
Print Assumptions C104_sums.

(** Histograms: the count, sum, buckets (and minimum and maximum, if they are recorded) of exactly these amounts. *)
Theorem C104_histograms : forall float_int obj_hash fnmatch (Scope : Type) (ES : EqDec Scope) (the_scope : Scope -> scope) obj scope_of
    (views : list (@view aggregation)) (readers : list (@reader aggregation)) infty to_float h r obs now h' rd i v g h0 part bounds extremes,
  seen_through fnmatch the_scope obj scope_of views i v -> asked obj rd i v g ->
  nth_error readers r = Some rd ->
  Forall (api_call float_int obj_hash obj) (h ++ PCollect r obs false now :: h') ->
  (forall s, scope_ok (Some (the_scope s))) ->
  (forall s s', python_equal_scopes float_int (Some (the_scope s)) (Some (the_scope s')) -> s = s') ->
  synchronous (in_kind (obj i)) = true -> gives_histogram (obj i) g bounds extremes -> sorted bounds ->
  covers (rd_temporality rd (in_kind (obj i))) r h h0 part ->
  (exists m, In m (gets obj r i part)) ->
  exists out,
    output_after float_int obj_hash fnmatch the_scope obj scope_of views readers h (h ++ PCollect r obs false now :: h')
      = Some (CMetrics r out)
    /\ forall res req, otlp_request float_int the_scope infty to_float res out = Some req ->
       exists pts reps,
         metric_in the_scope obj scope_of res i v req (PbHistogram pts (temporality_code (rd_temporality rd (in_kind (obj i)))))
         /\ each_attrs float_int obj_hash (v_keys v) (gets obj r i part) reps
         /\ Forall2 (fun a p => exists l s, with_attrs float_int obj_hash (v_keys v) a (gets obj r i part) l
              /\ interval_start float_int obj_hash obj (v_keys v) r i a h0 (gets obj r i part) s
              /\ histogram_is (v_keys v) infty to_float bounds extremes now a s l p) reps pts.
Proof. intros. eapply histograms_in; eassumption. Qed.
Print Assumptions C104_histograms.

(** Last values, of instruments that are called and of observable ones: the last amount since the reader's last collection. *)
Theorem C104_gauges : forall float_int obj_hash fnmatch (Scope : Type) (ES : EqDec Scope) (the_scope : Scope -> scope) obj scope_of
    (views : list (@view aggregation)) (readers : list (@reader aggregation)) infty to_float h r obs now h' rd i v g h0 part,
  seen_through fnmatch the_scope obj scope_of views i v -> asked obj rd i v g ->
  nth_error readers r = Some rd ->
  Forall (api_call float_int obj_hash obj) (h ++ PCollect r obs false now :: h') ->
  (forall s, scope_ok (Some (the_scope s))) ->
  (forall s s', python_equal_scopes float_int (Some (the_scope s)) (Some (the_scope s')) -> s = s') ->
  gives_gauge (in_kind (obj i)) g -> since r h h0 part ->
  (exists m, In m (gets obj r i part ++ observed i obs now)) ->
  exists out,
    output_after float_int obj_hash fnmatch the_scope obj scope_of views readers h (h ++ PCollect r obs false now :: h')
      = Some (CMetrics r out)
    /\ forall res req, otlp_request float_int the_scope infty to_float res out = Some req ->
       exists pts reps,
         metric_in the_scope obj scope_of res i v req (PbGauge pts)
         /\ each_attrs float_int obj_hash (v_keys v) (gets obj r i part ++ observed i obs now) reps
         /\ Forall2 (fun a p => exists l z, with_attrs float_int obj_hash (v_keys v) a (gets obj r i part ++ observed i obs now) (l ++ [z])
              /\ number_is (v_keys v) now a 0 z p) reps pts.
Proof. intros. eapply gauges_in; eassumption. Qed.
Print Assumptions C104_gauges.

(** C105, observable counters and up-down counters, cumulative: one point for each set of attributes that was observed since
    the reader's last completed collection, with the total of what was observed. *)
Theorem C105_cumulative : forall float_int obj_hash fnmatch (Scope : Type) (ES : EqDec Scope) (the_scope : Scope -> scope) obj scope_of
    (views : list (@view aggregation)) (readers : list (@reader aggregation)) infty to_float h r obs now h' rd i v g h0 part,
  seen_through fnmatch the_scope obj scope_of views i v -> asked obj rd i v g ->
  nth_error readers r = Some rd ->
  Forall (api_call float_int obj_hash obj) (h ++ PCollect r obs false now :: h') ->
  (forall s, scope_ok (Some (the_scope s))) ->
  (forall s s', python_equal_scopes float_int (Some (the_scope s)) (Some (the_scope s')) -> s = s') ->
  synchronous (in_kind (obj i)) = false -> gives_sum (in_kind (obj i)) g -> rd_temporality rd (in_kind (obj i)) = CUMULATIVE ->
  since r h h0 part ->
  (exists m, In m (gets obj r i part ++ observed i obs now)) ->
  exists out,
    output_after float_int obj_hash fnmatch the_scope obj scope_of views readers h (h ++ PCollect r obs false now :: h')
      = Some (CMetrics r out)
    /\ forall res req, otlp_request float_int the_scope infty to_float res out = Some req ->
       exists pts mono reps,
         metric_in the_scope obj scope_of res i v req (PbSum pts 2 mono)
         /\ (mono = true <-> in_kind (obj i) = IObservableCounter)
         /\ each_attrs float_int obj_hash (v_keys v) (gets obj r i part ++ observed i obs now) reps
         /\ Forall2 (fun a p => exists l s, with_attrs float_int obj_hash (v_keys v) a (gets obj r i part ++ observed i obs now) l
              /\ first_at float_int obj_hash (v_keys v) a (gets obj r i h ++ observed i obs now) s
              /\ number_is (v_keys v) now a s (total l) p) reps pts.
Proof. intros. eapply observed_cumulative; eassumption. Qed.
Print Assumptions C105_cumulative.

(** Delta: the difference to what the reader was last told about these attributes, from that time on. *)
Theorem C105_delta : forall float_int obj_hash fnmatch (Scope : Type) (ES : EqDec Scope) (the_scope : Scope -> scope) obj scope_of
    (views : list (@view aggregation)) (readers : list (@reader aggregation)) infty to_float h r obs now h' rd i v g h0 part,
  seen_through fnmatch the_scope obj scope_of views i v -> asked obj rd i v g ->
  nth_error readers r = Some rd ->
  Forall (api_call float_int obj_hash obj) (h ++ PCollect r obs false now :: h') ->
  (forall s, scope_ok (Some (the_scope s))) ->
  (forall s s', python_equal_scopes float_int (Some (the_scope s)) (Some (the_scope s')) -> s = s') ->
  synchronous (in_kind (obj i)) = false -> gives_sum (in_kind (obj i)) g -> rd_temporality rd (in_kind (obj i)) = DELTA ->
  since r h h0 part ->
  (exists m, In m (gets obj r i part ++ observed i obs now)) ->
  exists out,
    output_after float_int obj_hash fnmatch the_scope obj scope_of views readers h (h ++ PCollect r obs false now :: h')
      = Some (CMetrics r out)
    /\ forall res req, otlp_request float_int the_scope infty to_float res out = Some req ->
       exists pts mono reps,
         metric_in the_scope obj scope_of res i v req (PbSum pts 1 mono)
         /\ (mono = true <-> in_kind (obj i) = IObservableCounter)
         /\ each_attrs float_int obj_hash (v_keys v) (gets obj r i part ++ observed i obs now) reps
         /\ Forall2 (fun a p => exists l told s, with_attrs float_int obj_hash (v_keys v) a (gets obj r i part ++ observed i obs now) l
              /\ last_told float_int obj_hash obj (v_keys v) r i a h0 told
              /\ match told with
                 | None => first_at float_int obj_hash (v_keys v) a (gets obj r i part ++ observed i obs now) s
                 | Some (_, n) => s = n
                 end
              /\ number_is (v_keys v) now a s (total l - match told with None => 0 | Some (x, _) => x end) p) reps pts.
Proof. intros. eapply observed_delta; eassumption. Qed.
Print Assumptions C105_delta.

(** If no collection of the reader was cut short since the last completed one, what counts is what was observed in this
    collection and nothing else. *)
Theorem C105_this_collection_partial : forall float_int obj_hash obj h r h0 part i,
  Forall (api_call float_int obj_hash obj) h -> since r h h0 part -> synchronous (in_kind (obj i)) = false ->
  (forall obs now, ~ In (PCollect r obs true now) part) ->
  gets obj r i part = [].
(* Missing: after a collection that timed out, see C105_timed_out_refuted. *)
Proof.
  intros float_int obj_hash obj h r h0 part i F (-> & N & _) AS T. apply Forall_app in F as [_ F]. unfold gets.
  destruct (flat_map (measured_in obj r i) part) as [|m ms] eqn:E; [reflexivity|]. exfalso.
  assert (I : In m (flat_map (measured_in obj r i) part)) by (rewrite E; now left). apply in_flat_map in I as (c & Ic & I).
  rewrite Forall_forall in F. specialize (F c Ic). destruct c as [j b z n|r' ob tmo n]; cbn [measured_in] in I.
  - destruct (N.eqb_spec j i) as [->|]; [|destruct I]. destruct F as [F _]. congruence.
  - destruct (Nat.eqb_spec r' r) as [->|]; [|destruct I]. destruct tmo; [exact (T ob n Ic)|]. apply (N _ n Ic). eexists; reflexivity.
Qed.
Print Assumptions C105_this_collection_partial.

(** The case: a histogram seen through a view that keeps one attribute, renames it and has its own buckets, and through another
    that makes it a sum; an observable counter and gauge; a cumulative and a delta reader. *)
Definition sx_scope (b : bool) : scope := Scope (if b then lit "lib" else lit "app") None [] [].
Definition sx_obj (n : N) : instr :=
  match n with
  | 0%N => Instr 0 IHistogram (lit "size") (lit "By") (lit "Sizes") (Some [1; 2; 3])
  | 1%N => Instr 1 IObservableCounter (lit "cpu") (lit "s") [] None
  | _ => Instr 2 IObservableGauge (lit "load") [] [] None
  end.
Definition sx_scope_of (n : N) : bool := N.ltb n 1.
Definition sx_readers : list (@reader aggregation) := [RD (fun _ => CUMULATIVE) (fun _ => Default); RD (fun _ => DELTA) (fun _ => Default)].
Definition sx_view1 : @view aggregation :=
  View None (Some (lit "size")) None None None None (Some (lit "bytes")) None (Some [lit "verb"]) (ExplicitBuckets (Some [10; 20]) false).
Definition sx_view2 : @view aggregation := View None (Some (lit "size")) None None None None (Some (lit "total")) (Some (lit "Sum")) (Some []) Sum.
Definition sx_a (v w : string) : option mattrs := Some [(lit "verb", PStr false (lit v)); (lit "user", PStr false (lit w))].
Definition sx_calls : list pcall :=
  [PCall 0 (sx_a "GET" "a") 5 100; PCall 0 (sx_a "GET" "b") 15 101; PCall 0 (sx_a "PUT" "a") 30 102; PCall 0 None (-1) 103;
   PCollect 0 [(1%N, None, 40); (2%N, None, 7)] false 110; PCollect 1 [(1%N, None, 41); (2%N, None, 8)] false 111;
   PCall 0 (sx_a "GET" "c") 25 120].
#[local] Instance EqDec_bool1 : EqDec bool := Bool.bool_dec.
Definition sx_obs : list observation := [(1%N, None, 50); (2%N, None, 9); (1%N, sx_a "x" "y", 1)].
Definition sx_output h r obs := output_after (fun _ => None) (fun _ => true) (fun a b => str_eqb a b) sx_scope sx_obj sx_scope_of [sx_view1; sx_view2] sx_readers
  h (h ++ [PCollect r obs false 200]).
(** name, number of the kind and temporality, and the points (number of attributes, start, numbers), of every metric *)
Definition sx_see (m : pb_metric) : str * (Z * Z * list (nat * Z * list Z)) :=
  (pm_name m,
   match pm_data m with
   | PbSum ps t _ => (1, t, map (fun p => (length (pn_attrs p), pn_start p, match pn_value p with NInt z => [z] | _ => [] end)) ps)
   | PbGauge ps => (2, 0, map (fun p => (length (pn_attrs p), pn_start p, match pn_value p with NInt z => [z] | _ => [] end)) ps)
   | PbHistogram ps t => (3, t, map (fun p => (length (ph_attrs p), ph_start p, ph_count p :: ph_sum p :: ph_buckets p)) ps)
   | _ => (0, 0, [])
   end).
Definition sx_request h r obs :=
  match sx_output h r obs with
  | Some (CMetrics _ out) =>
      option_map (map (fun g => map (fun sg => (ps_name (pg_scope sg), map sx_see (pg_items sg))) (pr_scopes g)))
        (otlp_request (fun _ => None) sx_scope (fun b => if b then 999 else -999) Some (Res [] []) out)
  | _ => None
  end.
Notation sx_applies := (applies (fun a b => str_eqb a b) (fun s => sco_name (sx_scope s)) (fun s => sco_version (sx_scope s)) (fun s => sco_schema (sx_scope s))
  sx_obj sx_scope_of wants_buckets).
Notation sx_through := (seen_through (fun a b => str_eqb a b) sx_scope sx_obj sx_scope_of [sx_view1; sx_view2]).
Example C104_case :
  sx_request sx_calls 0 sx_obs
    = Some [[(lit "lib", [(lit "bytes", (3, 2, [(1%nat, 100, [3; 45; 1; 1; 1]); (1%nat, 102, [1; 30; 0; 0; 1])])); (lit "total", (1, 2, [(0%nat, 100, [75])]))]);
             (lit "app", [(lit "cpu", (1, 2, [(0%nat, 110, [50]); (2%nat, 200, [1])])); (lit "load", (2, 0, [(0%nat, 0, [9])]))])]]
  /\ sx_request sx_calls 1 sx_obs
    = Some [[(lit "lib", [(lit "bytes", (3, 1, [(1%nat, 111, [1; 25; 0; 0; 1])])); (lit "total", (1, 1, [(0%nat, 111, [25])]))]);
             (lit "app", [(lit "cpu", (1, 1, [(0%nat, 111, [9]); (2%nat, 200, [1])])); (lit "load", (2, 0, [(0%nat, 0, [9])]))])]]
  /\ sx_through 0%N sx_view1 /\ sx_through 0%N sx_view2 /\ sx_through 1%N (DEFAULT_VIEW Default)
  /\ (forall r, Forall (api_call (fun _ => None) (fun _ => true) sx_obj) (sx_calls ++ PCollect r sx_obs false 200 :: []))
  /\ since 0 sx_calls (firstn 5 sx_calls) (skipn 5 sx_calls) /\ since 1 sx_calls (firstn 6 sx_calls) (skipn 6 sx_calls)
  /\ last_told (fun _ => None) (fun _ => true) sx_obj None 1 1 None (firstn 6 sx_calls) (Some (41, 111)).
Proof.
  split; [vm_compute; reflexivity|]. split; [vm_compute; reflexivity|].
  assert (AP : forall v, In v [sx_view1; sx_view2] -> sx_applies 0%N v).
  { intros v [<-|[<-|[]]]; split; [intros ? [=]|split; [intros ? [= <-]; vm_compute; reflexivity|] | intros ? [=]|split; [intros ? [= <-]; vm_compute; reflexivity|] ];
      repeat (split; [intros ? [=]|]); intros [X _]; discriminate. }
  split; [left; split; [now left|]; apply AP; now left|]. split; [left; split; [right; now left|]; apply AP; right; now left|].
  split.
  { right. split; [|repeat split]. intros v [<-|[<-|[]]] (_ & X & _); specialize (X _ eq_refl); vm_compute in X; discriminate. }
  split.
  { intro r. assert (U : forall a b, usable (fun _ => None) (fun _ => true) None (sx_a a b)).
    { intros a b. split.
      - intros d [= <-]. repeat constructor; cbn; intros X; repeat (destruct X as [X|X]; [discriminate|]); exact X.
      - intros k v _ E. cbn in E. destruct (eq_dec k _); [injection E as <-; discriminate|]. destruct (eq_dec k _); [injection E as <-; discriminate|discriminate]. }
    assert (U0 : usable (fun _ => None) (fun _ => true) None None) by (split; [discriminate|intros k v _ [=]]).
    cbn [app sx_calls]. repeat (apply Forall_cons || apply Forall_nil); cbn [api_call fst snd]; try (split; [reflexivity|]; auto; fail);
      repeat (apply Forall_cons || apply Forall_nil); cbn [fst snd]; split; try reflexivity; auto. }
  split.
  { split; [reflexivity|]. split.
    - intros c n I (o & ->). cbn in I. repeat (destruct I as [I|I]; [discriminate|]). destruct I.
    - right. exists (firstn 4 sx_calls), (PCollect 0 [(1%N, None, 40); (2%N, None, 7)] false 110), 110. split; [reflexivity|]. eexists; reflexivity. }
  split.
  { split; [reflexivity|]. split.
    - intros c n I (o & ->). cbn in I. repeat (destruct I as [I|I]; [discriminate|]). destruct I.
    - right. exists (firstn 5 sx_calls), (PCollect 1 [(1%N, None, 41); (2%N, None, 8)] false 111), 111. split; [reflexivity|]. eexists; reflexivity. }
  right. exists [], (firstn 5 sx_calls), [(1%N, None, 41); (2%N, None, 8)], 111, [], [41]. split; [reflexivity|]. split.
  { split; [reflexivity|]. split; [|now left]. intros c n I (o & ->). cbn in I. repeat (destruct I as [I|I]; [discriminate|]). destruct I. }
  split; [cbn; apply (wa_take _ _ _ _ (None, 41, 111)); [apply sames_refl|constructor]|]. split; [discriminate|]. split; [constructor|reflexivity].
Qed.

(** After a collection that timed out, an observable counter reports more than was ever observed: what it observed then is
    added to what it observes now. *)
Theorem C105_timed_out_refuted : exists h obs,
  Forall (api_call (fun _ => None) (fun _ => true) sx_obj) (h ++ [PCollect 0 obs false 200])
  /\ (forall r ob t n a z, In (PCollect r ob t n) (h ++ [PCollect 0 obs false 200]) -> In (1%N, a, z) ob -> z <= 50)
  /\ sx_request h 0 obs = Some [[(lit "app", [(lit "cpu", (1, 2, [(0%nat, 110, [90])]))])]].
Proof.
  exists [PCollect 0 [(1%N, None, 40)] true 110], [(1%N, None, 50)]. split.
  { assert (U0 : usable (fun _ => None) (fun _ => true) None None) by (split; [discriminate|intros k v _ [=]]). repeat constructor; try apply U0; discriminate. }
  split; [|vm_compute; reflexivity].
  intros r ob t n a z [[= <- <- <- <-]|[[= <- <- <- <-]|[]]] I; destruct I as [[= _ <-]|[]]; lia.
Qed.
Print Assumptions C105_timed_out_refuted.
