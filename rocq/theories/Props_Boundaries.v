(** C138: the bucket boundaries a histogram is reported with. *)
From Verif Require Import Proof_Boundaries Spec_Boundaries.
From Coq Require Import Lia.
Local Open Scope Z_scope.

(** C138: with any views and readers, the request of a collection has the metric of an instrument with the boundaries it should
    have: those of the aggregation that the view or the reader names, or else those that the histogram was created with, or else
    the standard ones; and with them the counts of exactly the amounts that were recorded.
    Missing: aggregation objects without boundaries that are used for histograms which should have different ones
    (C138_shared_refuted), or for other instruments (C138_counter_refuted). *)
Theorem C138_boundaries_partial : forall float_int obj_hash fnmatch (Scope : Type) (ES : EqDec Scope) (the_scope : Scope -> scope) obj scope_of
    (views : list (@view conf)) (readers : list (@reader conf)) settings infty to_float h r obs now h' rd i v g h0 part bounds extremes,
  b_seen_through fnmatch the_scope obj scope_of views i v -> b_asked obj rd i v g ->
  nth_error readers r = Some rd ->
  Forall (api_call float_int obj_hash obj) (h ++ PCollect r obs false now :: h') ->
  (forall s, scope_ok (Some (the_scope s))) ->
  (forall s s', python_equal_scopes float_int (Some (the_scope s)) (Some (the_scope s')) -> s = s') ->
  only_histograms fnmatch the_scope obj scope_of views readers settings (h ++ PCollect r obs false now :: h') ->
  agrees_with_others fnmatch the_scope obj scope_of views readers settings (h ++ PCollect r obs false now :: h') i ->
  synchronous (in_kind (obj i)) = true -> should_have settings (obj i) g bounds extremes -> sorted bounds ->
  covers (rd_temporality rd (in_kind (obj i))) r h h0 part ->
  (exists m, In m (gets obj r i part)) ->
  exists out,
    b_output float_int obj_hash fnmatch the_scope obj scope_of views readers settings h (h ++ PCollect r obs false now :: h')
      = Some (CMetrics r out)
    /\ forall res req, otlp_request float_int the_scope infty to_float res out = Some req ->
       exists pts reps,
         b_metric_in the_scope obj scope_of res i v req (PbHistogram pts (temporality_code (rd_temporality rd (in_kind (obj i)))))
         /\ each_attrs float_int obj_hash (v_keys v) (gets obj r i part) reps
         /\ Forall2 (fun a p => exists l s, Spec_Streams.with_attrs float_int obj_hash (v_keys v) a (gets obj r i part) l
              /\ interval_start float_int obj_hash obj (v_keys v) r i a h0 (gets obj r i part) s
              /\ histogram_is (v_keys v) infty to_float bounds extremes now a s l p) reps pts.
Proof. intros. eapply boundaries_in; eassumption. Qed.
Print Assumptions C138_boundaries_partial.

(** The case: three histograms and a counter; a view with boundaries of its own for one histogram and for the counter (one object), a
    reader that has one object without boundaries for all other histograms; both of those were created with the same boundaries. *)
Definition bx_scope (b : unit) : scope := Scope (lit "lib") None [] [].
Definition bx_obj (second : list Z) (n : N) : instr :=
  match n with
  | 0%N => Instr 0 IHistogram (lit "first") [] [] (Some [1; 2])
  | 1%N => Instr 1 IHistogram (lit "second") [] [] (Some second)
  | 2%N => Instr 2 IHistogram (lit "third") [] [] None
  | _ => Instr 3 ICounter (lit "counter") [] [] None
  end.
#[local] Instance EqDec_unit1 : EqDec unit. Proof. intros [] []. now left. Defined.
Definition bx_view (n : string) (object : nat) : @view conf := View None (Some (lit n)) None None None None None None None (CfBuckets object true).
Definition bx_views := [bx_view "third" 1; bx_view "counter" 1].
Definition bx_settings : heap := fun o => match o with 1%nat => Some [7] | _ => None end.
Definition bx_reader := otlp_default_reader (fun _ => CUMULATIVE) 0.
Definition bx_output second views h :=
  b_output (fun _ => None) (fun _ => true) (fun a b => str_eqb a b) bx_scope (bx_obj second) (fun _ => tt) views [bx_reader] bx_settings h (h ++ [PCollect 0 [] false 200]).
Notation bx_api second := (Forall (api_call (fun _ => None) (fun _ => true) (bx_obj second))).
(** The names of the metrics in the request, and the boundaries and counts of their points *)
Definition bx_request second views h :=
  match bx_output second views h with
  | Some (CMetrics _ out) =>
      option_map (map (fun g => map (fun sg => map (fun m =>
          (pm_name m, match pm_data m with PbHistogram ps _ => map (fun p => (ph_bounds p, ph_buckets p)) ps | _ => [] end)) (pg_items sg)) (pr_scopes g)))
        (otlp_request (fun _ => None) bx_scope (fun b => if b then 999 else -999) Some (Res [] []) out)
  | _ => None
  end.
Definition bx_calls := [PCall 1 None 5 100; PCall 0 None 1 101; PCall 2 None 8 102; PCall 3 None 3 103].
Lemma bx_usable : usable (fun _ => None) (fun _ => true) None None.
Proof. split; [discriminate|intros k v _ [=]]. Qed.
Lemma bx_views_of second i v : b_seen_through (fun a b => str_eqb a b) bx_scope (bx_obj second) (fun _ => tt) bx_views i v ->
  (in_kind (bx_obj second i) = IHistogram /\ (i = 0 \/ i = 1)%N /\ v_agg v = CfDefault) \/ (i <> 0 /\ i <> 1)%N.
Proof.
  intro S. destruct (N.eq_dec i 0) as [->|N0]; [|destruct (N.eq_dec i 1) as [->|N1]; [|right; auto]]; left.
  - split; [reflexivity|]. split; [now left|]. destruct S as [[[<-|[<-|[]]] A]|(_ & _ & _ & _ & A)]; [| |exact A];
      destruct A as (_ & X & _); specialize (X _ eq_refl); vm_compute in X; discriminate.
  - split; [reflexivity|]. split; [now right|]. destruct S as [[[<-|[<-|[]]] A]|(_ & _ & _ & _ & A)]; [| |exact A];
      destruct A as (_ & X & _); specialize (X _ eq_refl); vm_compute in X; discriminate.
Qed.
Example C138_case :
  bx_request [1; 2] bx_views bx_calls
    = Some [[[(lit "second", [([1; 2], [0; 0; 1])]); (lit "first", [([1; 2], [1; 0; 0])]); (lit "third", [([7], [0; 1])]); (lit "counter", [([7], [1; 0])])]]]
  /\ bx_api [1; 2] (bx_calls ++ [PCollect 0 [] false 200])
  /\ b_seen_through (fun a b => str_eqb a b) bx_scope (bx_obj [1; 2]) (fun _ => tt) bx_views 1%N (DEFAULT_VIEW CfDefault)
  /\ b_asked (bx_obj [1; 2]) bx_reader 1%N (DEFAULT_VIEW CfDefault) (CfBuckets 0 true)
  /\ should_have bx_settings (bx_obj [1; 2] 1%N) (CfBuckets 0 true) [1; 2] true
  /\ (forall h, only_histograms (fun a b => str_eqb a b) bx_scope (bx_obj [1; 2]) (fun _ => tt) bx_views [bx_reader] bx_settings h)
  /\ (forall h i, agrees_with_others (fun a b => str_eqb a b) bx_scope (bx_obj [1; 2]) (fun _ => tt) bx_views [bx_reader] bx_settings h i).
Proof.
  split; [vm_compute; reflexivity|]. split.
  { cbn [app bx_calls]. repeat (apply Forall_cons || apply Forall_nil); cbn [api_call]; split; try reflexivity; apply bx_usable. }
  split.
  { right. split; [|repeat split]. intros v [<-|[<-|[]]] (_ & X & _); specialize (X _ eq_refl); vm_compute in X; discriminate. }
  split; [now right|]. split.
  { left. exists 0%nat. split; [reflexivity|]. right. split; [reflexivity|]. split; [reflexivity|]. left. split; [reflexivity|discriminate]. }
  assert (R : forall h i o, relies_on (fun a b => str_eqb a b) bx_scope (bx_obj [1; 2]) (fun _ => tt) bx_views [bx_reader] h i o -> bx_settings o = None ->
    in_kind (bx_obj [1; 2] i) = IHistogram /\ in_adv (bx_obj [1; 2] i) = Some [1; 2]).
  { intros h i o (_ & rd & v & r & [<-|[]] & S & A) E. destruct (bx_views_of _ _ _ S) as [(K & [->| ->] & _)|[N0 N1]]; [split; reflexivity|split; reflexivity|]. exfalso.
    assert (X : o = 1%nat).
    { destruct S as [[[<-|[<-|[]]] _]|(N & _ & _ & _ & D)].
      - destruct A as [[_ [= -> _]]|[[=] _]]. reflexivity.
      - destruct A as [[_ [= -> _]]|[[=] _]]. reflexivity.
      - exfalso. destruct (N.eq_dec i 2) as [->|N2].
        + apply (N (bx_view "third" 1)); [now left|]. split; [intros ? [=]|]. split; [intros ? [= <-]; vm_compute; reflexivity|].
          repeat (split; [intros ? [=]|]). intros [X _]; discriminate.
        + apply (N (bx_view "counter" 1)); [right; now left|]. split; [intros ? [=]|].
          assert (Eo : bx_obj [1; 2] i = Instr 3 ICounter (lit "counter") [] [] None).
          { destruct i as [|[[p|p|]|[p|p|]|]]; try reflexivity; contradiction. }
          rewrite Eo. split; [intros ? [= <-]; vm_compute; reflexivity|]. repeat (split; [intros ? [=]|]). intros [X _]; discriminate. }
    subst o. discriminate. }
  split.
  { intros h i o Re E. now destruct (R h i o Re E). }
  intros h i o j b b' Ri Rj [E|(E & _ & X)] [E'|(E' & _ & Y)]; try congruence.
  destruct (R h i o Ri E) as [_ Ai]. destruct (R h j o Rj E) as [_ Aj]. rewrite Ai in X. rewrite Aj in Y.
  destruct X as [[[= <-] _]|[[[=]|[=]] _]]. destruct Y as [[[= <-] _]|[[[=]|[=]] _]]. reflexivity.
Qed.

(** With the default reader of an OTLP exporter and no views, two histograms that were created with boundaries: the one that is used
    second is reported with the boundaries of the other, whichever that is. *)
Theorem C138_shared_refuted : exists second h1 h2,
  bx_api second (h1 ++ [PCollect 0 [] false 200]) /\ bx_api second (h2 ++ [PCollect 0 [] false 200])
  /\ should_have bx_settings (bx_obj second 0%N) (rd_aggregation bx_reader IHistogram) [1; 2] true
  /\ should_have bx_settings (bx_obj second 1%N) (rd_aggregation bx_reader IHistogram) [10; 20; 30] true
  /\ bx_request second [] h1 = Some [[[(lit "first", [([1; 2], [0; 0; 1])]); (lit "second", [([1; 2], [0; 0; 1])])]]]
  /\ bx_request second [] h2 = Some [[[(lit "second", [([10; 20; 30], [0; 1; 0; 0])]); (lit "first", [([10; 20; 30], [1; 0; 0; 0])])]]].
Proof.
  exists [10; 20; 30], [PCall 0 None 5 100; PCall 1 None 15 101], [PCall 1 None 15 100; PCall 0 None 5 101].
  split; [cbn [app]; repeat (apply Forall_cons || apply Forall_nil); cbn [api_call]; split; try reflexivity; apply bx_usable|].
  split; [cbn [app]; repeat (apply Forall_cons || apply Forall_nil); cbn [api_call]; split; try reflexivity; apply bx_usable|].
  split; [left; exists 0%nat; split; [reflexivity|]; right; split; [reflexivity|]; split; [reflexivity|]; left; split; [reflexivity|discriminate]|].
  split; [left; exists 0%nat; split; [reflexivity|]; right; split; [reflexivity|]; split; [reflexivity|]; left; split; [reflexivity|discriminate]|].
  split; vm_compute; reflexivity.
Qed.
Print Assumptions C138_shared_refuted.

(** A view that asks for buckets without saying which makes every [add] of a counter raise, and the counter is never reported. *)
Theorem C138_counter_refuted : forall n, let h := repeat (PCall 3 None 5 100) n in let views := [bx_view "counter" 0] in
  bx_api [1; 2] (h ++ [PCollect 0 [] false 200])
  /\ snd (b_run (fun _ => None) (fun _ => true) (fun a b => str_eqb a b) bx_scope (bx_obj [1; 2]) (fun _ => tt) views [bx_reader] bx_settings h)
     = repeat CRaised n
  /\ bx_output [1; 2] views h = Some (CMetrics 0 []).
Proof.
  intros n h views. split.
  { apply Forall_app. split; [|repeat (apply Forall_cons || apply Forall_nil); cbn; try apply Forall_nil]. apply Forall_forall. intros c I. apply repeat_spec in I as ->.
    split; [reflexivity|apply bx_usable]. }
  assert (F : forall m outs tl, fold_left (fun s o => let (s', out) := b_step (fun _ => None) (fun _ => true) (fun a b => str_eqb a b) bx_scope (bx_obj [1; 2]) (fun _ => tt) views
      [bx_reader] (fst s) o in (s', snd s ++ [out])) (flat_map (pcall_ops (bx_obj [1; 2])) (repeat (PCall 3 None 5 100) m ++ tl)) ((bx_settings, consumer_init [bx_reader]), outs)
    = fold_left (fun s o => let (s', out) := b_step (fun _ => None) (fun _ => true) (fun a b => str_eqb a b) bx_scope (bx_obj [1; 2]) (fun _ => tt) views
      [bx_reader] (fst s) o in (s', snd s ++ [out])) (flat_map (pcall_ops (bx_obj [1; 2])) tl) ((bx_settings, consumer_init [bx_reader]), outs ++ repeat CRaised m)).
  { induction m as [|m IH]; intros outs tl; [cbn [repeat app]; now rewrite app_nil_r|]. cbn [repeat app flat_map pcall_ops]. cbn [fold_left offered in_kind bx_obj app fst snd].
    etransitivity; [exact (IH (outs ++ [CRaised]) tl)|]. now rewrite <- app_assoc. }
  split.
  - unfold b_run, h. pose proof (F n [] []) as E. rewrite app_nil_r in E. rewrite E. reflexivity.
  - unfold bx_output, b_output, b_run, h. rewrite (F n [] [PCollect 0 [] false 200]). cbn [app flat_map pcall_ops fold_left fst snd].
    assert (L : length (flat_map (pcall_ops (bx_obj [1; 2])) (repeat (PCall 3 None 5 100) n)) = n) by (clear; induction n; cbn [repeat flat_map pcall_ops]; cbn; auto).
    rewrite L. cbn [b_step]. match goal with |- nth_error (snd (let (_, _) := ?x in _)) _ = _ => let y := eval vm_compute in (snd x) in assert (Ex : snd x = y) by (vm_compute; reflexivity); destruct x as [s out] end.
    cbn [snd] in *. subst out. rewrite nth_error_app2, repeat_length, Nat.sub_diag by (rewrite repeat_length; lia). reflexivity.
Qed.
Print Assumptions C138_counter_refuted.
