(** Proofs about the metric aggregations. *)
From Verif Require Export Spec_Metrics.
Require Import Lia Arith.
Local Open Scope Z_scope.

(** ** Histories and windows *)
Lemma measured_app h1 h2 : measured (h1 ++ h2) = measured h1 ++ measured h2.
Proof. apply flat_map_app. Qed.
Lemma collections_app h1 h2 : collections (h1 ++ h2) = collections h1 ++ collections h2.
Proof. apply flat_map_app. Qed.
Lemma measured_map l : measured (map Measure l) = l.
Proof. induction l as [|x l IH]; [reflexivity|]. unfold measured in *. cbn. now rewrite IH. Qed.
Lemma collections_map l : collections (map Measure l) = [].
Proof. induction l as [|x l IH]; [reflexivity|]. exact IH. Qed.
Lemma measured_window b l t : measured (b ++ map Measure l ++ [Collect t]) = measured b ++ l.
Proof. rewrite !measured_app, measured_map. cbn. now rewrite app_nil_r. Qed.
Lemma collections_window b l t : collections (b ++ map Measure l ++ [Collect t]) = collections b ++ [t].
Proof. rewrite !collections_app, collections_map. reflexivity. Qed.

Lemma total_app l m : total (l ++ m) = total l + total m.
Proof. unfold total. induction l as [|x l IH]; cbn; lia. Qed.
Lemma zsum_from l : forall a, fold_left Z.add l a = a + total l.
Proof. induction l as [|x l IH]; intros a; cbn; [lia|rewrite IH; unfold total; cbn; lia]. Qed.
Lemma zsum_total l : zsum l = total l.
Proof. unfold zsum. rewrite zsum_from. lia. Qed.

(** [windows_from] in closed form: the state (before, since) is a history. *)
Lemma windows_app : forall h1 h2 b s,
  windows_from b s (h1 ++ h2)
  = windows_from b s h1
    ++ windows_from (fst (fold_left (fun bs o => match o with
                                     | Measure v => (fst bs, snd bs ++ [v])
                                     | Collect t => (fst bs ++ map Measure (snd bs) ++ [Collect t], [])
                                     end) h1 (b, s)))
                    (snd (fold_left (fun bs o => match o with
                                     | Measure v => (fst bs, snd bs ++ [v])
                                     | Collect t => (fst bs ++ map Measure (snd bs) ++ [Collect t], [])
                                     end) h1 (b, s))) h2.
Proof.
  induction h1 as [|[v|t] h1 IH]; intros h2 b s; cbn [app windows_from fold_left fst snd].
  - reflexivity.
  - apply IH.
  - rewrite IH. reflexivity.
Qed.
Lemma windows_measures l : forall b s, windows_from b s (map Measure l) = [].
Proof. induction l as [|v l IH]; intros b s; cbn; [reflexivity|apply IH]. Qed.

(** ** The generic induction *)
Section Run.
Context {A D : Type} (agg1 : A -> Z -> A) (col1 : A -> Z -> A * option D).
Notation run1 := (run_alone agg1 col1).
Lemma run1_out h : forall a out,
  fold_left (fun s o => match o with
                        | Measure v => (agg1 (fst s) v, snd s)
                        | Collect now => let (a', p) := col1 (fst s) now in (a', snd s ++ [p])
                        end) h (a, out)
  = (fst (run1 a h), out ++ snd (run1 a h)).
Proof.
  induction h as [|[v|t] h IH]; intros a out; cbn [fold_left fst snd].
  - unfold run_alone. cbn. now rewrite app_nil_r.
  - unfold run_alone. cbn [fold_left fst snd]. rewrite (IH _ out), (IH _ []). reflexivity.
  - unfold run_alone. cbn [fold_left fst snd]. destruct (col1 a t) as [a' p].
    rewrite (IH _ (out ++ [p])), (IH _ ([] ++ [p])). cbn [fst snd]. now rewrite <- app_assoc.
Qed.
Variable Inv : list mop -> list Z -> A -> Prop.
Variable R : window -> option D -> Prop.
Hypothesis HM : forall b s a v, Inv b s a -> Inv b (s ++ [v]) (agg1 a v).
Hypothesis HC : forall b s a t, Inv b s a ->
  Inv (b ++ map Measure s ++ [Collect t]) [] (fst (col1 a t)) /\ R (W b s t) (snd (col1 a t)).
Lemma run1_windows h : forall b s a, Inv b s a -> Forall2 R (windows_from b s h) (snd (run1 a h)).
Proof.
  induction h as [|[v|t] h IH]; intros b s a I.
  - constructor.
  - unfold run_alone. cbn [fold_left windows_from fst snd]. rewrite run1_out. cbn [app snd]. apply IH, HM, I.
  - unfold run_alone. cbn [fold_left windows_from fst snd].
    destruct (HC b s a t I) as [I' Hr]. destruct (col1 a t) as [a' p]. cbn [fst snd] in *.
    rewrite run1_out. cbn [app snd]. constructor; [exact Hr|]. now apply IH.
Qed.
End Run.

Lemma Forall2_map {X Y} (f : X -> Y) l m : Forall2 (fun x y => y = f x) l m -> m = map f l.
Proof. induction 1; cbn; congruence. Qed.
Lemma map_Forall2 {X Y} (f : X -> Y) (P : X -> Y -> Prop) l : (forall x, P x (f x)) -> Forall2 P l (map f l).
Proof. intros H. induction l; cbn; constructor; auto. Qed.

Lemma agg_run_eq t a h :
  agg_run t a h = run_alone aggregate (fun a now => collect a t now) a h.
Proof. reflexivity. Qed.

(** ** C38 / C39: sums *)
Definition delta_sync (attrs : mattrs) (start : Z) (w : window) : option point :=
  match w_since w with
  | [] => None
  | _ => Some (NumberPoint (NP attrs (Some (previous_time start w)) (w_now w) (total (w_since w))))
  end.
Definition value_of (l : list Z) : option Z := match l with [] => None | _ => Some (total l) end.
Lemma value_of_snoc l v : value_of (l ++ [v]) = Some (match value_of l with None => 0 | Some x => x end + v).
Proof.
  destruct l as [|x l]; [cbn; f_equal; lia|].
  unfold value_of at 1. destruct ((x :: l) ++ [v]) as [|y m] eqn:E; [discriminate|].
  rewrite <- E. rewrite total_app. cbn [value_of total fold_right]. f_equal. lia.
Qed.
Lemma last_snoc (l : list Z) x d : last (l ++ [x]) d = x.
Proof. induction l as [|y [|z l] IH]; cbn in *; auto. Qed.

Lemma sum_delta attrs mono start h :
  snd (agg_run DELTA (AgSum (sum_new attrs mono DELTA start)) h) = map (delta_sync attrs start) (windows h).
Proof.
  rewrite agg_run_eq. apply Forall2_map.
  apply (run1_windows _ _ (fun b s a => exists prev,
    a = AgSum (SumA attrs mono DELTA start (value_of s) (last (collections b) start) prev))).
  - intros b s a v [prev ->]. exists prev. cbn [aggregate sum_aggregate sa_value sa_attrs sa_mono sa_instr sa_start sa_prev_start sa_prev].
    unfold sum_aggregate; cbn. now rewrite value_of_snoc.
  - intros b s a t [prev ->]. cbn [collect sum_collect]. split.
    + exists prev. unfold sum_collect. cbn. rewrite collections_window, last_snoc. reflexivity.
    + unfold sum_collect, delta_sync. cbn. destruct s; reflexivity.
  - exists 0. reflexivity.
Qed.

Lemma sum_cumulative attrs mono start h :
  snd (agg_run CUMULATIVE (AgSum (sum_new attrs mono DELTA start)) h)
  = map (fun w => Some (NumberPoint (NP attrs (Some start) (w_now w) (total (so_far w))))) (windows h).
Proof.
  rewrite agg_run_eq. apply Forall2_map.
  apply (run1_windows _ _ (fun b s a =>
    a = AgSum (SumA attrs mono DELTA start (value_of s) start (total (measured b))))).
  - intros b s a v ->. cbn. unfold sum_aggregate; cbn. now rewrite value_of_snoc.
  - intros b s a t ->. unfold collect, sum_collect. cbn.
    assert (E : match value_of s with Some v => v | None => 0 end = total s) by (destruct s; reflexivity).
    unfold so_far. cbn [w_before w_since]. rewrite measured_window, !total_app, E.
    rewrite (Z.add_comm (total s)). split; reflexivity.
  - reflexivity.
Qed.

Lemma since_last_app h1 h2 : forall s, since_last s (h1 ++ h2) = since_last (since_last s h1) h2.
Proof. induction h1 as [|[v|t] h1 IH]; intros s; cbn; auto. Qed.

Lemma windows_total h : forall b s,
  total (flat_map w_since (windows_from b s h)) + total (since_last s h) = total s + total (measured h).
Proof.
  induction h as [|[v|t] h IH]; intros b s; cbn [windows_from since_last flat_map measured].
  - cbn. lia.
  - rewrite IH, total_app. unfold measured, total. cbn. lia.
  - rewrite total_app. cbn [w_since app].
    specialize (IH (b ++ map Measure s ++ [Collect t]) []). unfold measured, total in *. cbn in *. lia.
Qed.

Lemma sum_conservation attrs mono start h :
  total (numbers (snd (agg_run DELTA (AgSum (sum_new attrs mono DELTA start)) h))) + total (since_last [] h)
  = total (measured h).
Proof.
  rewrite sum_delta. pose proof (windows_total h [] []) as E. change (total [] + total (measured h)) with (total (measured h)) in E.
  rewrite <- E. f_equal. unfold windows. generalize (windows_from [] [] h). intros ws.
  induction ws as [|w ws IH]; [reflexivity|]. cbn [map numbers flat_map]. fold (numbers (map (delta_sync attrs start) ws)).
  rewrite !total_app, IH. f_equal. unfold delta_sync. destruct (w_since w); [reflexivity|]. cbn. lia.
Qed.

Lemma windows_from_prev h : forall b s i w w' start,
  nth_error (windows_from b s h) i = Some w -> nth_error (windows_from b s h) (S i) = Some w' ->
  previous_time start w' = w_now w.
Proof.
  induction h as [|[v|t] h IH]; intros b s i w w' start H H'.
  - destruct i; discriminate.
  - eapply IH; eassumption.
  - cbn [windows_from nth_error] in *. destruct i as [|i].
    + injection H as <-. clear IH.
      assert (G : forall h s', nth_error (windows_from (b ++ map Measure s ++ [Collect t]) s' h) 0 = Some w' ->
                previous_time start w' = t).
      { clear. induction h as [|[v|t'] h IH]; intros s' H; cbn in H.
        - discriminate.
        - eapply IH; eassumption.
        - injection H as <-. unfold previous_time. cbn [w_before]. now rewrite collections_window, last_snoc. }
      exact (G h [] H').
    + cbn [nth_error] in H. eapply IH; eassumption.
Qed.
Lemma windows_first h : forall s w start,
  nth_error (windows_from [] s h) 0 = Some w -> previous_time start w = start.
Proof.
  induction h as [|[v|t] h IH]; intros s w start H; cbn in H.
  - discriminate.
  - eapply IH; eassumption.
  - injection H as <-. reflexivity.
Qed.
(** Windows contain the history: their boundaries are the collections. *)
Lemma windows_times h : forall b s, map w_now (windows_from b s h) = collections h.
Proof.
  induction h as [|[v|t] h IH]; intros b s; cbn; auto. now rewrite IH.
Qed.

(** Asynchronous sums *)
Definition report (w : option window) : Z := match w with None => 0 | Some w => total (w_since w) end.
Definition report_time (start : Z) (w : option window) : Z := match w with None => start | Some w => w_now w end.

Lemma last_nonempty_app l m :
  last_nonempty (l ++ m) = match last_nonempty m with Some w => Some w | None => last_nonempty l end.
Proof.
  induction l as [|w l IH]; cbn; [destruct (last_nonempty m); reflexivity|].
  rewrite IH. destruct (last_nonempty m); reflexivity.
Qed.
(** A well-formed (before, since) pair replays to itself. *)
Definition replay (h : list mop) : list mop * list Z :=
  fold_left (fun bs o => match o with
                         | Measure v => (fst bs, snd bs ++ [v])
                         | Collect t => (fst bs ++ map Measure (snd bs) ++ [Collect t], [])
                         end) h ([], []).
Lemma replay_measures l : forall b s,
  fold_left (fun bs o => match o with
                         | Measure v => (fst bs, snd bs ++ [v])
                         | Collect t => (fst bs ++ map Measure (snd bs) ++ [Collect t], [])
                         end) (map Measure l) (b, s) = (b, s ++ l).
Proof.
  induction l as [|v l IH]; intros b s; cbn [map fold_left fst snd]; [now rewrite app_nil_r|].
  rewrite IH, <- app_assoc. reflexivity.
Qed.
Lemma windows_window b s t : replay b = (b, []) ->
  windows (b ++ map Measure s ++ [Collect t]) = windows b ++ [W b s t]
  /\ replay (b ++ map Measure s ++ [Collect t]) = (b ++ map Measure s ++ [Collect t], []).
Proof.
  intros E. split.
  - unfold windows. rewrite windows_app. fold (replay b). rewrite E. cbn [fst snd]. f_equal.
    rewrite windows_app, windows_measures, replay_measures. reflexivity.
  - unfold replay in *. rewrite fold_left_app, E, fold_left_app, replay_measures. reflexivity.
Qed.

Definition delta_async (attrs : mattrs) (start : Z) (w : window) : option point :=
  match w_since w with
  | [] => None
  | _ => Some (NumberPoint (NP attrs (Some (report_time start (last_report w))) (w_now w)
                              (total (w_since w) - report (last_report w))))
  end.
Definition cumulative_async (attrs : mattrs) (start : Z) (w : window) : option point :=
  match w_since w with
  | [] => None
  | _ => Some (NumberPoint (NP attrs (Some start) (w_now w) (total (w_since w))))
  end.
Lemma async_cumulative attrs mono start h :
  snd (agg_run CUMULATIVE (AgSum (sum_new attrs mono CUMULATIVE start)) h)
  = map (cumulative_async attrs start) (windows h).
Proof.
  rewrite agg_run_eq. apply Forall2_map.
  apply (run1_windows _ _ (fun b s a =>
    a = AgSum (SumA attrs mono CUMULATIVE start (value_of s) start 0))).
  - intros b s a v ->. cbn. unfold sum_aggregate; cbn. now rewrite value_of_snoc.
  - intros b s a t ->. unfold collect, sum_collect, cumulative_async. cbn. destruct s; split; reflexivity.
  - reflexivity.
Qed.
Lemma async_delta attrs mono start h :
  snd (agg_run DELTA (AgSum (sum_new attrs mono CUMULATIVE start)) h)
  = map (delta_async attrs start) (windows h).
Proof.
  rewrite agg_run_eq. apply Forall2_map.
  apply (run1_windows _ _ (fun b s a => replay b = (b, []) /\
    a = AgSum (SumA attrs mono CUMULATIVE start (value_of s)
                 (report_time start (last_nonempty (windows b))) (report (last_nonempty (windows b)))))).
  - intros b s a v [E ->]. split; [exact E|]. cbn. unfold sum_aggregate; cbn. now rewrite value_of_snoc.
  - intros b s a t [E ->]. destruct (windows_window b s t E) as [Ew Er]. split; [split; [exact Er|]|].
    + rewrite Ew, last_nonempty_app. unfold collect, sum_collect. destruct s; reflexivity.
    + unfold collect, sum_collect, delta_async, last_report. destruct s; reflexivity.
  - split; reflexivity.
Qed.
Lemma telescope ws : forall before0,
  (forall i w, nth_error ws i = Some w -> last_report w = match last_nonempty (firstn i ws) with
                                                        | Some w' => Some w' | None => before0 end) ->
  forall attrs start,
  report before0 + total (numbers (map (delta_async attrs start) ws))
  = report (match last_nonempty ws with Some w => Some w | None => before0 end).
Proof.
  induction ws as [|w ws IH]; intros b0 H attrs start.
  - cbn. lia.
  - cbn [map numbers flat_map]. fold (numbers (map (delta_async attrs start) ws)).
    pose proof (H 0%nat w eq_refl) as H0. cbn [firstn last_nonempty] in H0.
    cbn [last_nonempty]. rewrite total_app.
    destruct (w_since w) as [|x l] eqn:Ew.
    + unfold delta_async at 1. rewrite Ew. change (total []) with 0. rewrite Z.add_0_l.
      assert (Hi : report b0 + total (numbers (map (delta_async attrs start) ws))
                   = report (match last_nonempty ws with Some w' => Some w' | None => b0 end)).
      { apply (IH b0). intros i w0 Hi. rewrite (H (S i) w0 Hi). cbn [firstn last_nonempty]. rewrite Ew.
        destruct (last_nonempty (firstn i ws)); reflexivity. }
      rewrite Hi. destruct (last_nonempty ws); reflexivity.
    + unfold delta_async at 1. rewrite Ew.
      assert (Hi : report (Some w) + total (numbers (map (delta_async attrs start) ws))
                   = report (match last_nonempty ws with Some w' => Some w' | None => Some w end)).
      { apply (IH (Some w)). intros i w0 Hi. rewrite (H (S i) w0 Hi). cbn [firstn last_nonempty]. rewrite Ew.
        destruct (last_nonempty (firstn i ws)); reflexivity. }
      rewrite H0. cbn [report] in Hi. rewrite Ew in Hi. cbn [total fold_right np_value] in *.
      destruct (last_nonempty ws); lia.
Qed.

Lemma windows_prefix h : forall b s i w, replay b = (b, []) ->
  nth_error (windows_from b s h) i = Some w ->
  windows (w_before w) = windows b ++ firstn i (windows_from b s h).
Proof.
  induction h as [|[v|t] h IH]; intros b s i w E H.
  - destruct i; discriminate.
  - eapply IH; eassumption.
  - cbn [windows_from] in *. destruct i as [|i].
    + injection H as <-. cbn. now rewrite app_nil_r.
    + destruct (windows_window b s t E) as [Ew Er]. cbn [nth_error firstn] in *.
      rewrite (IH _ _ _ _ Er H), Ew, <- app_assoc. reflexivity.
Qed.
Lemma async_telescope attrs mono start h :
  total (numbers (snd (agg_run DELTA (AgSum (sum_new attrs mono CUMULATIVE start)) h)))
  = report (last_nonempty (windows h)).
Proof.
  rewrite async_delta. pose proof (telescope (windows h) None) as T.
  assert (E : forall i w, nth_error (windows h) i = Some w ->
     last_report w = match last_nonempty (firstn i (windows h)) with Some w' => Some w' | None => None end).
  { intros i w H. unfold last_report. unfold windows in H.
    rewrite (windows_prefix h [] [] i w eq_refl H). cbn [windows windows_from app].
    fold (windows h). destruct (last_nonempty (firstn i (windows h))); reflexivity. }
  specialize (T E attrs start). cbn [report] in T. rewrite Z.add_0_l in T. rewrite T.
  destruct (last_nonempty (windows h)); reflexivity.
Qed.

(** ** C40 *)
Lemma last_value attrs t h :
  snd (agg_run t (AgLast (last_new attrs)) h)
  = map (fun w => match w_since w with
                  | [] => None
                  | x :: l => Some (NumberPoint (NP attrs None (w_now w) (last (x :: l) 0)))
                  end) (windows h).
Proof.
  rewrite agg_run_eq. apply Forall2_map.
  apply (run1_windows _ _ (fun b s a =>
    a = AgLast (LastA attrs (match s with [] => None | x :: l => Some (last (x :: l) 0) end)))).
  - intros b s a v ->. cbn [aggregate last_aggregate la_attrs]. unfold last_aggregate. cbn [la_attrs].
    destruct (s ++ [v]) as [|x l] eqn:E; [destruct s; discriminate|].
    rewrite <- E, last_snoc. reflexivity.
  - intros b s a now ->. unfold collect, last_collect. destruct s; split; reflexivity.
  - reflexivity.
Qed.

(** ** C41: explicit bucket histogram *)

Lemma bisect_loop_spec a x : sorted a -> forall fuel lo hi,
  (hi - lo <= fuel)%nat -> (lo <= hi <= length a)%nat ->
  (forall i, (i < lo)%nat -> nth i a 0 < x) ->
  (forall i, (hi <= i < length a)%nat -> x <= nth i a 0) ->
  let r := bisect_loop fuel a x lo hi in
  (lo <= r <= hi)%nat /\ (forall i, (i < r)%nat -> nth i a 0 < x)
  /\ (forall i, (r <= i < length a)%nat -> x <= nth i a 0).
Proof.
  intros S. induction fuel as [|f IH]; intros lo hi Hf Hb Hlo Hhi.
  - cbn. assert (lo = hi) by lia. subst hi. split; [lia|]. split; assumption.
  - cbn [bisect_loop]. destruct (Nat.ltb lo hi) eqn:E.
    + apply Nat.ltb_lt in E. cbv zeta. set (mid := Nat.div (lo + hi) 2).
      assert (Hm : (lo <= mid < hi)%nat).
      { subst mid. pose proof (Nat.div_mod (lo + hi) 2 ltac:(lia)) as D.
        pose proof (Nat.mod_upper_bound (lo + hi) 2 ltac:(lia)). lia. }
      destruct (Z.ltb (nth mid a 0) x) eqn:L.
      * apply Z.ltb_lt in L.
        destruct (IH (Datatypes.S mid) hi) as (A & B & C); try lia; try assumption.
        { intros i Hi. assert (nth i a 0 <= nth mid a 0) by (apply S; lia). lia. }
        split; [lia|]. split; assumption.
      * apply Z.ltb_ge in L.
        destruct (IH lo mid) as (A & B & C); try lia; try assumption.
        { intros i Hi. assert (nth mid a 0 <= nth i a 0) by (apply S; lia). lia. }
        split; [lia|]. split; assumption.
    + apply Nat.ltb_ge in E. assert (lo = hi) by lia. subst hi. split; [lia|]. split; assumption.
Qed.
Lemma bisect_loop_range a x : forall fuel lo hi, (lo <= hi)%nat -> (lo <= bisect_loop fuel a x lo hi <= hi)%nat.
Proof.
  induction fuel as [|f IH]; intros lo hi H; cbn [bisect_loop]; [lia|].
  destruct (Nat.ltb lo hi) eqn:E; [|lia]. apply Nat.ltb_lt in E. cbv zeta.
  assert (Hm : (lo <= Nat.div (lo + hi) 2 < hi)%nat).
  { pose proof (Nat.div_mod (lo + hi) 2 ltac:(lia)) as D.
    pose proof (Nat.mod_upper_bound (lo + hi) 2 ltac:(lia)). lia. }
  destruct (Z.ltb _ x).
  - specialize (IH (S (Nat.div (lo + hi) 2)) hi). lia.
  - specialize (IH lo (Nat.div (lo + hi) 2)). lia.
Qed.
Lemma bisect_range a x : (bisect_left a x <= length a)%nat.
Proof. unfold bisect_left. pose proof (bisect_loop_range a x (length a) 0 (length a)). lia. Qed.
Lemma bisect_spec a x : sorted a ->
  (forall i, (i < bisect_left a x)%nat -> nth i a 0 < x)
  /\ (forall i, (bisect_left a x <= i < length a)%nat -> x <= nth i a 0).
Proof.
  intros S. destruct (bisect_loop_spec a x S (length a) 0 (length a)) as (A & B & C); try lia.
  split; assumption.
Qed.
Lemma bisect_bucket a x i : sorted a -> (i <= length a)%nat ->
  Nat.eqb (bisect_left a x) i = in_bucket a i x.
Proof.
  intros S Hi. destruct (bisect_spec a x S) as [B C]. pose proof (bisect_range a x) as R.
  unfold in_bucket.
  assert (Hlow : match i with O => true
                 | Datatypes.S j => match nth_error a j with Some lo => Z.ltb lo x | None => true end end
                 = Nat.leb i (bisect_left a x)).
  { destruct i as [|j]; [reflexivity|].
    destruct (nth_error a j) as [lo|] eqn:E; [|apply nth_error_None in E; lia].
    apply nth_error_nth with (d := 0) in E. subst lo.
    destruct (Nat.leb (Datatypes.S j) (bisect_left a x)) eqn:L.
    - apply Nat.leb_le in L. apply Z.ltb_lt. apply B. lia.
    - apply Nat.leb_gt in L. apply Z.ltb_ge. apply C. lia. }
  assert (Hhigh : match nth_error a i with Some hi => Z.leb x hi | None => true end
                  = Nat.leb (bisect_left a x) i).
  { destruct (nth_error a i) as [hi|] eqn:E.
    - assert (i < length a)%nat by (apply nth_error_Some; congruence).
      apply nth_error_nth with (d := 0) in E. subst hi.
      destruct (Nat.leb (bisect_left a x) i) eqn:L.
      + apply Nat.leb_le in L. apply Z.leb_le. apply C. lia.
      + apply Nat.leb_gt in L. apply Z.leb_gt. apply B. lia.
    - apply nth_error_None in E. symmetry. apply Nat.leb_le. lia. }
  rewrite Hlow, Hhigh. clear. destruct (Nat.eqb_spec (bisect_left a x) i) as [->|N].
  - now rewrite Nat.leb_refl.
  - symmetry. apply andb_false_iff. destruct (Nat.leb_spec i (bisect_left a x)); [|now left].
    right. apply Nat.leb_gt. lia.
Qed.

(** Counting *)
Definition counted (bounds : list Z) (l : list Z) : list Z :=
  map (fun i => count_in (fun v => Nat.eqb (bisect_left bounds v) i) l) (seq 0 (S (length bounds))).

Lemma incr_nth_map f : forall n k i,
  incr_nth (map f (seq k n)) i = map (fun j => f j + (if Nat.eqb (k + i) j then 1 else 0)) (seq k n).
Proof.
  induction n as [|n IH]; intros k i; cbn [seq map incr_nth]; [destruct i; reflexivity|].
  destruct i as [|i].
  - rewrite Nat.add_0_r, Nat.eqb_refl. f_equal. apply map_ext_in. intros j Hj. apply in_seq in Hj.
    destruct (Nat.eqb_spec k j); [lia|]. lia.
  - rewrite IH. destruct (Nat.eqb_spec (k + S i) k); [lia|]. f_equal; [lia|].
    apply map_ext. intros j. replace (S k + i)%nat with (k + S i)%nat by lia. reflexivity.
Qed.
Lemma count_in_app p l m : count_in p (l ++ m) = count_in p l + count_in p m.
Proof. unfold count_in. rewrite filter_app, app_length. lia. Qed.
Lemma counted_snoc bounds l v :
  incr_nth (counted bounds l) (bisect_left bounds v) = counted bounds (l ++ [v]).
Proof.
  unfold counted. rewrite incr_nth_map. apply map_ext. intros j. rewrite count_in_app. f_equal.
  unfold count_in. cbn [filter Nat.add]. destruct (Nat.eqb _ j); reflexivity.
Qed.
Lemma counted_nil bounds : counted bounds [] = empty_counts bounds.
Proof.
  unfold counted, empty_counts. generalize (S (length bounds)) as n. intros n. generalize 0%nat as k.
  induction n as [|n IH]; intros k; cbn; [reflexivity|]. f_equal. apply IH.
Qed.
Lemma zip_add_map {A} (f g : A -> Z) l : zip_add (map f l) (map g l) = map (fun x => f x + g x) l.
Proof. induction l; cbn; congruence. Qed.
Lemma counted_app bounds l m : zip_add (counted bounds m) (counted bounds l) = counted bounds (l ++ m).
Proof.
  unfold counted. rewrite zip_add_map. apply map_ext. intros j. rewrite count_in_app. lia.
Qed.
Lemma total_indicator i : forall n k,
  total (map (fun j => if Nat.eqb i j then 1 else 0) (seq k n)) = if Nat.leb k i && Nat.ltb i (k + n) then 1 else 0.
Proof.
  induction n as [|n IH]; intros k.
  - rewrite Nat.add_0_r. destruct (Nat.leb_spec k i), (Nat.ltb_spec i k); cbn; lia.
  - cbn [seq map]. unfold total in *. cbn [fold_right]. rewrite IH.
    destruct (Nat.eqb_spec i k), (Nat.leb_spec k i), (Nat.leb_spec (S k) i), (Nat.ltb_spec i (k + S n)),
      (Nat.ltb_spec i (S k + n)); cbn; lia.
Qed.
Lemma total_map_add {A} (f g : A -> Z) l : total (map (fun x => f x + g x) l) = total (map f l) + total (map g l).
Proof. unfold total. induction l; cbn; lia. Qed.
Lemma counted_total bounds l : total (counted bounds l) = Z.of_nat (length l).
Proof.
  unfold counted. induction l as [|v l IH].
  - fold (counted bounds []). rewrite counted_nil. unfold empty_counts. generalize (S (length bounds)). clear.
    intros n. unfold total. induction n; cbn in *; auto.
  - transitivity (total (map (fun j => (if Nat.eqb (bisect_left bounds v) j then 1 else 0)
                                       + count_in (fun v => Nat.eqb (bisect_left bounds v) j) l)
                              (seq 0 (S (length bounds))))).
    { f_equal. apply map_ext. intros j. unfold count_in. cbn [filter].
      destruct (Nat.eqb _ j); cbn [length]; lia. }
    rewrite total_map_add, IH, total_indicator. pose proof (bisect_range bounds v).
    replace (Nat.leb 0 (bisect_left bounds v) && Nat.ltb (bisect_left bounds v) (0 + S (length bounds))) with true.
    + cbn [length]. lia.
    + symmetry. apply andb_true_iff. split; [apply Nat.leb_le|apply Nat.ltb_lt]; lia.
Qed.
Lemma counted_nth bounds l i : sorted bounds -> (i <= length bounds)%nat ->
  nth i (counted bounds l) 0 = count_in (in_bucket bounds i) l.
Proof.
  intros S Hi. unfold counted.
  set (f := fun i => count_in (fun v => Nat.eqb (bisect_left bounds v) i) l).
  assert (Hn : nth_error (map f (seq 0 (Datatypes.S (length bounds)))) i = Some (f i)).
  { rewrite nth_error_map. rewrite (nth_error_nth' (seq 0 (Datatypes.S (length bounds))) 0%nat) by (rewrite seq_length; lia).
    rewrite seq_nth by lia. reflexivity. }
  apply nth_error_nth with (d := 0) in Hn. rewrite Hn. unfold f, count_in.
  f_equal. f_equal. apply filter_ext. intros v. apply bisect_bucket; assumption.
Qed.
Lemma counted_length bounds l : length (counted bounds l) = S (length bounds).
Proof. unfold counted. now rewrite map_length, seq_length. Qed.

(** Minimum and maximum *)
Definition lmin (l : list Z) : ext := fold_left (fun m v => ext_min m (Fin v)) l PosInf.
Definition lmax (l : list Z) : ext := fold_left (fun m v => ext_max m (Fin v)) l NegInf.
Lemma lmin_snoc l v : lmin (l ++ [v]) = ext_min (lmin l) (Fin v).
Proof. unfold lmin. now rewrite fold_left_app. Qed.
Lemma lmax_snoc l v : lmax (l ++ [v]) = ext_max (lmax l) (Fin v).
Proof. unfold lmax. now rewrite fold_left_app. Qed.
Lemma lmin_spec l : is_min l (lmin l).
Proof.
  induction l as [|v l IH] using rev_ind; [left; split; reflexivity|].
  rewrite lmin_snoc. right. destruct IH as [[-> E]|(x & E & Hin & Hx)].
  - rewrite E. exists v. cbn. split; [reflexivity|]. split; [now left|]. intros y [->|[]]. lia.
  - rewrite E. unfold ext_min. cbn [ext_ltb]. destruct (Z.ltb_spec v x).
    + exists v. split; [reflexivity|]. split; [apply in_or_app; right; now left|].
      intros y Hy. apply in_app_or in Hy. destruct Hy as [Hy|[->|[]]]; [specialize (Hx _ Hy); lia|lia].
    + exists x. split; [reflexivity|]. split; [apply in_or_app; now left|].
      intros y Hy. apply in_app_or in Hy. destruct Hy as [Hy|[->|[]]]; auto.
Qed.
Lemma lmax_spec l : is_max l (lmax l).
Proof.
  induction l as [|v l IH] using rev_ind; [left; split; reflexivity|].
  rewrite lmax_snoc. right. destruct IH as [[-> E]|(x & E & Hin & Hx)].
  - rewrite E. exists v. cbn. split; [reflexivity|]. split; [now left|]. intros y [->|[]]. lia.
  - rewrite E. unfold ext_max. cbn [ext_ltb]. destruct (Z.ltb_spec x v).
    + exists v. split; [reflexivity|]. split; [apply in_or_app; right; now left|].
      intros y Hy. apply in_app_or in Hy. destruct Hy as [Hy|[->|[]]]; [specialize (Hx _ Hy); lia|lia].
    + exists x. split; [reflexivity|]. split; [apply in_or_app; now left|].
      intros y Hy. apply in_app_or in Hy. destruct Hy as [Hy|[->|[]]]; auto.
Qed.
Lemma is_min_unique l m m' : is_min l m -> is_min l m' -> m = m'.
Proof.
  intros [[-> ->]|(x & -> & Hx & Lx)] [[E ->]|(y & -> & Hy & Ly)]; try reflexivity; try contradiction.
  - subst l. contradiction.
  - f_equal. specialize (Lx _ Hy). specialize (Ly _ Hx). lia.
Qed.
Lemma is_max_unique l m m' : is_max l m -> is_max l m' -> m = m'.
Proof.
  intros [[-> ->]|(x & -> & Hx & Lx)] [[E ->]|(y & -> & Hy & Ly)]; try reflexivity; try contradiction.
  - subst l. contradiction.
  - f_equal. specialize (Lx _ Hy). specialize (Ly _ Hx). lia.
Qed.
Lemma lmin_app l m : ext_min (lmin m) (lmin l) = lmin (l ++ m).
Proof.
  apply (is_min_unique (l ++ m)); [|apply lmin_spec].
  destruct (lmin_spec l) as [[-> ->]|(x & -> & Hx & Lx)], (lmin_spec m) as [[-> ->]|(y & -> & Hy & Ly)];
    cbn [app]; unfold ext_min; cbn [ext_ltb].
  - left. split; reflexivity.
  - right. exists y. auto.
  - right. exists x. rewrite app_nil_r. auto.
  - right. destruct (Z.ltb_spec x y); eexists; (split; [reflexivity|]); (split; [apply in_or_app; auto|]);
      intros z Hz; apply in_app_or in Hz; destruct Hz as [Hz|Hz]; try specialize (Lx _ Hz); try specialize (Ly _ Hz); lia.
Qed.
Lemma lmax_app l m : ext_max (lmax m) (lmax l) = lmax (l ++ m).
Proof.
  apply (is_max_unique (l ++ m)); [|apply lmax_spec].
  destruct (lmax_spec l) as [[-> ->]|(x & -> & Hx & Lx)], (lmax_spec m) as [[-> ->]|(y & -> & Hy & Ly)];
    cbn [app]; unfold ext_max; cbn [ext_ltb].
  - left. split; reflexivity.
  - right. exists y. auto.
  - right. exists x. rewrite app_nil_r. auto.
  - right. destruct (Z.ltb_spec y x); eexists; (split; [reflexivity|]); (split; [apply in_or_app; auto|]);
      intros z Hz; apply in_app_or in Hz; destruct Hz as [Hz|Hz]; try specialize (Lx _ Hz); try specialize (Ly _ Hz); lia.
Qed.

Definition hpoint_of attrs start now bounds (record : bool) l : hpoint :=
  HP attrs start now (total (counted bounds l)) (total l) (counted bounds l) bounds
     (if record then lmin l else PosInf) (if record then lmax l else NegInf).
Lemma hpoint_of_spec attrs start now bounds record l : sorted bounds ->
  histogram_of bounds record l (hpoint_of attrs start now bounds record l).
Proof.
  intros S. unfold histogram_of, hpoint_of. cbn.
  split; [reflexivity|]. split; [apply counted_length|]. split; [apply counted_total|].
  split; [reflexivity|]. split; [reflexivity|]. split; [intros i Hi; now apply counted_nth|].
  split; intros ->; split; auto using lmin_spec, lmax_spec.
Qed.
Definition vcounts bounds (l : list Z) : option (list Z) := match l with [] => None | _ => Some (counted bounds l) end.
Local Arguments vcounts : simpl never.
Local Arguments empty_counts : simpl never.
Local Arguments zsum : simpl never.
Local Arguments counted : simpl never.
Lemma vcounts_snoc bounds l v :
  vcounts bounds (l ++ [v])
  = Some (incr_nth (match vcounts bounds l with None => empty_counts bounds | Some c => c end) (bisect_left bounds v)).
Proof.
  assert (E : match vcounts bounds l with None => empty_counts bounds | Some c => c end = counted bounds l).
  { destruct l; [symmetry; apply counted_nil|reflexivity]. }
  rewrite E, counted_snoc. unfold vcounts. destruct (l ++ [v]) eqn:A; [destruct l; discriminate|reflexivity].
Qed.

Lemma hist_delta attrs start bounds record h :
  snd (agg_run DELTA (AgHist (hist_new attrs DELTA start bounds record)) h)
  = map (fun w => match w_since w with
                  | [] => None
                  | l => Some (HistogramPoint (hpoint_of attrs (previous_time start w) (w_now w) bounds record l))
                  end) (windows h).
Proof.
  rewrite agg_run_eq. apply Forall2_map.
  apply (run1_windows _ _ (fun b s a =>
    a = AgHist (HistA attrs DELTA start bounds record (vcounts bounds s)
                  (if record then lmin s else PosInf) (if record then lmax s else NegInf) (total s)
                  None PosInf NegInf 0 (last (collections b) start)))).
  - intros b s a v ->. cbn [aggregate]. unfold hist_aggregate. cbn. rewrite vcounts_snoc, total_app, lmin_snoc, lmax_snoc.
    destruct record; f_equal; f_equal; cbn; lia.
  - intros b s a t ->. unfold collect, hist_collect. cbn. rewrite collections_window, last_snoc. split; [destruct record; reflexivity|].
    unfold hpoint_of. destruct s; [reflexivity|]. unfold vcounts. cbn [option_map]. rewrite zsum_total. reflexivity.
  - destruct record; reflexivity.
Qed.
Lemma hist_cumulative attrs start bounds record h :
  snd (agg_run CUMULATIVE (AgHist (hist_new attrs DELTA start bounds record)) h)
  = map (fun w => Some (HistogramPoint (hpoint_of attrs start (w_now w) bounds record (so_far w)))) (windows h).
Proof.
  rewrite agg_run_eq. apply Forall2_map.
  apply (run1_windows _ _ (fun b s a => exists prev,
    (match prev with None => empty_counts bounds | Some c => c end) = counted bounds (measured b) /\
    a = AgHist (HistA attrs DELTA start bounds record (vcounts bounds s)
                  (if record then lmin s else PosInf) (if record then lmax s else NegInf) (total s)
                  prev (if record then lmin (measured b) else PosInf)
                  (if record then lmax (measured b) else NegInf) (total (measured b)) start))).
  - intros b s a v (prev & E & ->). exists prev. split; [exact E|].
    cbn [aggregate]. unfold hist_aggregate. cbn. rewrite vcounts_snoc, total_app, lmin_snoc, lmax_snoc.
    destruct record; f_equal; f_equal; cbn; lia.
  - intros b s a t (prev & E & ->). unfold collect, hist_collect. cbn.
    assert (Ev : match vcounts bounds s with None => empty_counts bounds | Some c => c end = counted bounds s).
    { destruct s; [symmetry; apply counted_nil|reflexivity]. }
    unfold so_far. cbn [w_before w_since w_now]. rewrite Ev, E, counted_app, zsum_total.
    assert (Es : total s + total (measured b) = total (measured b ++ s)) by (rewrite total_app; lia).
    split.
    + exists (Some (counted bounds (measured b ++ s))). rewrite measured_window. split; [reflexivity|].
      rewrite Es. destruct record; cbn [lmin lmax fold_left];
        rewrite ?lmin_app, ?lmax_app; reflexivity.
    + unfold hpoint_of. rewrite Es. destruct record; rewrite ?lmin_app, ?lmax_app; reflexivity.
  - exists None. split; [symmetry; apply counted_nil|]. destruct record; reflexivity.
Qed.

(** ** C47 *)
Lemma so_far_grows h : forall b s i j w w', (i <= j)%nat ->
  nth_error (windows_from b s h) i = Some w -> nth_error (windows_from b s h) j = Some w' ->
  exists rest, so_far w' = so_far w ++ rest /\ incl rest (measured h).
Proof.
  induction h as [|[v|t] h IH]; intros b s i j w w' Hij Hi Hj.
  - destruct i; discriminate.
  - destruct (IH _ _ i j w w' Hij Hi Hj) as (rest & E & Hin). exists rest. split; [exact E|]. intros x Hx. right. now apply Hin.
  - cbn [windows_from] in Hi, Hj. destruct i as [|i].
    + injection Hi as <-. destruct j as [|j].
      * injection Hj as <-. exists []. split; [now rewrite app_nil_r|]. intros x [].
      * cbn [nth_error] in Hj. clear IH.
        assert (G : forall h b s j w', nth_error (windows_from b s h) j = Some w' ->
                  exists rest, so_far w' = (measured b ++ s) ++ rest /\ incl rest (measured h)).
        { clear. induction h as [|[v|t] h IH]; intros b s j w' H.
          - destruct j; discriminate.
          - destruct (IH _ _ _ _ H) as (rest & E & Hin). exists (v :: rest). split; [rewrite E, <- !app_assoc; reflexivity|].
            intros x [<-|Hx]; [now left|right; now apply Hin].
          - cbn [windows_from] in H. destruct j as [|j].
            + injection H as <-. exists []. split; [unfold so_far; cbn; now rewrite app_nil_r|]. intros x [].
            + destruct (IH _ _ _ _ H) as (rest & E & Hin). exists rest. split; [|exact Hin].
              rewrite E, measured_window. now rewrite app_nil_r. }
        destruct (G _ _ _ _ _ Hj) as (rest & E & Hin). exists rest. split; [|exact Hin].
        rewrite E, measured_window, app_nil_r. reflexivity.
    + destruct j as [|j]; [lia|]. cbn [nth_error] in Hi, Hj.
      destruct (IH _ _ i j w w' ltac:(lia) Hi Hj) as (rest & E & Hin). exists rest. split; assumption.
Qed.
Lemma windows_since_incl h : forall b s w, In w (windows_from b s h) -> incl (w_since w) (s ++ measured h).
Proof.
  induction h as [|[v|t] h IH]; intros b s w H; cbn [windows_from] in H.
  - contradiction.
  - intros x Hx. specialize (IH _ _ _ H x Hx). rewrite <- app_assoc in IH. exact IH.
  - destruct H as [<-|H]; intros x Hx; apply in_or_app.
    + now left.
    + right. specialize (IH _ _ _ H x Hx). exact IH.
Qed.
Lemma total_nonneg l : (forall x, In x l -> 0 <= x) -> 0 <= total l.
Proof. unfold total. induction l as [|x l IH]; cbn; intros H; [lia|]. pose proof (H x). pose proof (IH (fun y Hy => H y (or_intror Hy))). lia. Qed.
Lemma kept_nonneg k h : (k = ICounter \/ k = IHistogram) -> forall x, In x (measured (calls_ops k h)) -> 0 <= x.
Proof.
  intros Hk x. unfold calls_ops. induction h as [|[z|n] h IH]; cbn [flat_map]; [intros []| |exact IH].
  rewrite measured_app. intros H. apply in_app_or in H. destruct H as [H|H]; [|auto].
  assert (E : offered k z = if Z.ltb z 0 then None else Some z) by (destruct Hk as [-> | ->]; reflexivity).
  rewrite E in H. destruct (Z.ltb_spec z 0); cbn in H; [contradiction|]. destruct H as [<-|[]]. lia.
Qed.
Lemma numbers_map_some {X} (f : X -> npoint) ws : numbers (map (fun w => Some (NumberPoint (f w))) ws) = map (fun w => np_value (f w)) ws.
Proof. unfold numbers. induction ws as [|w ws IH]; cbn; [reflexivity|]. now rewrite IH. Qed.
Lemma nth_nth_error {X} (l : list X) i d x : nth_error l i = Some x -> nth i l d = x.
Proof. apply nth_error_nth. Qed.
Lemma monotonic_counter attrs start h :
  nondecreasing (numbers (snd (agg_run CUMULATIVE (create Default ICounter None attrs start) (calls_ops ICounter h)))).
Proof.
  cbn [create]. rewrite sum_cumulative, numbers_map_some. cbn [np_value]. unfold nondecreasing, sorted.
  intros i j [Hij Hj]. rewrite map_length in Hj.
  destruct (nth_error (windows (calls_ops ICounter h)) i) as [w|] eqn:Ei; [|apply nth_error_None in Ei; lia].
  destruct (nth_error (windows (calls_ops ICounter h)) j) as [w'|] eqn:Ej; [|apply nth_error_None in Ej; lia].
  rewrite (nth_nth_error (map _ _) i 0 (total (so_far w))) by (rewrite nth_error_map, Ei; reflexivity).
  rewrite (nth_nth_error (map _ _) j 0 (total (so_far w'))) by (rewrite nth_error_map, Ej; reflexivity).
  destruct (so_far_grows _ _ _ i j w w' Hij Ei Ej) as (rest & -> & Hin). rewrite total_app.
  assert (0 <= total rest); [|lia]. apply total_nonneg. intros x Hx. eapply kept_nonneg; [now left|]. exact (Hin x Hx).
Qed.
Lemma counter_delta_nonneg attrs start h z :
  In z (numbers (snd (agg_run DELTA (create Default ICounter None attrs start) (calls_ops ICounter h)))) -> 0 <= z.
Proof.
  cbn [create]. rewrite sum_delta. unfold numbers. rewrite in_flat_map. intros (p & Hp & Hz).
  apply in_map_iff in Hp. destruct Hp as (w & <- & Hw). unfold delta_sync in Hz.
  destruct (w_since w) as [|x l] eqn:E; [contradiction|]. destruct Hz as [<-|[]]. cbn [np_value]. rewrite <- E.
  apply total_nonneg. intros y Hy. pose proof (windows_since_incl _ _ _ _ Hw y Hy) as Hi.
  eapply kept_nonneg; [now left|exact Hi].
Qed.
Lemma counted_mono bounds l m i : nth i (counted bounds l) 0 <= nth i (counted bounds (l ++ m)) 0.
Proof.
  destruct (Nat.lt_ge_cases i (S (length bounds))) as [Hi|Hi].
  - set (f := fun l i => count_in (fun v => Nat.eqb (bisect_left bounds v) i) l).
    assert (Hn : forall l, nth i (counted bounds l) 0 = f l i).
    { intros l0. apply nth_nth_error. unfold counted. rewrite nth_error_map.
      rewrite (nth_error_nth' (seq 0 (S (length bounds))) 0%nat) by (rewrite seq_length; lia).
      rewrite seq_nth by lia. reflexivity. }
    rewrite !Hn. unfold f. rewrite count_in_app. unfold count_in at 3. lia.
  - rewrite !nth_overflow by (rewrite counted_length; lia). lia.
Qed.
Lemma monotonic_histogram attrs start bounds record h i j p q :
  let out := snd (agg_run CUMULATIVE (AgHist (hist_new attrs DELTA start bounds record)) (calls_ops IHistogram h)) in
  (i <= j)%nat -> nth_error out i = Some (Some (HistogramPoint p)) -> nth_error out j = Some (Some (HistogramPoint q)) ->
  hp_sum p <= hp_sum q /\ hp_count p <= hp_count q /\ forall b, nth b (hp_counts p) 0 <= nth b (hp_counts q) 0.
Proof.
  intros out Hij Hi Hj. unfold out in *. rewrite hist_cumulative in Hi, Hj. rewrite nth_error_map in Hi, Hj.
  destruct (nth_error (windows (calls_ops IHistogram h)) i) as [w|] eqn:Ei; [|discriminate].
  destruct (nth_error (windows (calls_ops IHistogram h)) j) as [w'|] eqn:Ej; [|discriminate].
  injection Hi as <-. injection Hj as <-. unfold hpoint_of. cbn [hp_sum hp_count hp_counts].
  destruct (so_far_grows _ _ _ i j w w' Hij Ei Ej) as (rest & -> & Hin). rewrite !counted_total, total_app, app_length.
  split; [|split; [lia|intros b; apply counted_mono]].
  assert (0 <= total rest); [|lia]. apply total_nonneg. intros x Hx. eapply kept_nonneg; [now right|]. exact (Hin x Hx).
Qed.

Lemma counter_readings h : forall b s,
  map (fun w => total (so_far w)) (windows_from b s (calls_ops ICounter h))
  = readings (total (measured b) + total s) h.
Proof.
  induction h as [|[z|now] h IH]; intros b s; [reflexivity| |].
  - change (calls_ops ICounter (Call z :: h))
      with ((match offered ICounter z with Some v => [Measure v] | None => [] end) ++ calls_ops ICounter h).
    cbn [offered readings]. rewrite Z.ltb_antisym. destruct (0 <=? z); cbn [negb app windows_from]; [|apply IH].
    rewrite IH, total_app. f_equal. unfold total at 3. cbn [fold_right]. lia.
  - change (calls_ops ICounter (Read now :: h)) with (Collect now :: calls_ops ICounter h).
    cbn [windows_from map readings]. rewrite IH. unfold so_far. cbn [w_before w_since].
    rewrite total_app, !measured_app, measured_map, !total_app. f_equal. f_equal. cbn. lia.
Qed.
Lemma counter_exact attrs start h :
  numbers (snd (agg_run CUMULATIVE (create Default ICounter None attrs start) (calls_ops ICounter h))) = readings 0 h.
Proof. cbn [create]. rewrite sum_cumulative, numbers_map_some. exact (counter_readings h [] []). Qed.
