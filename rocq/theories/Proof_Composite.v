From Verif Require Export Proof_B3Jaeger.
From Coq Require Import Permutation.

(** ** Members are local *)
Lemma tc_local : local_to SPAN_KEY (p_extract tc_propagator).
Proof.
  exists (fun g old => match get_value SPAN_KEY (tc_extract g []) with ONone => old | v => v end).
  intros g ctx. exists (tc_extract g ctx). split; [reflexivity|].
  destruct (tc_extract_cases g ctx) as [[E Hn]|(h & rest & v & t & s & f & ext & Hg & Ht & Ha & E & Hv)].
  - destruct (tc_extract_cases g []) as [[E0 _]|(h & rest & v & t & s & f & ext & Hg & Ht & Ha & _)].
    + rewrite E, E0. split; [reflexivity|]. intros; reflexivity.
    + exfalso. apply Hn. exists h, rest, v, t, s, f, ext. auto.
  - rewrite E. rewrite (tc_extract_accept g [] h rest v t s f ext Hg Ht Ha).
    unfold set_span_in_context. rewrite !get_value_set_eq. split; [reflexivity|].
    intros k' Hk'. now apply get_value_set_ne.
Qed.

Lemma bag_extract_entry g : exists nvs,
  forall ctx, bag_extract g ctx = fold_left put nvs ctx.
Proof.
  unfold bag_extract. destruct (first_element (g_get g BAGGAGE)) as [[|c h]|];
    try (now exists []).
  destruct (N.ltb MAX_HEADER_LENGTH (nlen (c :: h))); [now exists []|].
  eexists. intros ctx. rewrite bag_loop_spec by (unfold MAX_PAIRS; lia). reflexivity.
Qed.

Definition get_dict (o : obj) : dict str obj := match o with ODict d => d | _ => [] end.
Definition bag_obj (nvs : list (str * str)) (old : obj) : obj :=
  fold_left (fun o nv => ODict (dset (strip py_space (unquote_plus (fst nv)))
     (OStr (strip py_space (unquote_plus (snd nv)))) (get_dict o))) nvs old.

Lemma fold_put_entry nvs ctx :
  get_value BAGGAGE_KEY (fold_left put nvs ctx) = bag_obj nvs (get_value BAGGAGE_KEY ctx).
Proof.
  revert ctx. induction nvs as [|nv nvs IH]; intros ctx; [reflexivity|].
  cbn [fold_left]. rewrite IH. unfold bag_obj at 2. cbn [fold_left]. unfold bag_obj. f_equal.
  unfold put, set_baggage. rewrite get_value_set_eq. reflexivity.
Qed.

Definition last_of (g : getter) : list (str * str) :=
  match first_element (g_get g BAGGAGE) with
  | None | Some [] => []
  | Some h => if N.ltb MAX_HEADER_LENGTH (nlen h) then []
              else firstn MAX_PAIRS (parse_pieces (split_delim h))
  end.

Lemma bag_extract_last g ctx : bag_extract g ctx = fold_left put (last_of g) ctx.
Proof.
  unfold bag_extract, last_of. destruct (first_element (g_get g BAGGAGE)) as [[|c h]|]; try reflexivity.
  destruct (N.ltb MAX_HEADER_LENGTH (nlen (c :: h))); [reflexivity|].
  now rewrite bag_loop_spec by (unfold MAX_PAIRS; lia).
Qed.

Lemma bag_local py_str : local_to BAGGAGE_KEY (p_extract (bag_propagator py_str)).
Proof.
  exists (fun g old => bag_obj (last_of g) old). intros g ctx. exists (bag_extract g ctx).
  split; [reflexivity|]. rewrite bag_extract_last. split; [apply fold_put_entry|].
  intros k' Hk'. now apply fold_put_frame.
Qed.

(** ** Composite laws *)
Lemma comp_extract_app ps qs g ctx :
  comp_extract (ps ++ qs) g ctx =
  match comp_extract ps g ctx with None => None | Some c => comp_extract qs g c end.
Proof.
  revert ctx. induction ps as [|p ps IH]; intros ctx; [reflexivity|]. cbn [app comp_extract].
  destruct (p_extract p g ctx); [apply IH|reflexivity].
Qed.

(** A list of members with their keys. *)
Lemma comp_local (kps : list (str * propagator)) g ctx :
  NoDup (map fst kps) -> Forall (fun kp => local_to (fst kp) (p_extract (snd kp))) kps ->
  exists got, comp_extract (map snd kps) g ctx = Some got
  /\ (forall k, ~ In k (map fst kps) -> get_value k got = get_value k ctx)
  /\ (forall k p, In (k, p) kps -> forall alone, p_extract p g ctx = Some alone ->
        get_value k got = get_value k alone).
Proof.
  intros Hnd Hl. revert ctx. induction kps as [|[k p] kps IH]; intros ctx.
  - exists ctx. repeat split; auto. intros k p [].
  - inversion Hl as [|? ? Hp Hl']; subst. inversion Hnd as [|? ? Hni Hnd']; subst.
    cbn [fst snd map] in *. assert (Hp' := Hp). destruct Hp as (f & Hf).
    destruct (Hf g ctx) as (c1 & E1 & Hk & Hother).
    destruct (IH Hnd' Hl' c1) as (got & E & Hfr & Hin).
    exists got. cbn [comp_extract]. rewrite E1. split; [exact E|]. split.
    + intros k' Hk'. cbn [In] in Hk'. rewrite Hfr by tauto. apply Hother. intros ->. tauto.
    + intros k' p' [Eq|Hin'] alone Ea.
      * injection Eq as <- <-. rewrite E1 in Ea. injection Ea as <-. now apply Hfr.
      * assert (Hl2 : local_to k' (p_extract p')).
        { rewrite Forall_forall in Hl'. apply (Hl' (k', p') Hin'). }
        destruct Hl2 as (f' & Hf'). destruct (Hf' g c1) as (a1 & Ea1 & Ha1 & _).
        destruct (Hf' g ctx) as (a0 & Ea0 & Ha0 & _). rewrite Ea in Ea0. injection Ea0 as <-.
        rewrite (Hin k' p' Hin' a1 Ea1), Ha1, Ha0. f_equal. apply Hother.
        intros ->. apply Hni. apply in_map_iff. exists (k, p'). auto.
Qed.

Lemma comp_order (kps kps' : list (str * propagator)) g ctx :
  Permutation kps kps' ->
  NoDup (map fst kps) -> Forall (fun kp => local_to (fst kp) (p_extract (snd kp))) kps ->
  exists a b, comp_extract (map snd kps) g ctx = Some a
    /\ comp_extract (map snd kps') g ctx = Some b /\ same_context a b.
Proof.
  intros Hperm Hnd Hl.
  assert (Hnd' : NoDup (map fst kps')) by (eapply Permutation_NoDup; [apply Permutation_map, Hperm|assumption]).
  assert (Hl' : Forall (fun kp => local_to (fst kp) (p_extract (snd kp))) kps')
    by (eapply Permutation_Forall; eauto).
  destruct (comp_local kps g ctx Hnd Hl) as (a & Ea & Ha1 & Ha2).
  destruct (comp_local kps' g ctx Hnd' Hl') as (b & Eb & Hb1 & Hb2).
  exists a, b. split; [exact Ea|]. split; [exact Eb|]. intros k.
  destruct (in_dec eq_dec k (map fst kps)) as [Hin|Hni].
  - apply in_map_iff in Hin as ([k0 p] & E & Hin). cbn in E. subst k0.
    assert (Hlp : local_to k (p_extract p)).
    { rewrite Forall_forall in Hl. apply (Hl (k, p) Hin). }
    destruct Hlp as (f & Hf). destruct (Hf g ctx) as (alone & E & _).
    rewrite (Ha2 k p Hin alone E).
    rewrite (Hb2 k p (Permutation_in _ Hperm Hin) alone E). reflexivity.
  - rewrite Ha1 by assumption. rewrite Hb1; [reflexivity|]. intros Hin. apply Hni.
    eapply Permutation_in; [apply Permutation_sym, Permutation_map, Hperm|exact Hin].
Qed.

(** ** Injection *)
Lemma comp_inject_ok ps ctx : Forall (fun p => inj_raised (p_inject p ctx) = false) ps ->
  comp_inject ps ctx = Injected (flat_map (fun p => inj_writes (p_inject p ctx)) ps) false.
Proof.
  induction 1 as [|p ps Hp _ IH]; [reflexivity|]. cbn [comp_inject flat_map].
  rewrite Hp, IH. reflexivity.
Qed.
Lemma comp_inject_raise ps p qs ctx :
  Forall (fun p => inj_raised (p_inject p ctx) = false) ps -> inj_raised (p_inject p ctx) = true ->
  comp_inject (ps ++ p :: qs) ctx =
  Injected (flat_map (fun p => inj_writes (p_inject p ctx)) ps ++ inj_writes (p_inject p ctx)) true.
Proof.
  induction 1 as [|p0 ps Hp0 _ IH]; intros Hp; cbn [app comp_inject flat_map].
  - rewrite Hp. destruct (p_inject p ctx) as [w r]. cbn in *. now subst.
  - rewrite Hp0, IH by assumption. cbn [inj_writes inj_raised]. now rewrite app_assoc.
Qed.

(** ** Fields *)
Lemma set_add_In f x l : In x (set_add f l) <-> x = f \/ In x l.
Proof.
  unfold set_add. destruct (in_dec str_eq_dec f l) as [Hin|Hni].
  - split; [tauto|]. intros [->|H]; assumption.
  - rewrite in_app_iff. cbn [In]. split; [intros [H|[<-|[]]]; tauto|intros [->|H]; auto].
Qed.
Lemma set_add_NoDup f l : NoDup l -> NoDup (set_add f l).
Proof.
  unfold set_add. destruct (in_dec str_eq_dec f l); [auto|]. intros. now apply NoDup_app_snoc.
Qed.
Lemma fold_set_add fs acc x :
  In x (fold_left (fun a f => set_add f a) fs acc) <-> In x fs \/ In x acc.
Proof.
  revert acc. induction fs as [|f fs IH]; intros acc; [cbn; tauto|].
  cbn [fold_left In]. rewrite IH, set_add_In. intuition congruence.
Qed.
Lemma fold_set_add_NoDup fs acc : NoDup acc -> NoDup (fold_left (fun a f => set_add f a) fs acc).
Proof.
  revert acc. induction fs as [|f fs IH]; intros acc Hn; [assumption|]. cbn [fold_left].
  apply IH. now apply set_add_NoDup.
Qed.
Lemma comp_fields_spec ps :
  NoDup (comp_fields ps) /\
  forall f, In f (comp_fields ps) <-> exists p, In p ps /\ In f (p_fields p).
Proof.
  unfold comp_fields.
  assert (H : forall acc, NoDup acc ->
    NoDup (fold_left (fun acc p => fold_left (fun a f => set_add f a) (p_fields p) acc) ps acc)
    /\ forall f, In f (fold_left (fun acc p => fold_left (fun a f => set_add f a) (p_fields p) acc) ps acc)
        <-> In f acc \/ exists p, In p ps /\ In f (p_fields p)).
  { induction ps as [|p ps IH]; intros acc Hn; cbn [fold_left].
    - split; [assumption|]. intros f. split; [auto|]. intros [H|(p & [] & _)]. exact H.
    - destruct (IH (fold_left (fun a f => set_add f a) (p_fields p) acc)) as [H1 H2].
      { now apply fold_set_add_NoDup. }
      split; [exact H1|]. intros f. rewrite H2, fold_set_add. split.
      + intros [[H|H]|(q & Hq & Hf)]; [right; exists p; split; [now left|assumption]|now left|].
        right. exists q. split; [now right|assumption].
      + intros [H|(q & [->|Hq] & Hf)]; [auto|auto|]. right. eauto. }
  destruct (H []) as [H1 H2]; [constructor|]. split; [exact H1|].
  intros f. rewrite H2. cbn [In]. tauto.
Qed.

(** Every header a propagator writes is among its fields. *)
Definition writes_fields (p : propagator) : Prop :=
  forall ctx k v, In (k, v) (inj_writes (p_inject p ctx)) -> In k (p_fields p).

Lemma tc_writes_fields : writes_fields tc_propagator.
Proof.
  intros ctx k v. cbn [p_inject p_fields tc_propagator]. unfold tc_inject.
  destruct (is_invalid_context _); cbn [inj_writes]; [intros []|].
  intros [E|Hin]; [injection E as <- _; now left|].
  destruct (sc_state _); [destruct Hin|]. destruct Hin as [E|[]]. injection E as <- _.
  right. now left.
Qed.
Lemma bag_writes_fields py_str : writes_fields (bag_propagator py_str).
Proof.
  intros ctx k v. cbn [p_inject p_fields bag_propagator]. unfold bag_inject.
  destruct (get_all ctx) as [|kv l]; [intros []|].
  destruct (format_pairs _ _); [|intros []]. intros [E|[]]. injection E as <- _. now left.
Qed.
Lemma comp_writes_fields ps ctx k v : Forall writes_fields ps ->
  In (k, v) (inj_writes (comp_inject ps ctx)) -> In k (comp_fields ps).
Proof.
  intros Hf Hin. apply comp_fields_spec. revert Hin.
  induction Hf as [|p ps Hp Hf IH]; [intros []|]. cbn [comp_inject].
  destruct (inj_raised (p_inject p ctx)).
  - intros Hin. exists p. split; [now left|]. eapply Hp; eauto.
  - cbn [inj_writes]. rewrite in_app_iff. intros [Hin|Hin].
    + exists p. split; [now left|]. eapply Hp; eauto.
    + destruct (IH Hin) as (q & Hq & Hfq). exists q. split; [now right|assumption].
Qed.

(** ** End to end with the default propagators *)
Lemma default_round_trip py_str ctx sc d base c0 :
  current_span_context ctx = sc -> sc_is_valid sc = true -> (0 <= sc_flags sc < 256)%Z ->
  ts_wf (sc_state sc) ->
  get_all ctx = as_objs d -> d <> [] -> NoDup (map fst d) -> Forall baggage_ok d ->
  dget TRACESTATE c0 = None ->
  exists w, comp_inject (default_propagators py_str) ctx = Injected w false /\
   ((forall h, In (BAGGAGE, h) w -> within_limits h d) ->
    exists got, comp_extract (default_propagators py_str) (default_getter (default_set w c0)) base = Some got
    /\ current_span_context got
         = SC (sc_trace_id sc) (sc_span_id sc) true (sc_flags sc) (sc_state sc)
    /\ (forall name, get_baggage name got =
          match dget name d with Some v => OStr v | None => get_baggage name base end)
    /\ (forall k, k <> SPAN_KEY -> k <> BAGGAGE_KEY -> get_value k got = get_value k base)).
Proof.
  intros Hcur Hv Hfl Hwf Hg Hne Hnd Hok Hc0.
  destruct (bag_inject_ok py_str ctx d Hg Hne Hok) as (ps & Ei & Hf).
  set (h := join [44%N] ps) in *.
  assert (Hw : comp_inject (default_propagators py_str) ctx
          = Injected (inj_writes (tc_inject ctx) ++ [(BAGGAGE, h)]) false).
  { cbn [default_propagators comp_inject p_inject tc_propagator bag_propagator].
    rewrite Ei. cbn [inj_raised inj_writes app]. unfold tc_inject.
    destruct (is_invalid_context _); reflexivity. }
  eexists. split; [exact Hw|]. intros Hlim. specialize (Hlim h).
  assert (Hin : In (BAGGAGE, h) (inj_writes (tc_inject ctx) ++ [(BAGGAGE, h)]))
    by (apply in_app_iff; right; now left).
  specialize (Hlim Hin).
  set (w := inj_writes (tc_inject ctx) ++ [(BAGGAGE, h)]).
  set (g := default_getter (default_set w c0)).
  (* the carrier as seen through each member's fields *)
  set (gt := default_getter (default_set (inj_writes (tc_inject ctx)) c0)).
  assert (Hsplit : forall k, k <> BAGGAGE -> g_get g k = g_get gt k).
  { intros k Hk. unfold g, gt, w. cbn [g_get default_getter]. unfold default_set.
    rewrite map_app, dupdate_app. cbn [map dupdate fold_left fst snd].
    now rewrite dget_dset_ne. }
  assert (Hb : g_get g BAGGAGE = Some [h]).
  { unfold g, w. cbn [g_get default_getter]. unfold default_set.
    rewrite map_app, dupdate_app. cbn [map dupdate fold_left fst snd].
    now rewrite dget_dset_eq. }
  assert (Etc : forall b, tc_extract g b = tc_extract gt b).
  { intros b. unfold tc_extract. rewrite (Hsplit TRACEPARENT), (Hsplit TRACESTATE) by discriminate.
    reflexivity. }
  cbn [default_propagators comp_extract p_extract tc_propagator bag_propagator].
  eexists. split; [reflexivity|]. rewrite Etc.
  destruct (tc_round_trip_obs ctx sc base c0 Hcur Hv Hfl Hwf Hc0) as (H1 & H2 & _).
  fold gt in H1, H2. set (b1 := tc_extract gt base) in *.
  assert (Hps : ps <> []). { intros ->. inversion Hf. congruence. }
  rewrite (bag_extract_of_good g h [] ps d b1 Hb eq_refl Hps Hf Hok Hlim).
  split; [|split].
  - unfold current_span_context, get_current_span in *.
    rewrite (fold_set_frame d b1 SPAN_KEY) by discriminate. exact H1.
  - intros name. unfold get_baggage. rewrite fold_set_get_all.
    assert (Hk : keys (as_objs d) = map fst d) by (unfold keys, as_objs; now rewrite map_map).
    rewrite dget_dupdate by now rewrite Hk.
    assert (Hdg : dget name (as_objs d) = option_map OStr (dget name d)).
    { clear. induction d as [|[k v] d IH]; cbn; [reflexivity|].
      destruct (eq_dec name k); [reflexivity|exact IH]. }
    rewrite Hdg. destruct (dget name d); [reflexivity|]. cbn [option_map].
    assert (Ea : get_all b1 = get_all base).
    { unfold get_all. rewrite (H2 BAGGAGE_KEY) by discriminate. reflexivity. }
    now rewrite Ea.
  - intros k Hk1 Hk2. rewrite fold_set_frame by assumption. now apply H2.
Qed.

(** Without an explicit context the members disagree about the default. *)
Lemma opt_order_matters : exists current g a b,
  comp_extract_opt [tc_extract_opt; bag_extract_opt] current g None = Some a
  /\ comp_extract_opt [bag_extract_opt; tc_extract_opt] current g None = Some b
  /\ ~ same_context a b.
Proof.
  exists [(lit "k", OInt 7)], (default_getter []), [], [(lit "k", OInt 7)].
  split; [reflexivity|]. split; [reflexivity|]. intros H. specialize (H (lit "k")).
  vm_compute in H. discriminate.
Qed.
Lemma opt_explicit current g ctx :
  comp_extract_opt [tc_extract_opt; bag_extract_opt] current g (Some ctx)
  = Some (bag_extract g (tc_extract g ctx)).
Proof. reflexivity. Qed.

(** B3 fields and Jaeger's undeclared ones. *)
Lemma b3_writes_fields ctx k v :
  (In (k, v) (inj_writes (b3_multi_inject ctx)) -> In k [B3_TRACE_ID; B3_SPAN_ID; B3_SAMPLED])
  /\ (In (k, v) (inj_writes (b3_single_inject ctx)) -> In k [B3]).
Proof.
  unfold b3_multi_inject, b3_single_inject. destruct (is_invalid_context _); cbn [inj_writes];
    (split; [intros H|intros H]); try contradiction; cbn [In] in *;
    repeat (destruct H as [H|H]; [injection H as <- _; tauto|]); contradiction.
Qed.
Lemma jaeger_undeclared : exists ctx k v,
  In (k, v) (inj_writes (jaeger_inject (fun _ => []) ctx)) /\ ~ In k [UBER_TRACE_ID].
Proof.
  exists [(SPAN_KEY, OSpan (SC 1 1 false 1 []) true None);
          (BAGGAGE_KEY, ODict [(lit "a", OStr (lit "v"))])], (lit "uberctx-a"), (lit "v").
  split; [vm_compute; auto|]. intros [E|[]]. discriminate.
Qed.
Lemma default_writes_fields py_str ctx k v :
  In (k, v) (inj_writes (comp_inject (default_propagators py_str) ctx)) ->
  In k (comp_fields (default_propagators py_str)).
Proof.
  apply comp_writes_fields. constructor; [apply tc_writes_fields|].
  constructor; [apply bag_writes_fields|constructor].
Qed.

Lemma get_baggage_fold d base name : NoDup (map fst d) ->
  get_baggage name (fold_left (fun x kv => set_baggage (fst kv) (OStr (snd kv)) x) d base)
  = match dget name d with Some v => OStr v | None => get_baggage name base end.
Proof.
  intros Hnd. unfold get_baggage. rewrite fold_set_get_all.
  assert (Hk : keys (as_objs d) = map fst d) by (unfold keys, as_objs; now rewrite map_map).
  rewrite dget_dupdate by now rewrite Hk.
  assert (Hdg : dget name (as_objs d) = option_map OStr (dget name d)).
  { clear. induction d as [|[k v] d IH]; cbn; [reflexivity|].
    destruct (eq_dec name k); [reflexivity|exact IH]. }
  rewrite Hdg. destruct (dget name d); reflexivity.
Qed.

Lemma jaeger_baggage_round_trip py_str nd ctx sc (d : list (str * str)) base (c0 : carrier) :
  current_span_context ctx = sc -> sc_is_valid sc = true -> (0 <= sc_flags sc)%Z ->
  (0 <= parent_of (get_current_span ctx))%Z ->
  get_all ctx = as_objs d -> NoDup (map fst d) ->
  Forall (fun kv => unicode_text (snd kv) /\ trimmed (snd kv) /\ free_of UBERCTX (fst kv)) d ->
  (forall k, In k (keys c0) -> forall r, k <> UBERCTX ++ r) ->
  exists w got, jaeger_inject py_str ctx = Injected w false /\
    jaeger_extract nd (default_getter (default_set w c0)) base = Some got /\
    forall name, get_baggage name got =
      match dget name d with Some v => OStr v | None => get_baggage name base end.
Proof.
  intros Hcur Hv Hfl Hp Hg Hnd Hd Hc0.
  destruct (jaeger_round_trip py_str nd ctx sc d base c0) as (w & E & Ex); auto.
  exists w. eexists. split; [exact E|]. split; [exact Ex|]. intros name.
  rewrite <- (get_baggage_fold d base name Hnd). unfold get_baggage, get_all, set_span_in_context.
  now rewrite (get_value_set_ne SPAN_KEY BAGGAGE_KEY) by discriminate.
Qed.

(** *** When injection raises *)
Lemma utf8_iff s : (exists bs, utf8_encode s = Some bs) <-> unicode_text s.
Proof. split; [intros [bs H]; eapply utf8_encode_some, H|]. intros H. destruct (utf8_round_trip s H) as (bs & E & _). eauto. Qed.
Lemma quote_plus_iff s : (exists q, quote_plus s = Some q) <-> unicode_text s.
Proof. rewrite <- utf8_iff. unfold quote_plus. destruct (utf8_encode s); cbn [option_map]; split; intros [? H]; try discriminate; eauto. Qed.
Lemma quote_iff s : (exists q, quote s = Some q) <-> unicode_text s.
Proof. rewrite <- utf8_iff. unfold quote. destruct (utf8_encode s); cbn [option_map]; split; intros [? H]; try discriminate; eauto. Qed.
Lemma format_pairs_iff py_str l : (exists ps, format_pairs py_str l = Some ps) <-> Forall (fun kv => unicode_text (fst kv) /\ unicode_text (to_str py_str (snd kv))) l.
Proof.
  induction l as [|[k v] l IH]; cbn [format_pairs]; [split; eauto|]. rewrite Forall_cons_iff, <- IH. cbn [fst snd]. rewrite <- !quote_plus_iff.
  destruct (quote_plus k) as [a|], (quote_plus (to_str py_str v)) as [b|], (format_pairs py_str l) as [r|];
    (split; [intros [? H]; try discriminate; eauto 6|intros [[[? H1] [? H2]] [? H3]]; try discriminate; eauto]).
Qed.
Lemma bag_inject_raises py_str ctx : inj_raised (bag_inject py_str ctx) = false
  <-> Forall (fun kv => unicode_text (fst kv) /\ unicode_text (to_str py_str (snd kv))) (get_all ctx).
Proof.
  rewrite <- format_pairs_iff. unfold bag_inject. destruct (get_all ctx) as [|x l]; [cbn; split; eauto|].
  destruct (format_pairs py_str (x :: l)); cbn [inj_raised]; split; eauto; [discriminate|intros [? H]; discriminate].
Qed.
Lemma jaeger_inject_raises py_str ctx : sc_is_valid (current_span_context ctx) = true ->
  inj_raised (jaeger_inject py_str ctx) = false <-> Forall (fun kv => unicode_text (to_str py_str (snd kv))) (get_all ctx).
Proof.
  intros V. unfold jaeger_inject. change (span_context_of (get_current_span ctx)) with (current_span_context ctx). rewrite valid_not_invalid by exact V. cbn [inj_raised].
  induction (get_all ctx) as [|[k v] l IH]; cbn [jaeger_baggage_writes inj_raised]; [split; auto|]. rewrite Forall_cons_iff, <- IH. cbn [snd]. rewrite <- quote_iff.
  destruct (quote (to_str py_str v)); cbn [inj_raised]; split; eauto; [tauto|discriminate|intros [[? H] _]; discriminate].
Qed.
