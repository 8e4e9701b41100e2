(** Proofs about the global propagator. *)
From Verif Require Export Spec_Propagate.
From Verif Require Import Proof_Dict Proof_Str Proof_Baggage Proof_Composite.
From Coq Require Import Lia.

Lemma load_spec ep names ps : load_propagators ep names = Ok ps <->
  Forall2 (fun n p => ep n = LoadsPropagator p) (map (strip py_space) names) ps.
Proof.
  revert ps. induction names as [|n names IH]; intros ps; cbn [load_propagators map].
  - split; [intros E; injection E as <-; constructor|inversion 1; reflexivity].
  - destruct (ep (strip py_space n)) as [| |p] eqn:E.
    + split; [discriminate|inversion 1; congruence].
    + split; [discriminate|inversion 1; congruence].
    + destruct (load_propagators ep names) as [qs|] eqn:E'; cbn [bind_out].
      * split; [intros H; injection H as <-; constructor; [exact E|apply IH; reflexivity]|].
        inversion 1 as [|? ? ? ? P Q]; subst. apply IH in Q. congruence.
      * split; [discriminate|]. inversion 1 as [|? ? ? ? P Q]; subst. apply IH in Q. congruence.
Qed.
Lemma global_spec ep e ps : global_propagators ep e = Ok ps <->
  exists l, listed_propagators e l /\ Forall2 (fun n p => ep n = LoadsPropagator p) l ps.
Proof.
  unfold global_propagators, environ_propagators, listed_propagators. rewrite load_spec.
  destruct (e (lit "OTEL_PROPAGATORS")) as [v|].
  - split.
    + intros F. eexists. split; [|exact F]. exists (split_on 44 v). split; [symmetry; apply join_split_on|].
      split; [apply split_on_notin_all|]. split; [apply split_on_nonempty|reflexivity].
    + intros (l & (parts & -> & A & B & ->) & F). change (lit ",") with [44%N]. rewrite split_on_join by assumption. exact F.
  - split; [intros F; eexists; split; [reflexivity|exact F]|]. intros (l & -> & F). exact F.
Qed.

(** *** Members that settle *)
Lemma comp_settles (kps : list (str * propagator)) g ctx :
  (forall k p p', In (k, p) kps -> In (k, p') kps -> p = p') ->
  Forall (fun kp => settles (fst kp) (p_extract (snd kp))) kps ->
  exists got, comp_extract (map snd kps) g ctx = Some got
    /\ (forall k, ~ In k (map fst kps) -> get_value k got = get_value k ctx)
    /\ (forall k p, In (k, p) kps -> forall alone, p_extract p g ctx = Some alone -> get_value k got = get_value k alone).
Proof.
  revert ctx. induction kps as [|[k p] kps IH]; intros ctx Hf HF; cbn [map comp_extract fst snd].
  - exists ctx. split; [reflexivity|]. split; [reflexivity|intros ? ? []].
  - inversion HF as [|? ? Hs HF']; subst. cbn [fst snd] in Hs. pose proof Hs as (f & Hid & Hl).
    destruct (Hl g ctx) as (c1 & E1 & V1 & O1). rewrite E1.
    destruct (IH c1) as (got & Eg & Og & Vg); [intros; eapply Hf; right; eassumption|exact HF'|].
    exists got. split; [exact Eg|]. split.
    + intros k' Ni. rewrite Og by (intros C; apply Ni; right; exact C). apply O1. intros ->. apply Ni. left. reflexivity.
    + intros k' p' I alone Ea. destruct (str_eq_dec k' k) as [->|N].
      * assert (p' = p) by (eapply Hf; [exact I|left; reflexivity]). subst p'. rewrite E1 in Ea. injection Ea as <-.
        destruct (in_dec str_eq_dec k (map fst kps)) as [Ik|Nk]; [|apply Og; exact Nk].
        apply in_map_iff in Ik. destruct Ik as ([k2 p2] & Ek & I2). cbn in Ek. subst k2.
        assert (p2 = p) by (eapply Hf; [right; exact I2|left; reflexivity]). subst p2.
        destruct (Hl g c1) as (c2 & E2 & V2 & _). rewrite (Vg k p I2 c2 E2), V2, V1. apply Hid.
      * destruct I as [I|I]; [congruence|].
        rewrite Forall_forall in HF'. destruct (HF' _ I) as (f' & _ & Hl'). cbn [fst snd] in Hl'.
        destruct (Hl' g ctx) as (c2 & E2 & V2 & _). destruct (Hl' g c1) as (c3 & E3 & V3 & _).
        assert (c2 = alone) by congruence. subst c2. rewrite (Vg k' p' I c3 E3), V3, V2, O1 by exact N. reflexivity.
Qed.

Lemma comp_same_members (kps kps' : list (str * propagator)) g ctx :
  (forall x, In x kps <-> In x kps') ->
  (forall k p p', In (k, p) kps -> In (k, p') kps -> p = p') ->
  Forall (fun kp => settles (fst kp) (p_extract (snd kp))) kps ->
  exists a b, comp_extract (map snd kps) g ctx = Some a /\ comp_extract (map snd kps') g ctx = Some b /\ same_context a b.
Proof.
  intros Hm Hf HF.
  assert (Hf' : forall k p p', In (k, p) kps' -> In (k, p') kps' -> p = p') by (intros k p p' A B; eapply Hf; apply Hm; eassumption).
  assert (HF' : Forall (fun kp => settles (fst kp) (p_extract (snd kp))) kps').
  { apply Forall_forall. intros x I. rewrite Forall_forall in HF. apply HF, Hm, I. }
  destruct (comp_settles kps g ctx Hf HF) as (a & Ea & Oa & Va). destruct (comp_settles kps' g ctx Hf' HF') as (b & Eb & Ob & Vb).
  exists a, b. split; [exact Ea|]. split; [exact Eb|]. intros k. destruct (in_dec str_eq_dec k (map fst kps)) as [I|N].
  - apply in_map_iff in I. destruct I as ([k2 p] & Ek & I). cbn in Ek. subst k2.
    rewrite Forall_forall in HF. destruct (HF _ I) as (f & _ & Hl). destruct (Hl g ctx) as (c & Ec & _). cbn [snd] in Ec.
    rewrite (Va k p I c Ec). symmetry. apply (Vb k p); [apply Hm; exact I|exact Ec].
  - rewrite Oa by exact N. symmetry. apply Ob. intros I. apply N. apply in_map_iff in I. destruct I as (x & Ex & I).
    apply in_map_iff. exists x. split; [exact Ex|apply Hm; exact I].
Qed.

Lemma dset_twice {V} (k : str) (v w : V) d : dset k v (dset k w d) = dset k v d.
Proof.
  induction d as [|[q x] d IH]; cbn; [destruct (eq_dec k k); congruence|].
  destruct (eq_dec k q) as [->|N]; cbn; [destruct (eq_dec q q); congruence|]. destruct (eq_dec k q); [congruence|]. now rewrite IH.
Qed.
Lemma dset_swap {V} (k k' : str) (v v' : V) d : k <> k' -> In k' (keys d) -> dset k' v' (dset k v d) = dset k v (dset k' v' d).
Proof.
  intros N. induction d as [|[q x] d IH]; cbn [keys map fst In]; [intros []|]. intros I. cbn.
  destruct (eq_dec k q) as [->|N1]; cbn.
  - destruct (eq_dec k' q) as [->|N2]; [congruence|]. cbn. destruct (eq_dec q q); congruence.
  - destruct (eq_dec k' q) as [->|N2]; cbn; [destruct (eq_dec k q); congruence|]. destruct (eq_dec k q); [congruence|].
    f_equal. apply IH. destruct I as [I|I]; [congruence|exact I].
Qed.
Lemma dset_dupdate_dset {V} (l : dict str V) : forall k v w d, (forall q, In q (keys l) -> In q (keys d)) ->
  dset k v (dupdate (dset k w d) l) = dset k v (dupdate d l).
Proof.
  induction l as [|[q x] l IH]; intros k v w d H; [apply dset_twice|].
  change (dset k v (dupdate (dset q x (dset k w d)) l) = dset k v (dupdate (dset q x d) l)).
  destruct (str_eq_dec k q) as [->|N]; [rewrite dset_twice; reflexivity|].
  rewrite dset_swap by (try exact N; apply H; left; reflexivity). apply IH.
  intros p I. apply In_keys_dset. right. apply H. right. exact I.
Qed.
Lemma dupdate_snoc {V} (l : dict str V) k v d : dupdate d (l ++ [(k, v)]) = dset k v (dupdate d l).
Proof. unfold dupdate. rewrite fold_left_app. reflexivity. Qed.
Lemma keys_in_dupdate {V} (l : dict str V) : forall d q, In q (keys l) \/ In q (keys d) -> In q (keys (dupdate d l)).
Proof.
  induction l as [|[k v] l IH]; intros d q H; [destruct H as [[]|H]; exact H|].
  change (In q (keys (dupdate (dset k v d) l))). apply IH. rewrite In_keys_dset. destruct H as [[E|H]|H]; [right; left; symmetry; exact E|left; exact H|right; right; exact H].
Qed.
Lemma dupdate_idem {V} (l : dict str V) d : dupdate (dupdate d l) l = dupdate d l.
Proof.
  induction l as [|[k v] l IH] using rev_ind; [reflexivity|]. rewrite !dupdate_snoc.
  rewrite dset_dupdate_dset, IH; [reflexivity|]. intros q I. apply keys_in_dupdate. left. exact I.
Qed.

Definition bag_entries (nvs : list (str * str)) : dict str obj :=
  map (fun nv => (strip py_space (unquote_plus (fst nv)), OStr (strip py_space (unquote_plus (snd nv))))) nvs.
Lemma bag_obj_dict nvs : forall old, bag_obj nvs old = match nvs with [] => old | _ => ODict (dupdate (get_dict old) (bag_entries nvs)) end.
Proof.
  induction nvs as [|nv nvs IH]; intros old; [reflexivity|].
  change (bag_obj (nv :: nvs) old) with (bag_obj nvs (ODict (dset (strip py_space (unquote_plus (fst nv)))
     (OStr (strip py_space (unquote_plus (snd nv)))) (get_dict old)))). rewrite IH. destruct nvs; reflexivity.
Qed.
Lemma bag_obj_idem nvs old : bag_obj nvs (bag_obj nvs old) = bag_obj nvs old.
Proof. rewrite !bag_obj_dict. destruct nvs as [|nv nvs]; [reflexivity|]. cbn [get_dict]. rewrite dupdate_idem. reflexivity. Qed.

Lemma tc_settles : settles SPAN_KEY (p_extract tc_propagator).
Proof.
  exists (fun g old => match get_value SPAN_KEY (tc_extract g []) with ONone => old | v => v end).
  split; [intros g x; destruct (get_value SPAN_KEY (tc_extract g [])); reflexivity|].
  intros g ctx. exists (tc_extract g ctx). split; [reflexivity|].
  destruct (tc_extract_cases g ctx) as [[E Hn]|(h & rest & v & t & s & f & ext & Hg & Ht & Ha & E & Hv)].
  - destruct (tc_extract_cases g []) as [[E0 _]|(h & rest & v & t & s & f & ext & Hg & Ht & Ha & _)].
    + rewrite E, E0. split; [reflexivity|]. intros; reflexivity.
    + exfalso. apply Hn. exists h, rest, v, t, s, f, ext. auto.
  - rewrite E. rewrite (tc_extract_accept g [] h rest v t s f ext Hg Ht Ha).
    unfold set_span_in_context. rewrite !get_value_set_eq. split; [reflexivity|].
    intros k' Hk'. now apply get_value_set_ne.
Qed.
Lemma bag_settles py_str : settles BAGGAGE_KEY (p_extract (bag_propagator py_str)).
Proof.
  exists (fun g old => bag_obj (last_of g) old). split; [intros; apply bag_obj_idem|]. intros g ctx. exists (bag_extract g ctx).
  split; [reflexivity|]. rewrite bag_extract_last. split; [apply fold_put_entry|].
  intros k' Hk'. now apply fold_put_frame.
Qed.

(** *** The two standard propagators in any order, any number of times *)
Section Standard.
Variable py_str : obj -> str.
Variable ep : str -> pentry.
Hypothesis Hep : api_propagators py_str ep.
Definition member_of (n : str) : str * propagator :=
  if str_eqb n (lit "tracecontext") then (SPAN_KEY, tc_propagator) else (BAGGAGE_KEY, bag_propagator py_str).

Lemma standard_members l ps : both_standard l -> Forall2 (fun n p => ep n = LoadsPropagator p) l ps -> ps = map snd (map member_of l).
Proof.
  intros Hb F. assert (Hi : forall n, In n l -> n = lit "tracecontext" \/ n = lit "baggage") by (intros n; apply Hb). clear Hb.
  induction F as [|n p l ps E F IH]; [reflexivity|]. cbn [map]. f_equal; [|apply IH; intros; apply Hi; right; assumption].
  destruct Hep as [H1 H2]. destruct (Hi n (or_introl eq_refl)) as [->| ->]; cbn; congruence.
Qed.
Lemma standard_loads l : both_standard l -> exists ps, Forall2 (fun n p => ep n = LoadsPropagator p) l ps.
Proof.
  intros Hb. assert (Hi : forall n, In n l -> n = lit "tracecontext" \/ n = lit "baggage") by (intros n; apply Hb). clear Hb.
  induction l as [|n l IH]; [exists []; constructor|]. destruct IH as (ps & F); [intros; apply Hi; right; assumption|].
  destruct Hep as [H1 H2]. destruct (Hi n (or_introl eq_refl)) as [->| ->]; eexists; constructor; eassumption.
Qed.
Lemma member_in l x : both_standard l -> In x (map member_of l) <-> x = (SPAN_KEY, tc_propagator) \/ x = (BAGGAGE_KEY, bag_propagator py_str).
Proof.
  intros Hb. rewrite in_map_iff. split.
  - intros (n & <- & I). apply Hb in I. destruct I as [->| ->]; [left|right]; reflexivity.
  - intros [->| ->]; [exists (lit "tracecontext")|exists (lit "baggage")]; (split; [reflexivity|apply Hb; auto]).
Qed.
Lemma standard_extract l ps g ctx : both_standard l -> Forall2 (fun n p => ep n = LoadsPropagator p) l ps ->
  exists a b, comp_extract ps g ctx = Some a /\ comp_extract (default_propagators py_str) g ctx = Some b /\ same_context a b.
Proof.
  intros Hb F. rewrite (standard_members _ _ Hb F).
  change (default_propagators py_str) with (map snd (map member_of [lit "tracecontext"; lit "baggage"])).
  apply comp_same_members.
  - intros x. rewrite !member_in; [reflexivity| |exact Hb]. intros n. cbn. intuition congruence.
  - intros k p p' A B. apply member_in in A; [|exact Hb]. apply member_in in B; [|exact Hb].
    destruct A as [A|A], B as [B|B]; try congruence; assert (SPAN_KEY = BAGGAGE_KEY) by congruence; discriminate.
  - apply Forall_forall. intros x I. apply member_in in I; [|exact Hb]. destruct I as [->| ->]; [apply tc_settles|apply bag_settles].
Qed.

Lemma tc_never_raises ctx : inj_raised (tc_inject ctx) = false.
Proof. unfold tc_inject. destruct (is_invalid_context _); reflexivity. Qed.
Lemma standard_inject l ps ctx : both_standard l -> Forall2 (fun n p => ep n = LoadsPropagator p) l ps ->
  inj_raised (comp_inject ps ctx) = inj_raised (bag_inject py_str ctx)
  /\ (inj_raised (bag_inject py_str ctx) = false ->
      comp_inject ps ctx = Injected (flat_map (fun n => inj_writes (p_inject (snd (member_of n)) ctx)) l) false).
Proof.
  intros Hb F. rewrite (standard_members _ _ Hb F).
  assert (Hi : forall n, In n l -> n = lit "tracecontext" \/ n = lit "baggage") by (intros n; apply Hb).
  assert (Ib : In (lit "baggage") l) by (apply Hb; auto). clear Hb F.
  destruct (inj_raised (bag_inject py_str ctx)) eqn:R.
  - split; [|discriminate]. induction l as [|n l IH]; [destruct Ib|]. cbn [map comp_inject].
    destruct (Hi n (or_introl eq_refl)) as [->| ->].
    + change (p_inject (snd (member_of (lit "tracecontext"))) ctx) with (tc_inject ctx). rewrite tc_never_raises. cbn [inj_raised].
      apply IH; [intros; apply Hi; right; assumption|]. destruct Ib as [E|Ib]; [discriminate|exact Ib].
    + change (p_inject (snd (member_of (lit "baggage"))) ctx) with (bag_inject py_str ctx). rewrite R. exact R.
  - assert (E : comp_inject (map snd (map member_of l)) ctx = Injected (flat_map (fun n => inj_writes (p_inject (snd (member_of n)) ctx)) l) false).
    { clear Ib. induction l as [|n l IH]; [reflexivity|]. cbn [map comp_inject flat_map].
      assert (Rn : inj_raised (p_inject (snd (member_of n)) ctx) = false).
      { destruct (Hi n (or_introl eq_refl)) as [->| ->]; [apply tc_never_raises|exact R]. }
      rewrite Rn, IH by (intros; apply Hi; right; assumption). reflexivity. }
    split; [rewrite E; reflexivity|intros _; exact E].
Qed.

(** What a header is set to when every member's writes agree. *)
Lemma dget_dupdate_agree {V} (l : dict str V) k v : forall d, (forall w, In (k, w) l -> w = v) -> In k (keys l) -> dget k (dupdate d l) = Some v.
Proof.
  induction l as [|[q x] l IH]; intros d Ha I; [destruct I|]. change (dget k (dupdate (dset q x d) l) = Some v).
  destruct (in_dec str_eq_dec k (keys l)) as [Il|Nl]; [apply IH; [intros; apply Ha; right; assumption|exact Il]|].
  destruct I as [E|I]; [|tauto]. cbn in E. subst q. rewrite (Ha x (or_introl eq_refl)).
  clear - Nl. assert (G : dget k (dset k v d) = Some v) by apply dget_dset_eq. revert G. generalize (dset k v d) as D.
  induction l as [|[q x] l IH]; intros D G; [exact G|]. change (dget k (dupdate (dset q x D) l) = Some v). apply IH.
  - intros C. apply Nl. right. exact C.
  - rewrite dget_dset_ne; [exact G|]. intros ->. apply Nl. left. reflexivity.
Qed.
Lemma dget_dupdate_none {V} (l : dict str V) k : forall d, ~ In k (keys l) -> dget k (dupdate d l) = dget k d.
Proof.
  induction l as [|[q x] l IH]; intros d N; [reflexivity|]. change (dget k (dupdate (dset q x d) l) = dget k d).
  rewrite IH by (intros C; apply N; right; exact C). apply dget_dset_ne. intros ->. apply N. left. reflexivity.
Qed.
Lemma dget_default_set w k c : (forall v v', In (k, v) w -> In (k, v') w -> v = v') ->
  (exists v, In (k, v) w /\ dget k (default_set w c) = Some (CStr v)) \/ ((forall v, ~ In (k, v) w) /\ dget k (default_set w c) = dget k c).
Proof.
  intros Ha. unfold default_set. destruct (in_dec str_eq_dec k (map fst w)) as [I|N].
  - left. apply in_map_iff in I. destruct I as ([k' v] & E & I). cbn in E. subst k'. exists v. split; [exact I|].
    apply dget_dupdate_agree.
    + intros x Ix. apply in_map_iff in Ix. destruct Ix as ([q y] & Eq & Iy). cbn in Eq. injection Eq as -> <-. f_equal. eapply Ha; eassumption.
    + unfold keys. rewrite map_map. apply in_map_iff. exists (k, v). split; [reflexivity|exact I].
  - right. split; [intros v I; apply N; apply in_map_iff; exists (k, v); split; [reflexivity|exact I]|].
    apply dget_dupdate_none. unfold keys. rewrite map_map. cbn. exact N.
Qed.
Lemma same_writes_same_carrier w w' c : (forall x, In x w <-> In x w') -> (forall k v v', In (k, v) w -> In (k, v') w -> v = v') ->
  forall k, dget k (default_set w c) = dget k (default_set w' c).
Proof.
  intros Hs Ha k.
  destruct (dget_default_set w k c (Ha k)) as [(v & I & E)|(N & E)],
    (dget_default_set w' k c (fun v v' A B => Ha k v v' (proj2 (Hs _) A) (proj2 (Hs _) B))) as [(v' & I' & E')|(N' & E')]; rewrite E, E'.
  - f_equal. f_equal. eapply Ha; [exact I|apply Hs; exact I'].
  - exfalso. apply (N' v), Hs, I.
  - exfalso. apply (N v'), Hs, I'.
  - reflexivity.
Qed.

Lemma standard_writes l ctx x : both_standard l ->
  In x (flat_map (fun n => inj_writes (p_inject (snd (member_of n)) ctx)) l) <-> In x (inj_writes (tc_inject ctx)) \/ In x (inj_writes (bag_inject py_str ctx)).
Proof.
  intros Hb. rewrite in_flat_map. split.
  - intros (n & I & H). apply Hb in I. destruct I as [->| ->]; [left|right]; exact H.
  - intros [H|H]; [exists (lit "tracecontext")|exists (lit "baggage")]; (split; [apply Hb; auto|exact H]).
Qed.
Lemma writes_agree ctx k v v' :
  In (k, v) (inj_writes (tc_inject ctx)) \/ In (k, v) (inj_writes (bag_inject py_str ctx)) ->
  In (k, v') (inj_writes (tc_inject ctx)) \/ In (k, v') (inj_writes (bag_inject py_str ctx)) -> v = v'.
Proof.
  unfold tc_inject, bag_inject. destruct (is_invalid_context _); cbn [inj_writes];
    destruct (get_all ctx) as [|x l]; cbn [inj_writes]; try (destruct (format_pairs py_str (x :: l)); cbn [inj_writes]);
    destruct (sc_state (current_span_context ctx)); cbn [In]; intros A B;
    repeat match goal with H : _ \/ _ |- _ => destruct H end; try contradiction; try congruence;
    repeat match goal with H : (_, _) = (_, _) |- _ => injection H as ? ? end; subst; discriminate.
Qed.
End Standard.

Lemma tc_extract_ext g g' ctx : (forall k, g_get g k = g_get g' k) -> tc_extract g ctx = tc_extract g' ctx.
Proof. intros H. unfold tc_extract. rewrite (H TRACEPARENT), (H TRACESTATE). reflexivity. Qed.
Lemma bag_extract_ext g g' ctx : (forall k, g_get g k = g_get g' k) -> bag_extract g ctx = bag_extract g' ctx.
Proof. intros H. unfold bag_extract. rewrite (H BAGGAGE). reflexivity. Qed.

Lemma round_trip_listed py_str ep1 ep2 e1 e2 l1 l2 ctx sc (d : list (str * str)) base c0 :
  api_propagators py_str ep1 -> api_propagators py_str ep2 ->
  listed_propagators e1 l1 -> both_standard l1 -> listed_propagators e2 l2 -> both_standard l2 ->
  current_span_context ctx = sc -> sc_is_valid sc = true -> (0 <= sc_flags sc < 256)%Z ->
  ts_wf (sc_state sc) ->
  get_all ctx = map (fun kv => (fst kv, OStr (snd kv))) d -> d <> [] -> NoDup (map fst d) ->
  Forall (fun kv => fst kv <> [] /\ unicode_text (fst kv) /\ trimmed (fst kv)
                    /\ unicode_text (snd kv) /\ trimmed (snd kv)) d ->
  dget TRACESTATE c0 = None ->
  exists ps1 ps2 w, global_propagators ep1 e1 = Ok ps1 /\ global_propagators ep2 e2 = Ok ps2 /\
   comp_inject ps1 ctx = Injected w false /\
   ((forall h, In (BAGGAGE, h) w ->
       length d <= 180 /\ (N.of_nat (length h) <= 8192)%N
       /\ Forall (fun p => (N.of_nat (length p) <= 4096)%N) (split_on 44 h)) ->
    exists got, comp_extract ps2 (default_getter (default_set w c0)) base = Some got
    /\ current_span_context got
         = SC (sc_trace_id sc) (sc_span_id sc) true (sc_flags sc) (sc_state sc)
    /\ (forall name, get_baggage name got =
          match dget name d with Some v => OStr v | None => get_baggage name base end)
    /\ (forall k, k <> SPAN_KEY -> k <> BAGGAGE_KEY -> get_value k got = get_value k base)).
Proof.
  intros P1 P2 L1 B1 L2 B2 Hsc Hv Hfl Hts Hall Hd Hnd Hok Hc0.
  destruct (default_round_trip py_str ctx sc d base c0 Hsc Hv Hfl Hts Hall Hd Hnd Hok Hc0) as (wd & Ed & Hd').
  destruct (standard_loads py_str ep1 P1 l1 B1) as (ps1 & F1). destruct (standard_loads py_str ep2 P2 l2 B2) as (ps2 & F2).
  assert (Rb : inj_raised (bag_inject py_str ctx) = false).
  { cbn in Ed. rewrite tc_never_raises in Ed. destruct (inj_raised (bag_inject py_str ctx)) eqn:R; [|reflexivity]. injection Ed as _ R'. congruence. }
  destruct (standard_inject py_str ep1 P1 l1 ps1 ctx B1 F1) as (_ & W1). specialize (W1 Rb).
  set (w := flat_map (fun n => inj_writes (p_inject (snd (member_of py_str n)) ctx)) l1) in *.
  assert (Hw : forall x, In x w <-> In x wd).
  { assert (Bd : both_standard [lit "tracecontext"; lit "baggage"]) by (intros n; cbn; intuition congruence).
    assert (Ewd : wd = flat_map (fun n => inj_writes (p_inject (snd (member_of py_str n)) ctx)) [lit "tracecontext"; lit "baggage"]).
    { cbn in Ed. rewrite tc_never_raises, Rb in Ed. injection Ed as Ed. rewrite <- Ed. reflexivity. }
    intros x. rewrite Ewd. unfold w. rewrite !standard_writes by assumption. reflexivity. }
  exists ps1, ps2, w. split; [apply global_spec; eauto|]. split; [apply global_spec; eauto|]. split; [exact W1|].
  intros Hlim. destruct (Hd' (fun h I => Hlim h (proj2 (Hw _) I))) as (got & Eg & G1 & G2 & G3).
  assert (Hcar : forall k, dget k (default_set w c0) = dget k (default_set wd c0)).
  { apply same_writes_same_carrier; [exact Hw|]. intros k v v' A B. unfold w in A, B. rewrite standard_writes in A, B by assumption.
    eapply writes_agree; eassumption. }
  assert (Hgg : forall k, g_get (default_getter (default_set w c0)) k = g_get (default_getter (default_set wd c0)) k).
  { intros k. cbn. rewrite Hcar. reflexivity. }
  destruct (standard_extract py_str ep2 P2 l2 ps2 (default_getter (default_set w c0)) base B2 F2) as (a & b & Ea & Eb & Sab).
  assert (Hb : b = got).
  { cbn in Eb, Eg. rewrite (tc_extract_ext _ _ base Hgg), (bag_extract_ext _ _ _ Hgg) in Eb. congruence. }
  subst b. exists a. split; [exact Ea|]. split; [|split].
  - rewrite <- G1. unfold current_span_context, get_current_span. rewrite (Sab SPAN_KEY). reflexivity.
  - intros name. rewrite <- G2. unfold get_baggage, get_all. rewrite (Sab BAGGAGE_KEY). reflexivity.
  - intros k N1 N2. rewrite Sab. apply G3; assumption.
Qed.
