(** C90: what the OTLP requests of a batch processor say about the spans of the program, under every interleaving of its
    threads and the worker. *)
From Verif Require Import Spec_Tracing Proof_Tracing Proof_Otlp Proof_OtlpFields Props_Otlp.
From Coq Require Import Lia Permutation.
Local Open Scope nat_scope.

(** Every span that the exporter gets is a sampled span of the program that has ended, with all and only what was
    recorded on it until its first end(); and it gets none twice. *)
Theorem C90_exported : forall (G : Type) (gen_trace_id gen_span_id : G -> Z * G) tr res maxq maxb,
  limits_ok (t_limits tr) -> valid_ids gen_trace_id gen_span_id -> built_in (t_sampler tr) -> 1 <= maxq -> 1 <= maxb ->
  forall g h, let w := tw_run gen_trace_id gen_span_id tr res maxq maxb g h in
  NoDup (map fst (exported w))
  /\ forall n x, In (n, x) (exported w) ->
       is_span (t_limits tr) res w h n x /\ flags_sampled (sc_flags (sp_ctx (rs_span x))) = true.
Proof. intros. split; [now apply exported_once|]. intros n x. now apply exported_is. Qed.
Print Assumptions C90_exported.

(** In the request for a batch each of its spans has exactly one message, which says what the program recorded; it is
    under the provider's resource and the scope of the span's tracer. *)
Theorem C90_request : forall (G : Type) (gen_trace_id gen_span_id : G -> Z * G) tr res maxq maxb float_int,
  limits_ok (t_limits tr) -> valid_ids gen_trace_id gen_span_id -> built_in (t_sampler tr) -> 1 <= maxq -> 1 <= maxb ->
  resource_ok res ->
  forall g h, let w := tw_run gen_trace_id gen_span_id tr res maxq maxb g h in
  (forall n a later, started_by h n a later -> scope_ok (c_scope a)) ->
  forall b req, In (XExport b) (b_log (tw_proc w)) -> batch_request float_int b = Some req ->
  exists arranged, Permutation b arranged
    /\ Forall2 (fun i m => let '(group, scope_group, message) := m in
         (exists x, is_span (t_limits tr) res w h (fst i) x /\ span_read (rs_span x) message /\ rs_scope x = rs_scope (snd i))
         /\ resource_read res group
         /\ exists s, python_equal_scopes float_int s (rs_scope (snd i)) /\ scope_read s scope_group)
       arranged (flatten req).
Proof.
  intros G gt gs tr res maxq maxb fi L V B Q1 B1 R g h w SO b req I E.
  assert (IS : forall n x, In (n, x) b -> is_span (t_limits tr) res w h n x).
  { intros n x J. apply (C90_exported G gt gs tr res maxq maxb L V B Q1 B1 g h). unfold exported, handed_over.
    apply in_flat_map. exists (XExport b). auto. }
  assert (OK : items_ok rs_resource rs_scope (map snd b)).
  { apply Forall_forall. intros x J. apply in_map_iff in J. destruct J as ([n y] & <- & J). destruct (IS n y J) as (a & later & ctx & S1 & _ & _ & _ & _ & E1 & E2).
    cbn [snd]. rewrite E1, E2.
    split; [exact R|exact (SO _ _ _ S1)]. }
  destruct (C52_each_span fi (map snd b) req OK E) as (arr & P & F).
  apply Permutation_sym in P. apply Permutation_map_inv in P. destruct P as (arr' & -> & P).
  exists arr'. split; [exact P|].
  assert (F' : Forall2 (fun i x => In i b /\ (let '(g0, h0, m) := x in span_read (rs_span (snd i)) m
      /\ (exists r, In r (map rs_resource (map snd b)) /\ equal_resources r (rs_resource (snd i)) /\ resource_read r g0)
      /\ (exists s, In s (map rs_scope (map snd b)) /\ same_scope_key fi s (rs_scope (snd i)) = true /\ scope_read s h0))) arr' (flatten req)).
  { assert (IN : incl arr' b) by (intros i J; eapply Permutation_in; [apply Permutation_sym, P|exact J]).
    clear P. revert IN F. generalize (flatten req). induction arr' as [|i arr' IH]; intros l IN F; inversion F as [|? ? ? ? F1 F2]; subst; constructor.
    - split; [apply IN; now left|exact F1].
    - apply IH; [|exact F2]. intros j J. apply IN. now right. }
  eapply Forall2_impl; [|exact F']. intros [n x] [[g0 h0] m] _ (J & S1 & (r & Ir & _ & Rr) & (s & Is & Es & Rs)). cbn [fst snd] in *.
  split; [exists x; auto|]. split.
  - apply in_map_iff in Ir. destruct Ir as (y & <- & Iy). apply in_map_iff in Iy. destruct Iy as ([n' y'] & <- & Iy). cbn [snd] in Rr.
    destruct (IS _ _ Iy) as (? & ? & ? & _ & _ & _ & _ & _ & _ & E2). rewrite E2 in Rr. exact Rr.
  - exists s. split; [|exact Rs]. apply (proj2 (C52_keys fi)); [| |exact Es].
    + apply in_map_iff in Is. destruct Is as (y & <- & Iy). unfold items_ok in OK. rewrite Forall_forall in OK. exact (proj2 (OK y Iy)).
    + unfold items_ok in OK. rewrite Forall_forall in OK. exact (proj2 (OK x (in_map snd b (n, x) J))).
Qed.
Print Assumptions C90_request.

(** A span with a parent (local or remote) has its trace id and, with a sampler of the SDK, its trace state; with a parent
    based sampler, whatever its root sampler is, it is sampled iff its parent is. *)
Theorem C90_family : forall (G : Type) (gen_trace_id gen_span_id : G -> Z * G) tr res maxq maxb,
  limits_ok (t_limits tr) -> valid_ids gen_trace_id gen_span_id ->
  forall g h, let w := tw_run gen_trace_id gen_span_id tr res maxq maxb g h in
  forall n a later c p, started_by h n a later -> context_of w n = Some c -> parent_of w n (c_place a) = Some p ->
  sc_trace_id c = sc_trace_id p
  /\ (built_in (t_sampler tr) -> sc_state c = sc_state p)
  /\ (forall root, t_sampler tr = parent_based root default_delegates ->
        flags_sampled (sc_flags c) = flags_sampled (sc_flags p) /\ sc_state c = sc_state p).
Proof. intros. eapply family; eassumption. Qed.
Print Assumptions C90_family.

(** In the messages the tree is that of the program: the message of a span started in span [m] has the span id of [m]'s
    message as its parent and the same trace id; one started without a valid span has no parent. *)
Theorem C90_tree : forall (G : Type) (gen_trace_id gen_span_id : G -> Z * G) tr res maxq maxb,
  limits_ok (t_limits tr) -> valid_ids gen_trace_id gen_span_id -> built_in (t_sampler tr) -> 1 <= maxq -> 1 <= maxb ->
  forall g h, let w := tw_run gen_trace_id gen_span_id tr res maxq maxb g h in
  forall n a later x p, started_by h n a later -> In (n, x) (exported w) -> encode_span (rs_span x) = Some p ->
  (forall m base y q, c_place a = InSpan m base -> m < n -> In (m, y) (exported w) -> encode_span (rs_span y) = Some q ->
     pb_parent p = pb_span_id q /\ pb_trace_id p = pb_trace_id q)
  /\ (forall c, c_place a = InContext c -> sc_is_valid (current_span_context c) = false -> pb_parent p = [])
  /\ (forall c, c_place a = InContext c -> sc_is_valid (current_span_context c) = true ->
        id_read 8 (Some (sc_span_id (current_span_context c))) (pb_parent p)
        /\ id_read 16 (Some (sc_trace_id (current_span_context c))) (pb_trace_id p)).
Proof.
  intros G gt gs tr res maxq maxb L V B Q1 B1 g h w n a later x p S1 I E.
  assert (K : forall k z, In (k, z) (exported w) -> exists sw sco, nth_error (tw_spans w) k = Some (Recording sw, sco) /\ rs_span z = w_span sw).
  { intros k z J. apply exported_acc in J; auto. destruct (run_pinv gt gs tr res maxq maxb L V B g h) as [P _].
    destruct (p_acc _ _ _ P _ _ J) as (sw & sco & N & _ & _ & ->). eauto. }
  destruct (K n x I) as (sw & sco & N & X).
  destruct (recording_is gt gs tr res maxq maxb L V B g h n a later sw sco S1 N) as (_ & C & _).
  apply encode_span_ok in E. destruct E as [((R1 & R2 & R3 & _) & _) _]. rewrite X in R1, R2, R3.
  rewrite (ca_parent _ _ _ _ _ _ _ _ _ _ C) in R3.
  assert (CT : context_of w n = Some (sp_ctx (w_span sw))) by (unfold context_of; rewrite N; reflexivity).
  split; [|split].
  - intros m base y q PL LT J E2. destruct (K m y J) as (sw' & sco' & N' & X').
    apply encode_span_ok in E2. destruct E2 as [((T1 & T2 & _) & _) _]. rewrite X' in T1, T2.
    assert (PA : parent_of w n (c_place a) = Some (sp_ctx (w_span sw'))).
    { rewrite PL. cbn [parent_of]. apply Nat.ltb_lt in LT. rewrite LT. unfold context_of. rewrite N'. reflexivity. }
    unfold w in PA. rewrite PA in R3. split; [exact (id_read_unique 8 _ _ _ R3 T2)|].
    destruct (C90_family G gt gs tr res maxq maxb L V g h n a later _ _ S1 CT PA) as (F & _).
    rewrite F in R1. exact (id_read_unique 16 _ _ _ R1 T1).
  - intros c PL NV. rewrite PL in R3. unfold parent_of, span_in in R3. rewrite NV in R3. exact R3.
  - intros c PL VA. assert (PA : parent_of w n (c_place a) = Some (current_span_context c)).
    { rewrite PL. unfold parent_of, span_in. now rewrite VA. }
    unfold w in PA. rewrite PA in R3. split; [exact R3|].
    destruct (C90_family G gt gs tr res maxq maxb L V g h n a later _ _ S1 CT PA) as (F & _). rewrite F in R1. exact R1.
Qed.
Print Assumptions C90_tree.

(** Nothing is lost: a sampled span that was ended, with its end() call past the queue, when force_flush was called has been
    exported when force_flush has returned True (and did not find the processor shut down), unless the full queue dropped
    it, which does not happen before more than [maxq] spans have been accepted. *)
Theorem C90_force_flush : forall (G : Type) (gen_trace_id gen_span_id : G -> Z * G) tr res maxq maxb,
  limits_ok (t_limits tr) -> valid_ids gen_trace_id gen_span_id -> built_in (t_sampler tr) -> 1 <= maxq -> 1 <= maxb ->
  forall g before t later,
  let w0 := tw_run gen_trace_id gen_span_id tr res maxq maxb g before in
  let w := tw_run gen_trace_id gen_span_id tr res maxq maxb g (before ++ VProc (PFlush t) :: later) in
  in_no_call item (b_thr (tw_proc w0) t) = true -> no_call_by t later ->
  (exists n0, b_thr (tw_proc w) t = TFlushRet n0 false true) ->
  forall n a rest ctx, started_by before n a rest -> context_of w0 n = Some ctx -> flags_sampled (sc_flags ctx) = true ->
  end_of n rest <> None -> handed_in w0 n ->
  exists x, (In (n, x) (exported w) \/ evicted w (n, x))
    /\ (length (b_acc (tw_proc w)) <= maxq -> In (n, x) (exported w)).
Proof. intros. eapply flush_exports; eauto. Qed.
Print Assumptions C90_force_flush.

(** The same for shutdown, called on a processor that was not shut down. *)
Theorem C90_shutdown : forall (G : Type) (gen_trace_id gen_span_id : G -> Z * G) tr res maxq maxb,
  limits_ok (t_limits tr) -> valid_ids gen_trace_id gen_span_id -> built_in (t_sampler tr) -> 1 <= maxq -> 1 <= maxb ->
  forall g before t later,
  let w0 := tw_run gen_trace_id gen_span_id tr res maxq maxb g before in
  let w := tw_run gen_trace_id gen_span_id tr res maxq maxb g (before ++ VProc (PShutdown t) :: later) in
  in_no_call item (b_thr (tw_proc w0) t) = true -> no_call_by t later -> b_done (tw_proc w0) = false ->
  (exists n0 first, b_thr (tw_proc w) t = TShutRet n0 first) ->
  forall n a rest ctx, started_by before n a rest -> context_of w0 n = Some ctx -> flags_sampled (sc_flags ctx) = true ->
  end_of n rest <> None -> handed_in w0 n ->
  exists x, (In (n, x) (exported w) \/ evicted w (n, x))
    /\ (length (b_acc (tw_proc w)) <= maxq -> In (n, x) (exported w)).
Proof. intros. eapply flush_exports; eauto. Qed.
Print Assumptions C90_shutdown.

(** A request span with a child in another thread; the child ends first; then a flush by a third thread. *)
Definition ex_trace_id (g : Z) : Z * Z := ((1 + g mod 1000)%Z, (g + 1)%Z).
Definition ex_tracer := Tracer (parent_based ALWAYS_ON default_delegates) limits0.
Definition ex_resource := res_new [(PStr false (lit "service.name"), PStr false (lit "shop"))] None.
Definition ex_scope := Some (Scope (lit "lib") None [] []).
Definition ex_before : list tev :=
  [VStart ex_scope None (InContext []) (lit "request") 1%Z [(PStr false (lit "path"), PStr false (lit "/a"))] [] None 10;
   VStart ex_scope None (InSpan 0 []) (lit "query") 2%Z [] [] None 11;
   VCall 1 (OSetAttributes [(PStr false (lit "rows"), PInt false 3)]);
   VCall 0 (OUpdateName (lit "GET /a"));
   VCall 1 (OEnd None 12); VCall 1 (OSetAttributes [(PStr false (lit "late"), PInt false 1)]); VCall 1 (OEnd None 13);
   VOnEnd 1 7; VProc (PStep 7); VCall 0 (OEnd None 20); VOnEnd 0 8; VProc (PStep 8); VProc (PStep 8); VProc (PStep 7);
   VProc (PStep 8); VProc (PStep 7)].
Definition ex_later : list tev :=
  [VProc (PStep 9); VProc (PStep 9)] ++ repeat (VProc PWork) 30 ++ [VProc (PStep 9)].
Definition ex_run := tw_run ex_trace_id ex_trace_id ex_tracer ex_resource 10 10 1%Z.
Lemma ex_ids : valid_ids ex_trace_id ex_trace_id.
Proof. split; intros g; unfold ex_trace_id, fst; pose proof (Z.mod_pos_bound g 1000); lia. Qed.
Lemma ex_built : built_in (t_sampler ex_tracer).
Proof. apply bi_parent; apply bi_static. Qed.
Lemma ex_limits : limits_ok (t_limits ex_tracer).
Proof. repeat split; intros z H; discriminate. Qed.
Example C90_example :
  let w := ex_run (ex_before ++ VProc (PFlush 9) :: ex_later) in
  map fst (exported w) = [0; 1]
  /\ b_thr (tw_proc w) 9 = TFlushRet 2 false true
  /\ in_no_call item (b_thr (tw_proc (ex_run ex_before)) 9) = true /\ handed_in (ex_run ex_before) 1
  /\ exists b req, b_log (tw_proc w) = [XExport b] /\ batch_request (fun _ => None) b = Some req
     /\ map (fun m => (pb_name (snd m), pb_trace_id (snd m), pb_span_id (snd m), pb_parent (snd m), pb_end (snd m))) (flatten req)
        = [(lit "GET /a", repeat 0%N 15 ++ [2%N], repeat 0%N 7 ++ [3%N], [], 20%Z);
           (lit "query", repeat 0%N 15 ++ [2%N], repeat 0%N 7 ++ [4%N], repeat 0%N 7 ++ [3%N], 12%Z)]
     /\ map (fun m => map fst (pb_attrs (snd m))) (flatten req) = [[lit "path"]; [lit "rows"]].
Proof.
  split; [vm_compute; reflexivity|]. split; [vm_compute; reflexivity|]. split; [vm_compute; reflexivity|]. split.
  { split; [vm_compute; intros sw sco H; injection H as <- _; reflexivity|]. intros t x.
    assert (K : b_thr (tw_proc (ex_run ex_before)) t = TIdle \/ exists y, b_thr (tw_proc (ex_run ex_before)) t = TOnEndRet y true).
    { destruct (Nat.eq_dec t 7) as [->|]; [right; eexists; vm_compute; reflexivity|].
      destruct (Nat.eq_dec t 8) as [->|]; [right; eexists; vm_compute; reflexivity|]. left.
      do 10 (destruct t as [|t]; [solve [vm_compute; reflexivity|lia]|]). vm_compute. reflexivity. }
    destruct K as [->|(y & ->)]; split; discriminate. }
  eexists _, _. split; [vm_compute; reflexivity|]. split; [vm_compute; reflexivity|]. split; vm_compute; reflexivity.
Qed.
