(** C131: what is posted to Zipkin says what the program did, under every interleaving of its threads and the worker. *)
From Verif Require Import Spec_ZipkinTracing Proof_ZipkinTracing Proof_Tracing Proof_Otlp Props_Tracing.
From Coq Require Import Lia.
Local Open Scope nat_scope.

(** For each batch of the processor there is one post, whatever the collector answered to those before it; it is under the
    name of the service, and says for each span of the batch, in their order, what the program recorded on it until its
    first end().  No span is in two posts, or twice in one; all of them are sampled. *)
Theorem C131_posts : forall (G : Type) (gen_trace_id gen_span_id : G -> Z * G) tr res maxq maxb int_text float_text maxlen,
  limits_ok (t_limits tr) -> valid_ids gen_trace_id gen_span_id -> built_in (t_sampler tr) -> 1 <= maxq -> 1 <= maxb ->
  NoDup (keys (r_attrs res)) ->
  forall svc0 svc answers g h, service_of res svc -> kinds_known h ->
  let w := tw_run gen_trace_id gen_span_id tr res maxq maxb g h in
  let batches := exports (b_log (tw_proc w)) in
  Forall (fun b => 1 <= length b <= maxb) batches
  /\ NoDup (map fst (concat batches))
  /\ (forall i, In i (concat batches) -> flags_sampled (sc_flags (sp_ctx (rs_span (snd i)))) = true)
  /\ Forall2 (fun b p => fst p = svc
       /\ Forall2 (fun i z => is_span (t_limits tr) res w h (fst i) (snd i) /\ shows int_text float_text maxlen (snd i) z) b (snd p))
     batches (posted answers (encode_v2 int_text float_text maxlen) 0 (ZExp svc0 false) (b_log (tw_proc w))).
Proof.
  intros G gt gs tr res maxq maxb it ft maxlen L V B Q1 B1 ND svc0 svc answers g h SV KK w batches.
  assert (EX : exported w = concat batches).
  { unfold exported, handed_over, batches, exports. generalize (b_log (tw_proc w)). clear. induction l as [|[b|] l IH]; cbn; [reflexivity| |exact IH]. now rewrite IH. }
  destruct (C90_exported G gt gs tr res maxq maxb L V B Q1 B1 g h) as [N X]. fold w in N, X. rewrite EX in N, X.
  destruct (posts_of_run gt gs tr res maxq maxb L V B Q1 B1 it ft maxlen g h svc0 svc answers ND SV KK) as [A F].
  split; [exact A|]. split; [exact N|]. split; [intros [n x] I; exact (proj2 (X n x I))|].
  eapply Proof_Otlp.Forall2_impl; [|exact F]. intros b p _ (S1 & F2). split; [exact S1|].
  eapply Proof_Otlp.Forall2_impl; [|exact F2]. intros i z _ (C1 & _ & C2). auto.
Qed.
Print Assumptions C131_posts.

(** And the tree is the program's: what is sent for a span started in span [m] names [m]'s id as its parent and has its
    trace id; for one started without a valid span it has no parent; for one started under a remote span, this one's ids. *)
Theorem C131_tree : forall (G : Type) (gen_trace_id gen_span_id : G -> Z * G) tr res maxq maxb int_text float_text maxlen,
  limits_ok (t_limits tr) -> valid_ids gen_trace_id gen_span_id -> built_in (t_sampler tr) -> 1 <= maxq -> 1 <= maxb ->
  NoDup (keys (r_attrs res)) ->
  forall svc0 svc answers g h, service_of res svc -> kinds_known h ->
  let w := tw_run gen_trace_id gen_span_id tr res maxq maxb g h in
  let posts := posted answers (encode_v2 int_text float_text maxlen) 0 (ZExp svc0 false) (b_log (tw_proc w)) in
  let sent := sent_as (exports (b_log (tw_proc w))) posts in
  forall n a later z, started_by h n a later -> sent n z ->
  (forall m base z', c_place a = InSpan m base -> m < n -> sent m z' -> z_parent z = Some (z_id z') /\ z_trace z = z_trace z')
  /\ (forall c, c_place a = InContext c -> sc_is_valid (current_span_context c) = false -> z_parent z = None)
  /\ (forall c, c_place a = InContext c -> sc_is_valid (current_span_context c) = true ->
        hex_id 32 (sc_trace_id (current_span_context c)) (z_trace z)
        /\ exists t, z_parent z = Some t /\ hex_id 16 (sc_span_id (current_span_context c)) t).
Proof. intros. eapply tree_sent; eassumption. Qed.
Print Assumptions C131_tree.

(** The example of C90, sent to Zipkin. *)
Example C131_example :
  let h := ex_before ++ VProc (PFlush 9) :: ex_later in
  let w := ex_run h in
  NoDup (keys (r_attrs ex_resource)) /\ service_of ex_resource (PStr false (lit "shop")) /\ kinds_known h
  /\ map (fun p => (fst p, map (fun z => (z_name z, z_id z, z_parent z, z_kind z)) (snd p)))
       (posted (fun _ => Status 500) (encode_v2 (fun _ => lit "3") (fun _ => []) None) 0 (ZExp PNone false) (b_log (tw_proc w)))
     = [(PStr false (lit "shop"),
         [(lit "GET /a", lit "0000000000000003", None, Some (lit "SERVER"));
          (lit "query", lit "0000000000000004", Some (lit "0000000000000003"), Some (lit "CLIENT"))])].
Proof.
  split; [|split; [|split]].
  - vm_compute. repeat constructor; cbn; tauto || (intros [E|[]]; discriminate E) || idtac.
  - split; [vm_compute; reflexivity|]. exists false, 115%N, (lit "hop"). reflexivity.
  - intros n a later (b & ex & E & _). assert (I : In (VStart (c_scope a) ex (c_place a) (c_name a) (c_kind a) (c_attrs a) (c_links a) (c_start a) (c_now a)) (ex_before ++ VProc (PFlush 9) :: ex_later))
      by (rewrite E; apply in_or_app; right; now left).
    clear E. apply in_app_iff in I. destruct I as [I|[I|I]]; [|discriminate I|].
    + cbn in I. repeat match type of I with _ \/ _ => destruct I as [I|I] end; try contradiction; try discriminate I;
        injection I; intros; subst; rewrite <- ?H3, <- ?H4, <- ?H5; lia.
    + exfalso. unfold ex_later in I. apply in_app_iff in I. destruct I as [[I|[I|[]]]|I]; try discriminate I. apply in_app_iff in I.
      destruct I as [I|[I|[]]]; [apply repeat_spec in I|]; discriminate I.
  - vm_compute. reflexivity.
Qed.
