(** C62, with the other propagators: a trace goes on in another process. *)
From Verif Require Import Spec_Remote Proof_Remote Proof_Sampling Proof_Composite.

(** B3: a span started in one process, injected with the multi-header or the single-header format into any carrier that has no B3 entries, and extracted
    in another process where a span is started with a parent based sampler: the trace goes on there (see Spec_Remote); the trace state is not sent. *)
Theorem C62_b3 :
  forall (G1 G2 : Type) (gt1 gs1 : G1 -> Z * G1) (gt2 gs2 : G2 -> Z * G2) nd
    tr1 cur1 c1 n1 k1 a1 l1 st1 now1 g1 s g1' tr2 root base c0 n2 k2 a2 l2 st2 now2 g2 inject,
    limits_ok (t_limits tr1) -> limits_ok (t_limits tr2) -> valid_ids gt1 gs1 -> valid_ids gt2 gs2 ->
    start_span gt1 gs1 tr1 cur1 c1 n1 k1 a1 l1 st1 now1 g1 = (Ok s, g1') ->
    (inject = b3_multi_inject /\ dget (lit "b3") c0 = None /\ dget (lit "x-b3-flags") c0 = None) \/ inject = b3_single_inject ->
    t_sampler tr2 = parent_based root default_delegates ->
    let sent := default_set (inj_writes (inject (set_span_in_context (as_obj s) cur1))) c0 in
    let got := b3_extract nd (default_getter sent) base in
    exists s2, fst (start_span gt2 gs2 tr2 got None n2 k2 a2 l2 st2 now2 g2) = Ok s2 /\ goes_on s s2 /\ sc_state (started_context s2) = [].
Proof.
  intros G1 G2 gt1 gs1 gt2 gs2 nd tr1 cur1 c1 n1 k1 a1 l1 st1 now1 g1 s g1' tr2 root base c0 n2 k2 a2 l2 st2 now2 g2 inject Hl1 Hl2 Hv1 Hv2 E Hi Hr sent got.
  destruct (first_span gt1 gs1 tr1 cur1 c1 n1 k1 a1 l1 st1 now1 g1 s g1' Hl1 Hv1 E) as (V & _).
  assert (Hgot : got = set_span_in_context (OSpan (SC (sc_trace_id (started_context s)) (sc_span_id (started_context s)) true (sampled_flag (started_context s)) []) false None) base).
  { unfold got, sent. destruct Hi as [(-> & H1 & H2)| ->].
    - apply (b3_multi_round_trip nd _ (started_context s)); auto. apply current_after.
    - apply (b3_single_round_trip nd _ (started_context s)); auto. apply current_after. }
  apply (child_of gt2 gs2 s got tr2 root); auto. rewrite Hgot. exact (current_after (NonRecording _) base).
Qed.
Print Assumptions C62_b3.

(** Jaeger: the same, with the baggage, whose names do not contain "uberctx-" and whose values are Unicode text without white space around. *)
Theorem C62_jaeger :
  forall (G1 G2 : Type) (gt1 gs1 : G1 -> Z * G1) (gt2 gs2 : G2 -> Z * G2) nd py_str
    tr1 cur1 c1 n1 k1 a1 l1 st1 now1 g1 s g1' tr2 root base (c0 : carrier) n2 k2 a2 l2 st2 now2 g2 (d : list (str * str)),
    limits_ok (t_limits tr1) -> limits_ok (t_limits tr2) -> valid_ids gt1 gs1 -> valid_ids gt2 gs2 ->
    start_span gt1 gs1 tr1 cur1 c1 n1 k1 a1 l1 st1 now1 g1 = (Ok s, g1') ->
    get_all cur1 = map (fun kv => (fst kv, OStr (snd kv))) d -> NoDup (map fst d) ->
    Forall (fun kv => unicode_text (snd kv) /\ trimmed (snd kv) /\ free_of (lit "uberctx-") (fst kv)) d ->
    (forall k, In k (keys c0) -> forall r, k <> (lit "uberctx-") ++ r) ->
    t_sampler tr2 = parent_based root default_delegates ->
    exists w got, jaeger_inject py_str (set_span_in_context (as_obj s) cur1) = Injected w false
      /\ jaeger_extract nd (default_getter (default_set w c0)) base = Some got
      /\ (exists s2, fst (start_span gt2 gs2 tr2 got None n2 k2 a2 l2 st2 now2 g2) = Ok s2 /\ goes_on s s2 /\ sc_state (started_context s2) = [])
      /\ (forall name, get_baggage name got = match dget name d with Some v => OStr v | None => get_baggage name base end).
Proof.
  intros G1 G2 gt1 gs1 gt2 gs2 nd py_str tr1 cur1 c1 n1 k1 a1 l1 st1 now1 g1 s g1' tr2 root base c0 n2 k2 a2 l2 st2 now2 g2 d Hl1 Hl2 Hv1 Hv2 E Hd Hn Hf Hk Hr.
  destruct (first_span gt1 gs1 tr1 cur1 c1 n1 k1 a1 l1 st1 now1 g1 s g1' Hl1 Hv1 E) as (V & F & P & _).
  set (ctx := set_span_in_context (as_obj s) cur1).
  assert (Cu : current_span_context ctx = started_context s) by apply current_after.
  assert (Ga : get_all ctx = map (fun kv => (fst kv, OStr (snd kv))) d) by (rewrite <- Hd; apply get_all_span).
  assert (Pn : (0 <= parent_of (get_current_span ctx))%Z).
  { apply parent_nonneg. intros x p Ep. unfold ctx in Ep. rewrite cur_obj in Ep. apply P. rewrite Ep. f_equal. rewrite <- (cur_obj_sc s), Ep. reflexivity. }
  destruct (jaeger_round_trip py_str nd ctx (started_context s) d base c0 Cu V (proj1 F) Pn Ga Hn Hf Hk) as (w & Ew & Ex).
  destruct (jaeger_baggage_round_trip py_str nd ctx (started_context s) d base c0 Cu V (proj1 F) Pn Ga Hn Hf Hk) as (w' & got & Ew' & Ex' & B).
  rewrite Ew in Ew'. injection Ew' as <-. exists w, got. split; [exact Ew|]. split; [exact Ex'|]. split; [|exact B].
  apply (child_of gt2 gs2 s got tr2 root); auto. rewrite Ex in Ex'. injection Ex' as <-. exact (current_after (NonRecording _) _).
Qed.
Print Assumptions C62_jaeger.

(** What the Jaeger header says: trace id, span id, the id of the parent under which the span was started (0 without one, and for a span that does not
    record) and the flags, of which "debug" is set if the span is sampled. *)
Theorem C62_jaeger_header :
  forall (G1 : Type) (gt1 gs1 : G1 -> Z * G1) py_str tr1 cur1 c1 n1 k1 a1 l1 st1 now1 g1 s g1' ctx,
    limits_ok (t_limits tr1) -> valid_ids gt1 gs1 ->
    start_span gt1 gs1 tr1 cur1 c1 n1 k1 a1 l1 st1 now1 g1 = (Ok s, g1') ->
    let sc := started_context s in
    let above := current_span_context (match c1 with Some c => c | None => cur1 end) in
    exists rest, inj_writes (jaeger_inject py_str (set_span_in_context (as_obj s) ctx)) =
      (lit "uber-trace-id",
       join (lit ":") [format_trace_id (sc_trace_id sc); format_span_id (sc_span_id sc);
                       format_span_id (match s with Recording _ => if sc_is_valid above then sc_span_id above else 0 | NonRecording _ => 0 end);
                       if flags_sampled (sc_flags sc) then lit "03" else lit "00"]) :: rest.
Proof.
  intros G1 gt1 gs1 py_str tr1 cur1 c1 n1 k1 a1 l1 st1 now1 g1 s g1' ctx Hl1 Hv1 E sc above.
  destruct (first_span gt1 gs1 tr1 cur1 c1 n1 k1 a1 l1 st1 now1 g1 s g1' Hl1 Hv1 E) as (V & F & P & R).
  eexists. unfold jaeger_inject. rewrite cur_obj, cur_obj_sc, valid_not_invalid by exact V. cbn [inj_writes]. f_equal. f_equal. fold sc.
  rewrite jaeger_parent with (above := above) by exact R. pose proof (jaeger_flags gt1 gs1 tr1 cur1 c1 n1 k1 a1 l1 st1 now1 g1 s g1' Hl1 E) as FL. cbv zeta in FL. fold sc in FL. rewrite FL.
  cbn [join]. rewrite <- ?app_assoc. reflexivity.
Qed.
Print Assumptions C62_jaeger_header.

(** A span that is started under a received one, and sent on. *)
Example C62_jaeger_case :
  let tr := Tracer (parent_based ALWAYS_ON default_delegates) (SLimits (Some 128%Z) (Some 128%Z) (Some 128%Z) (Some 128%Z) (Some 128%Z) (Some 128%Z) None None) in
  let gen := fun g : Z => ((g + 1)%Z, (g + 1)%Z) in
  let above := [(SPAN_KEY, OSpan (SC 7 9 true 1 []) false None); (BAGGAGE_KEY, ODict [(lit "k", OStr (lit "a b"))])] in
  exists s g', start_span gen gen tr above None (lit "server") 0 [] [] None 5 41%Z = (Ok s, g')
    /\ inj_writes (jaeger_inject (fun _ => []) (set_span_in_context (as_obj s) above))
       = [(lit "uber-trace-id", lit "00000000000000000000000000000007:000000000000002a:0000000000000009:03"); (lit "uberctx-k", lit "a%20b")].
Proof. eexists. eexists. split; [vm_compute; reflexivity|]. vm_compute. reflexivity. Qed.
