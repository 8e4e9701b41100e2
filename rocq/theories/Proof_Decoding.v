From Verif Require Export Spec_Decoding Proof_Utf8 Proof_Baggage Proof_B3Jaeger Proof_Env.
Theorem decoded_members g ctx h rest ps nvs :
  g_get g (lit "baggage") = Some (h :: rest) -> (N.of_nat (length h) <= 8192)%N -> ows_split true h ps -> taken ps nvs ->
  exists ts, Forall2 (fun nv t => entry_text true (fst nv) (fst t) /\ entry_text true (snd nv) (snd t)) nvs ts /\
  bag_extract g ctx = fold_left (fun c t => set_baggage (fst t) (OStr (snd t)) c) (firstn 180 ts) ctx.
Proof.
  intros G L O T. exists (map (fun nv => (strip py_space (unquote_plus (fst nv)), strip py_space (unquote_plus (snd nv)))) nvs). split.
  - clear. induction nvs as [|nv nvs IH]; constructor; [|exact IH]. split; apply entry_text_plus; reflexivity.
  - rewrite (bag_extract_spec g ctx h rest ps nvs G L O T). rewrite firstn_map.
    generalize (firstn 180 nvs) as l. intros l. revert ctx. induction l as [|nv l IH]; intros ctx; [reflexivity|]. cbn [map fold_left]. apply IH.
Qed.

Lemma jaeger_baggage_names g ks : forall ctx ctx', jaeger_baggage g ks ctx = Some ctx' ->
  (forall r, In (lit "uberctx-" ++ r) ks -> free_of (lit "uberctx-") r) ->
  forall name, (In (lit "uberctx-" ++ name) ks -> exists v vs t, g_get g (lit "uberctx-" ++ name) = Some (v :: vs) /\ entry_text false v t /\ get_baggage name ctx' = OStr t) /\
    (~ In (lit "uberctx-" ++ name) ks -> get_baggage name ctx' = get_baggage name ctx).
Proof.
  change (lit "uberctx-") with UBERCTX.
  induction ks as [|k ks IH]; intros ctx ctx' H F name; cbn [jaeger_baggage] in H.
  - injection H as <-. split; [intros []|reflexivity].
  - assert (F' : forall r, In (UBERCTX ++ r) ks -> free_of UBERCTX r) by (intros r R; refine (F r _); right; exact R).
    destruct (starts_with UBERCTX k) eqn:S.
    + apply starts_with_spec in S as (r & ->). destruct (first_element (g_get g (UBERCTX ++ r))) as [v|] eqn:E; [|discriminate].
      rewrite (remove_prefix (fun _ => None)) in H by (refine (F r _); left; reflexivity).
      assert (G : exists vs, g_get g (UBERCTX ++ r) = Some (v :: vs)).
      { destruct (g_get g (UBERCTX ++ r)) as [[|x xs]|]; try discriminate E. injection E as ->. eauto. }
      destruct (IH _ _ H F' name) as [I1 I2]. split.
      * intros [Q|Q]; [|apply I1, Q]. apply app_inv_head in Q. subst name. destruct (in_dec str_eq_dec (UBERCTX ++ r) ks) as [Y|Y]; [apply I1, Y|].
        destruct G as [vs G]. exists v, vs, (strip py_space (unquote v)). split; [exact G|]. split; [apply entry_text_path; reflexivity|].
        rewrite (I2 Y). destruct (cop_laws ctx) as (_ & _ & L & _). apply L.
      * intros Q. rewrite I2 by (intros Y; apply Q; right; exact Y). destruct (cop_laws ctx) as (_ & _ & _ & L & _). apply L. intros ->. apply Q. left. reflexivity.
    + destruct (IH _ _ H F' name) as [I1 I2].
      assert (K : k <> UBERCTX ++ name) by (intros ->; assert (starts_with UBERCTX (UBERCTX ++ name) = true) by (apply starts_with_spec; eauto); congruence).
      split; [intros [Q|Q]; [congruence|apply I1, Q]|]. intros Q. apply I2. intros Y. apply Q. right. exact Y.
Qed.
Theorem jaeger_entries nd g ctx ctx' h rest : g_get g (lit "uber-trace-id") = Some (h :: rest) -> jaeger_extract nd g ctx = Some ctx' ->
  (forall r, In (lit "uberctx-" ++ r) (g_keys g) -> free_of (lit "uberctx-") r) ->
  forall name, (In (lit "uberctx-" ++ name) (g_keys g) -> exists v vs t, g_get g (lit "uberctx-" ++ name) = Some (v :: vs) /\ entry_text false v t /\ get_baggage name ctx' = OStr t) /\
    (~ In (lit "uberctx-" ++ name) (g_keys g) -> get_baggage name ctx' = get_baggage name ctx).
Proof.
  intros G E F name. unfold jaeger_extract in E. change (lit "uber-trace-id") with UBER_TRACE_ID in G. rewrite G in E.
  destruct (jaeger_baggage g (g_keys g) ctx) as [ctx1|] eqn:J; [|discriminate].
  pose proof (jaeger_baggage_names g (g_keys g) ctx ctx1 J F name) as P.
  destruct (jaeger_parse nd (h :: rest)) as [[t s] f]. destruct (Z.eqb t 0 || Z.eqb s 0); injection E as <-; [exact P|].
  assert (B : forall c, get_baggage name (set_span_in_context c ctx1) = get_baggage name ctx1).
  { intros c. unfold set_span_in_context. destruct (cop_laws ctx1) as (_ & _ & _ & _ & _ & _ & _ & _ & L). apply L. discriminate. }
  rewrite B. exact P.
Qed.
