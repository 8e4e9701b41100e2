(** Property theorems C23-C27 and C60: SDK spans, span status, span limits.
    Vocabulary: Model_Span.v (spans, calls, schedules), Spec_Span.v (what a span with a history shows, status
    rule, limit precedence), Spec_Attr.v (cleaning, windows). *)
From Verif Require Import Spec_Span Proof_Span.

(** A span is created with [new_span] and started ([sw_init]); then threads' calls and the calls of the processor
    happen in any order. *)

(** C23: once an end() has happened, nothing that happens later changes any field of the span, and its end time
    is the one of the first end(). *)
Theorem C23_ended_span_never_changes :
  forall lim name ctx parent kind attrs links s t now (before after : list act),
    limits_ok lim -> new_span lim name ctx parent kind attrs links = Ok s ->
    let w := fold_left sw_step before (sw_init s t now) in
    first_end before <> None ->
    w_span (fold_left sw_step after w) = w_span w /\ sp_end (w_span w) = first_end before.
Proof. exact c23_frozen. Qed.
Print Assumptions C23_ended_span_never_changes.

(** C24: whatever the schedule, the span shows what the calls before the first end() recorded; the processor got
    on_start first, with nothing recorded, and on_end once for an ended span (when the end() call has come that
    far), with the span as it is from then on. *)
Theorem C24_processor_sees_the_span_once :
  forall lim name ctx parent kind attrs links s t now (acts : list act),
    limits_ok lim -> new_span lim name ctx parent kind attrs links = Ok s ->
    let w := fold_left sw_step acts (sw_init s t now) in
    carries lim name ctx parent kind attrs links (at_time t now) (until_end acts) (w_span w)
    /\ sp_end (w_span w) = first_end acts
    /\ (exists s0, hd_error (w_log w) = Some (POnStart s0)
                   /\ carries lim name ctx parent kind attrs links (at_time t now) [] s0)
    /\ match first_end acts with
       | None => w_pending w = 0 /\ ended_spans (w_log w) = []
       | Some _ => w_pending w + length (ended_spans (w_log w)) = 1
                   /\ forall x, In x (ended_spans (w_log w)) -> x = w_span w
       end.
Proof. exact c24_once. Qed.
Print Assumptions C24_processor_sees_the_span_once.

(** The event of a recorded exception, without limits and extra attributes. *)
Theorem C24_exception_event :
  forall e esc a, ba_new None (exc_pairs e [] esc) true None = Ok a ->
    ba_dict a =
    [(lit "exception.type", PStr false
        (if (str_eqb (xi_module e) [] || str_eqb (xi_module e) (lit "builtins"))%bool then xi_qualname e
         else xi_module e ++ lit "." ++ xi_qualname e));
     (lit "exception.message", PStr false (xi_str e));
     (lit "exception.stacktrace", PStr false (xi_stack e));
     (lit "exception.escaped", PStr false (if esc then lit "True" else lit "False"))] /\ ba_dropped a = 0.
Proof. exact exception_event_attrs. Qed.
Print Assumptions C24_exception_event.

(** Attributes given to [record_exception] are added, and win over the four; also if their values cannot be stored: then
    there is none of that name.  Keys that are not strings change nothing. *)
Theorem C24_exception_attributes :
  forall e esc (given : pairs) a,
    NoDup (string_keys given) ->
    ba_new None (exc_pairs e given esc) true None = Ok a ->
    forall k,
      (forall v v', holds given k v -> k <> [] -> cleaned None v v' -> dget k (ba_dict a) = Some v')
      /\ (forall v, holds given k v -> (k = [] \/ forall v', ~ cleaned None v v') -> dget k (ba_dict a) = None)
      /\ ((forall v, ~ holds given k v) -> dget k (ba_dict a) = dget k (exc_attributes e esc)).
Proof. exact exception_attrs_any. Qed.
Print Assumptions C24_exception_attributes.
Example C24_exception_example :
  option_map ba_dict (match ba_new None (exc_pairs (ExcI (lit "m") (lit "E") (lit "msg") (lit "st"))
                          [(PInt false 7, PBool true); (PStr false (lit "exception.message"), PStr false (lit "x")); (PStr true (lit "a"), PInt false 1);
                           (PStr false (lit "exception.escaped"), PNone)] false) true None
                      with Ok a => Some a | _ => None end)
  = Some [(lit "exception.type", PStr false (lit "m.E")); (lit "exception.message", PStr false (lit "x"));
          (lit "exception.stacktrace", PStr false (lit "st")); (lit "a", PInt false 1)].
Proof. vm_compute. reflexivity. Qed.

(** A schedule in which two threads end the span, one of them between the other's end time and on_end. *)
Example C23_C24_example :
  let lim := SLimits (Some 128%Z) (Some 1%Z) (Some 1%Z) (Some 1%Z) (Some 1%Z) (Some 1%Z) None (Some 2%Z) in
  let ctx := SC 1 2 false 1 [] in
  let acts := [ACall (OSetAttributes [(PStr false (lit "a"), PStr false (lit "xyz"))]);
               ACall (OAddEvent (lit "e1") [] None 5); ACall (OAddEvent (lit "e2") [] (Some 6%Z) 7);
               ACall (OAddLink (Some ctx) []); ACall (OUpdateName (lit "new"));
               ACall (OSetStatus (SACode ERROR) (PStr false (lit "bad")));
               ACall (OEnd None 9); ACall (OSetAttributes [(PStr false (lit "b"), PInt false 1)]);
               ACall (OEnd None 10); AOnEnd; ACall (OUpdateName (lit "late")); AOnEnd] in
  limits_ok lim
  /\ exists s, new_span lim (lit "n") ctx None 0 [] [] = Ok s
     /\ let w := fold_left sw_step acts (sw_init s None 1) in
        first_end acts = Some 9%Z /\ length (ended_spans (w_log w)) = 1 /\ w_pending w = 0
        /\ sp_name (w_span w) = lit "new" /\ sp_end (w_span w) = Some 9%Z
        /\ ba_dict (sp_attrs (w_span w)) = [(lit "a", PStr false (lit "xy"))]
        /\ map ev_name (bl_items (sp_events (w_span w))) = [lit "e2"] /\ bl_dropped (sp_events (w_span w)) = 1
        /\ length (bl_items (sp_links (w_span w))) = 1
        /\ sp_status (w_span w) = St ERROR (PStr false (lit "bad")).
Proof.
  split.
  - unfold limits_ok, not_negative. cbn. repeat split; intros z [= <-]; lia.
  - eexists. split; [reflexivity|]. vm_compute. repeat split.
Qed.

(** C25: the status of a span with a history is the one of the deciding request: requests for UNSET do not count,
    the first OK is final, otherwise the last request; the description as [kept_description] says. *)
Theorem C25_status_of_history :
  forall lim name ctx parent kind attrs links s t now (acts : list act),
    limits_ok lim -> new_span lim name ctx parent kind attrs links = Ok s ->
    let r := final_request (flat_map requested (until_end acts)) in
    sp_status (w_span (fold_left sw_step acts (sw_init s t now))) = St (fst r) (kept_description r).
Proof.
  intros. destruct (c24_once lim name ctx parent kind attrs links s t now acts) as [Hc _]; auto.
  exact (ca_status _ _ _ _ _ _ _ _ _ _ Hc).
Qed.
Print Assumptions C25_status_of_history.

(** The same, call by call. *)
Theorem C25_status_transitions :
  forall s o, sp_end s = None -> sp_start s <> None ->
    (st_code (sp_status s) = OK -> sp_status (span_call s o) = sp_status s)
    /\ (forall c d, requested o = [(c, d)] -> c = UNSET -> sp_status (span_call s o) = sp_status s)
    /\ (forall c d, requested o = [(c, d)] -> c <> UNSET -> st_code (sp_status s) <> OK ->
          sp_status (span_call s o) = St c (kept_description (c, d)))
    /\ (requested o = [] -> is_end o = false -> sp_status (span_call s o) = sp_status s).
Proof. exact c25_step. Qed.
Print Assumptions C25_status_transitions.

(** A non-empty description goes with ERROR and is a string. *)
Theorem C25_description_only_with_error :
  forall lim name ctx parent kind attrs links t0 ops s,
    carries lim name ctx parent kind attrs links t0 ops s ->
    ~ false_value (st_desc (sp_status s)) ->
    st_code (sp_status s) = ERROR /\ exists sub d, st_desc (sp_status s) = PStr sub d.
Proof. exact c25_description. Qed.
Print Assumptions C25_description_only_with_error.

Example C25_example :
  final_request [(ERROR, PStr false (lit "x")); (UNSET, PNone); (OK, PStr false (lit "y")); (ERROR, PNone)]
    = (OK, PStr false (lit "y"))
  /\ kept_description (OK, PStr false (lit "y")) = PNone
  /\ kept_description (ERROR, PStr false (lit "x")) = PStr false (lit "x")
  /\ kept_description (ERROR, PInt false 3) = PNone.
Proof. vm_compute. repeat split. Qed.

(** C26: the limits hold for every span that the API can produce; events and links that do not fit are counted
    ([carries]), and so are attributes ([attrs_of]). *)
Theorem C26_limits_hold :
  forall lim name ctx parent kind attrs links s t now (acts : list act),
    limits_ok lim -> new_span lim name ctx parent kind attrs links = Ok s ->
    let x := w_span (fold_left sw_step acts (sw_init s t now)) in
    at_most (max_span_attributes lim) (length (ba_dict (sp_attrs x)))
    /\ at_most (max_events lim) (length (bl_items (sp_events x)))
    /\ at_most (max_links lim) (length (bl_items (sp_links x)))
    /\ (forall e, In e (bl_items (sp_events x)) -> at_most (max_event_attributes lim) (length (ba_dict (ev_attrs e))))
    /\ (forall k, In k (bl_items (sp_links x)) -> at_most (max_link_attributes lim) (length (ba_dict (lk_attrs k)))).
Proof.
  intros. eapply c26_limits; [eassumption|].
  destruct (c24_once lim name ctx parent kind attrs links s t now acts) as [Hc _]; eauto.
Qed.
Print Assumptions C26_limits_hold.

(** ... the dropped counters: events and links exactly, attributes at least the missing keys. *)
Theorem C26_dropped_counters_partial :
  forall lim name ctx parent kind attrs links s t now (acts : list act),
    limits_ok lim -> new_span lim name ctx parent kind attrs links = Ok s ->
    let x := w_span (fold_left sw_step acts (sw_init s t now)) in
    let ops := until_end acts in
    (exists evs, collected (event_of lim) ops evs
       /\ length (bl_items (sp_events x)) + bl_dropped (sp_events x) = length evs)
    /\ (exists given later, collected (given_link lim) links given /\ collected (link_of lim) ops later
       /\ length (bl_items (sp_links x)) + bl_dropped (sp_links x) = length given + length later)
    /\ (exists t', takes (nlim (max_span_attribute_length lim)) (attrs ++ assigned ops) t'
       /\ (max_span_attributes lim <> Some 0%Z ->
           length (latest t') <= length (ba_dict (sp_attrs x)) + ba_dropped (sp_attrs x) <= length t')).
Proof.
  intros lim name ctx parent kind attrs links s t now acts Hl E x ops.
  destruct (c24_once lim name ctx parent kind attrs links s t now acts Hl E) as [[_ _ _ _ _ Ha He Hk _] _].
  destruct He as (evs & H1 & H2 & H3). destruct Hk as (g & l & H4 & H5 & H6 & H7).
  destruct Ha as (t' & H8 & H9 & _ & H10).
  split; [|split].
  - exists evs. split; [exact H1|]. unfold x. rewrite H2, H3. destruct (max_events lim); cbn; rewrite ?lastn_length; lia.
  - exists g, l. split; [exact H4|]. split; [exact H5|]. unfold x. rewrite H6, H7, <- app_length.
    destruct (max_links lim); cbn; rewrite ?lastn_length; lia.
  - exists t'. split; [exact H8|exact H10].
Qed.
Print Assumptions C26_dropped_counters_partial.

(** A Link object that is given to two spans: creating the second span replaces the attributes of the link in
    the first one, and its dropped counter no longer accounts for what was cut. *)
Theorem C26_shared_link_refuted :
  exists lim (h : link_heap),
    let h1 := rebind_links lim [0] h in
    let h2 := rebind_links lim [0] h1 in
    limits_ok lim
    /\ map (fun l => (length (link_items (snd l)), link_dropped (snd l))) h = [(2, 0)]
    /\ map (fun l => (length (link_items (snd l)), link_dropped (snd l))) h1 = [(1, 1)]
    /\ map (fun l => (length (link_items (snd l)), link_dropped (snd l))) h2 = [(1, 0)].
Proof.
  exists (SLimits None None None None None (Some 1%Z) None None),
         [(SC 1 2 false 1 [], LRaw [(PStr false (lit "a"), PInt false 1); (PStr false (lit "b"), PInt false 2)])].
  split; [|vm_compute; repeat split].
  unfold limits_ok, not_negative. cbn. repeat split; try discriminate. intros z [= <-]. lia.
Qed.
Print Assumptions C26_shared_link_refuted.

Example C26_example :
  let lim := SLimits (Some 128%Z) (Some 2%Z) (Some 0%Z) (Some 1%Z) (Some 1%Z) (Some 1%Z) None None in
  let ctx := SC 1 2 false 1 [] in
  exists s, new_span lim (lit "n") ctx None 0 [(PStr false (lit "a"), PInt false 1)] [Some (Some ctx, [])] = Ok s
  /\ let x := w_span (fold_left sw_step
        [ACall (OAddEvent (lit "1") [] None 0); ACall (OAddEvent (lit "2") [] None 0);
         ACall (OAddEvent (lit "3") [(PStr false (lit "x"), PInt false 1); (PStr false (lit "y"), PInt false 2)] None 0);
         ACall (OSetAttributes [(PStr false (lit "b"), PInt false 2)])] (sw_init s None 0)) in
     map ev_name (bl_items (sp_events x)) = [lit "2"; lit "3"] /\ bl_dropped (sp_events x) = 1
     /\ map (fun e => ba_dropped (ev_attrs e)) (bl_items (sp_events x)) = [0; 1]
     /\ bl_dropped (sp_links x) = 1 /\ keys (ba_dict (sp_attrs x)) = [lit "b"] /\ ba_dropped (sp_attrs x) = 1.
Proof. eexists. split; [reflexivity|]. vm_compute. repeat split. Qed.

(** C27: SpanLimits raises exactly when some limit is set by a bad value, and otherwise has the limits that the
    precedence gives, for all arguments, environments and (parameters) lower-casing and integer parsing. *)
Theorem C27_precedence_partial :
  forall pylower pyint environ a,
    let env v := env_source pylower pyint (environ v) in
    (some_bad env a -> span_limits pylower pyint environ a = Raises "ValueError")
    /\ (~ some_bad env a -> span_limits pylower pyint environ a = Ok (limits_from env a)).
Proof. exact span_limits_spec. Qed.
Print Assumptions C27_precedence_partial.

Theorem C27_never_negative :
  forall pylower pyint environ a r, span_limits pylower pyint environ a = Ok r -> limits_ok r.
Proof. exact span_limits_ok. Qed.
Print Assumptions C27_never_negative.

(** UNSET does not remove the global attribute count limit: the default of 128 applies. *)
Theorem C27_unset_global_refuted :
  exists a, max_attributes a = Some (-1)%Z
    /\ forall pylower pyint, exists r, span_limits pylower pyint (fun _ => None) a = Ok r
         /\ max_attributes r = Some 128%Z /\ max_span_attributes r = Some 128%Z.
Proof.
  exists (SLimits (Some (-1)%Z) None None None None None None None). split; [reflexivity|].
  intros. eexists. split; [reflexivity|]. split; reflexivity.
Qed.
Print Assumptions C27_unset_global_refuted.

Example C27_example :
  let environ v := if str_eqb v (lit "OTEL_ATTRIBUTE_COUNT_LIMIT") then Some (lit "7")
                   else if str_eqb v (lit "OTEL_SPAN_EVENT_COUNT_LIMIT") then Some (lit " ") else None in
  let pyint s := if str_eqb s (lit "7") then Some 7%Z else None in
  span_limits lower pyint environ (SLimits None None (Some 3%Z) (Some (-1)%Z) None (Some 2%Z) (Some 9%Z) None)
  = Ok (SLimits (Some 7%Z) None (Some 3%Z) None (Some 7%Z) (Some 2%Z) (Some 9%Z) (Some 9%Z))
  /\ span_limits lower pyint environ (SLimits None (Some (-2)%Z) None None None None None None) = Raises "ValueError".
Proof. vm_compute. split; reflexivity. Qed.

(** C60: leaving the with block of a span ends it; an exception that leaves the block is recorded as an escaped
    exception event and sets the status to ERROR unless it is OK. *)
Theorem C60_with_block_exception :
  forall s e tname now1 now2, limits_ok (sp_limits s) -> sp_start s <> None -> sp_end s = None ->
    let s' := fold_left span_call (exit_calls true true (Some (e, tname)) now1 now2) s in
    sp_end s' = Some now2
    /\ sp_status s' = (if code_is (st_code (sp_status s)) OK then sp_status s
                       else St ERROR (PStr false (tname ++ lit ": " ++ xi_str e)))
    /\ (exists ev, sp_events s' = bl_append ev (sp_events s)
                   /\ event_of (sp_limits s) (ORecordException e [] None true now1) ev)
    /\ sp_name s' = sp_name s /\ sp_attrs s' = sp_attrs s /\ sp_links s' = sp_links s /\ sp_ctx s' = sp_ctx s
    /\ sp_start s' = sp_start s.
Proof. exact exit_with_exception. Qed.
Print Assumptions C60_with_block_exception.

Theorem C60_with_block_ends :
  forall s e rec_exc set_st now1 now2, sp_start s <> None ->
    sp_end (fold_left span_call (exit_calls rec_exc set_st e now1 now2) s) <> None.
Proof. exact exit_ends. Qed.
Print Assumptions C60_with_block_ends.

Example C60_example :
  let lim := SLimits None None None None None None None None in
  let e := ExcI (lit "builtins") (lit "ValueError") (lit "x") (lit "tb") in
  exists s, new_span lim (lit "n") (SC 1 2 false 1 []) None 0 [] [] = Ok s
  /\ let s' := fold_left span_call (exit_calls true true (Some (e, lit "ValueError")) 5 6) (start_locked None 1 s) in
     sp_status s' = St ERROR (PStr false (lit "ValueError: x")) /\ sp_end s' = Some 6%Z
     /\ map ev_name (bl_items (sp_events s')) = [lit "exception"].
Proof. eexists. split; [reflexivity|]. vm_compute. repeat split. Qed.
