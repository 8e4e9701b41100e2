(** C120: without an SDK the API changes nothing, and the W3C propagator passes traces on. *)
From Verif Require Import Spec_NoSdk Proof_NoSdk.
Local Open Scope nat_scope.

(** Whatever the propagator, the state and what the other threads and tasks do: a program sends and is answered what its blocks say, it ends
    as they say, and afterwards the current context is what it was. *)
Theorem C120_lexical : forall extract inject u l rt log,
  let '(rt', log', out) := arun extract inject u l rt log in
  get_current u rt' = get_current u rt
  /\ log' = log ++ fst (seens extract inject l (get_current u rt))
  /\ out = snd (seens extract inject l (get_current u rt)).
Proof.
  intros extract inject u l rt log. pose proof (program_good extract inject u l rt log) as H.
  destruct (arun extract inject u l rt log) as [[rt' log'] out]. destruct H as (N & L & O). split; [now apply Proof_Runtime.nested_restores|now split].
Qed.
Print Assumptions C120_lexical.

(** A program with the instrumentation of [start_as_current_span] and the calls on spans does what the program without it does. *)
Theorem C120_transparent : forall extract inject u l rt log,
  let '(rt1, log1, out1) := arun extract inject u l rt log in
  let '(rt2, log2, out2) := arun extract inject u (bares l) rt log in
  log1 = log2 /\ out1 = out2 /\ get_current u rt1 = get_current u rt2.
Proof.
  intros extract inject u l rt log. pose proof (C120_lexical extract inject u l rt log) as A. pose proof (C120_lexical extract inject u (bares l) rt log) as B.
  destruct (arun extract inject u l rt log) as [[rt1 log1] out1]. destruct (arun extract inject u (bares l) rt log) as [[rt2 log2] out2].
  rewrite program_bare in B. destruct A as (-> & -> & ->), B as (-> & -> & ->). now repeat split.
Qed.
Print Assumptions C120_transparent.

(** If no span of the current context records, nor one that a message brings, then [is_recording()] is false all the time. *)
Theorem C120_never_records : forall extract inject u l rt,
  (forall ctx c, no_recording ctx -> no_recording (extract ctx c)) ->
  no_recording (get_current u rt) ->
  ~ In (AAnswered true) (snd (fst (arun extract inject u l rt []))).
Proof.
  intros extract inject u l rt X Q. pose proof (C120_lexical extract inject u l rt []) as A.
  destruct (arun extract inject u l rt []) as [[rt1 log1] out1]. destruct A as (_ & -> & _). cbn [fst snd app].
  apply quiet_seens; [exact X|apply Forall_forall; intros s _; now apply quiet_seen|exact Q].
Qed.
Print Assumptions C120_never_records.
Theorem C120_never_records_w3c : forall u l rt, no_recording (get_current u rt) -> ~ In (AAnswered true) (snd (fst (arun w3c_in w3c_out u l rt []))).
Proof. intros. apply C120_never_records; [exact w3c_quiet|assumption]. Qed.
Print Assumptions C120_never_records_w3c.

(** A process that receives a trace in an acceptable traceparent header, and that has spans of the tracer, baggage and exceptions in any
    arrangement, sends messages from which the next process gets the trace id, the parent's span id, the flags and the tracestate that
    this one got. *)
Theorem C120_passes_on : forall u c body rt h rest v t s f ext next sent,
  g_get (default_getter c) (lit "traceparent") = Some (h :: rest) -> traceparent_text h v t s f ext -> traceparent_acceptable v t s ext ->
  Forall passes body ->
  In (ASent sent) (snd (fst (arun w3c_in w3c_out u [AReceived c body] rt []))) ->
  current_span_context (w3c_in next sent)
  = SC (Z.of_N (hex_value t)) (Z.of_N (hex_value s)) true (Z.of_N (hex_value f))
       (match g_get (default_getter c) (lit "tracestate") with None => [] | Some hs => ts_from_header hs end).
Proof. exact passed_on. Qed.
Print Assumptions C120_passes_on.

Definition ex_message : carrier :=
  [(lit "traceparent", CStr (lit "00-0af7651916cd43dd8448eb211c80319c-b7ad6b7169203331-01")); (lit "tracestate", CStr (lit "vendor=x"))].
Definition ex_body : list astmt :=
  [AWith [ACalls; ABaggage (lit "k") (OStr (lit "v")) [AWith [ASend []; AAsk]]; AOthers (RAttach 1 []);
          ATry false [AWith [ARaise (Exc true (lit "ValueError") [] 0)]; ASend [(lit "lost", CStr [])]]; ASend [(lit "x", CStr (lit "y"))]]].
Example C120_example_passes : Forall passes ex_body.
Proof. constructor; [cbn; repeat split|constructor]. Qed.
Example C120_example :
  arun w3c_in w3c_out 0 [AReceived ex_message ex_body; ASend []] rt_init [] =
  (fst (fst (arun w3c_in w3c_out 0 [AReceived ex_message ex_body; ASend []] rt_init [])),
   [ASent ex_message; AAnswered false; ASent ((lit "x", CStr (lit "y")) :: ex_message); ASent []], Returned).
Proof. vm_compute. reflexivity. Qed.
Example C120_example_header :
  traceparent_text (lit "00-0af7651916cd43dd8448eb211c80319c-b7ad6b7169203331-01") (lit "00") (lit "0af7651916cd43dd8448eb211c80319c") (lit "b7ad6b7169203331") (lit "01") []
  /\ traceparent_acceptable (lit "00") (lit "0af7651916cd43dd8448eb211c80319c") (lit "b7ad6b7169203331") [].
Proof.
  assert (D : forall n s, length s = n -> forallb (fun c => (48 <=? c) && (c <=? 57) || (97 <=? c) && (c <=? 102))%N s = true -> lhex_digits n s).
  { intros n s L F. split; [exact L|]. apply Forall_forall. intros x I. rewrite forallb_forall in F. specialize (F x I). apply Bool.orb_true_iff in F as [F|F];
    apply Bool.andb_true_iff in F as [F1 F2]; apply N.leb_le in F1, F2; [left|right]; now split. }
  split.
  - repeat (split; [apply D; reflexivity|]). split; [now left|]. exists [], [], []. split; [constructor|]. split; [constructor|]. split; [now left|reflexivity].
  - repeat split; discriminate.
Qed.
Example C120_example_quiet : no_recording (get_current 0 rt_init).
Proof. intros sc p. discriminate. Qed.

(** The other way to make a span current, [use_span(tracer.start_span(...))], does not pass traces on: what is received is not sent, in every
    program and whatever was received. *)
Theorem C120_use_span_refuted : forall u c rt e r st c0,
  arun w3c_in w3c_out u [AReceived c [AUse e r st [ASend c0]]] rt [] =
  (fst (fst (arun w3c_in w3c_out u [AReceived c [AUse e r st [ASend c0]]] rt [])), [ASent c0], Returned).
Proof.
  intros u c rt e r st c0. pose proof (C120_lexical w3c_in w3c_out u [AReceived c [AUse e r st [ASend c0]]] rt []) as A.
  destruct (arun w3c_in w3c_out u [AReceived c [AUse e r st [ASend c0]]] rt []) as [[rt1 log1] out1]. destruct A as (_ & -> & ->). cbn [fst snd].
  f_equal. f_equal. cbn [app seens seen fst snd].
  assert (W : w3c_out (no_span (w3c_in (get_current u rt) c)) = []).
  { unfold w3c_out, tc_inject, no_span, current_span_context, get_current_span, get_value. now rewrite Proof_Dict.dget_dset_eq. }
  now rewrite W.
Qed.
Print Assumptions C120_use_span_refuted.
