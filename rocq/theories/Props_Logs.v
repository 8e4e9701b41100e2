(** Property theorems C57 and C72-C76: logs.
    Vocabulary: Model_Logs.v (records, handler, loggers, processor, events), Spec_Logs.v (severity table, what a
    record keeps, what the handler shows, calls of the exporter), Spec_Attr.v ([takes]: the assignments that are
    valid, and their cleaned values). *)
From Verif Require Import Spec_Logs Spec_Runtime Proof_Attr Proof_Logs.

(** C57: a record with a positive (or no) attribute limit keeps the last accepted attributes and reports exactly
    the number of those it dropped. *)
Theorem C57_dropped_attributes_partial :
  forall now default (limit : option Z) (len : option nat) ts ob ti si fl tx sv body res attrs t x,
    (forall z, limit = Some z -> (0 < z)%Z) ->
    new_log_record now default (limit, zlim len) ts ob ti si fl tx sv body res attrs = Ok x ->
    takes len attrs t -> NoDup (map fst t) ->
    keeps (option_map Z.to_nat limit) t x.
Proof.
  intros now default limit len ts ob ti si fl tx sv body res attrs t x Hp.
  apply (new_log_record_keeps now default (limit, zlim len) ts ob ti si fl tx sv body res attrs len t x Hp).
  reflexivity.
Qed.
Print Assumptions C57_dropped_attributes_partial.

(** A record has what it was made with: the times, ids, severity, text and body; without an observed time the clock, without a
    resource the default one. *)
Theorem C57_fields :
  forall now default limits ts ob ti si fl tx sv body res attrs x,
    new_log_record now default limits ts ob ti si fl tx sv body res attrs = Ok x ->
    lr_time x = ts /\ (forall t, ob = Some t -> lr_observed x = Some t) /\ (ob = None -> lr_observed x = Some now)
    /\ lr_trace_id x = ti /\ lr_span_id x = si /\ lr_flags x = fl /\ lr_severity_text x = tx /\ lr_severity x = sv /\ lr_body x = body
    /\ (forall r, res = Some r -> lr_resource x = r) /\ (res = None -> lr_resource x = default).
Proof.
  intros now default limits ts ob ti si fl tx sv body res attrs x. unfold new_log_record. destruct (ba_new (fst limits) attrs false (snd limits)) as [a|]; [|discriminate].
  cbn [bind_out]. intros E. injection E as <-. cbn. repeat split; intros; subst; reflexivity.
Qed.
Print Assumptions C57_fields.
Example C57_fields_example : exists x, new_log_record 7 (Res [] []) (None, None) (Some 1%Z) (Some 2%Z) None None None None None ANone None [] = Ok x /\ lr_observed x = Some 2%Z.
Proof. eexists. split; reflexivity. Qed.

(** With the limit 0 every attribute is dropped and none is reported. *)
Theorem C57_limit_zero_refuted :
  forall now default ts ob ti si fl tx sv body res attrs len,
  exists x, new_log_record now default (Some 0%Z, len) ts ob ti si fl tx sv body res attrs = Ok x
    /\ lr_attrs x = [] /\ lr_dropped x = 0%Z.
Proof.
  intros. unfold new_log_record. cbn [fst snd].
  assert (Hz : forall l n, ba_dict (fold_left (fun a kv => ba_set_raw (fst kv) (snd kv) a) l (BA (Some 0) len false [] n)) = []).
  { clear. induction l as [|kv l IH]; intros n; [reflexivity|]. cbn [fold_left]. apply (IH (S n)). }
  eexists. split; [reflexivity|]. cbn [bind_out ba_dict lr_attrs lr_dropped]. unfold dropped_attributes. cbn [ba_dict ba_dropped].
  change (Z.to_nat 0) with 0. rewrite (Hz attrs 0). split; reflexivity.
Qed.
Print Assumptions C57_limit_zero_refuted.

(** The limits: arguments before the environment before the defaults; a bad value raises.  ("No limit" for the
    number of attributes is replaced by the default 128.) *)
Theorem C57_limits :
  forall pylower pyint environ a l,
    let env v := env_source pylower pyint (environ v) in
    let sa := decide [arg_source a; env (lit "OTEL_ATTRIBUTE_COUNT_LIMIT")] in
    let sl := decide [arg_source l; env (lit "OTEL_ATTRIBUTE_VALUE_LENGTH_LIMIT")] in
    log_limits pylower pyint environ a l
    = if match sa, sl with Bad, _ | _, Bad => true | _, _ => false end then Raises "ValueError"
      else Ok (Some (match limit_of sa with Some z => z | None => 128%Z end), limit_of sl).
Proof. exact log_limits_spec. Qed.
Print Assumptions C57_limits.

Example C57_example :
  let kv (k : string) v := (PStr false (lit k), PInt false v) in
  let attrs := [kv "a"%string 1%Z; kv "b"%string 2%Z; (PStr false (lit "bad"), PNone); kv "c"%string 3%Z] in
  let t := [(lit "a", PInt false 1); (lit "b", PInt false 2); (lit "c", PInt false 3)]%Z in
  takes None attrs t
  /\ exists x, new_log_record 7 (Res [] []) (Some 2%Z, None) None None None None None None None ANone None attrs = Ok x
       /\ lr_attrs x = [(lit "b", PInt false 2); (lit "c", PInt false 3)]%Z /\ lr_dropped x = 1%Z.
Proof.
  split; [|eexists; split; [vm_compute; reflexivity|split; reflexivity]].
  repeat first [apply tk_nil | apply tk_yes; [discriminate|repeat constructor|]
               | apply tk_no; [intros sub k v' _ _ H; inversion H as [? ? Hp|]; inversion Hp|]].
Qed.

(** C72: every Python level has a severity number, given by its ten and its position in it; more severe levels
    never get a smaller number; the standard levels get DEBUG, INFO, WARN, ERROR and FATAL. *)
Theorem C72_severity :
  (forall n, std_to_otel n = Ok (severity_of_level n) /\ (0 <= severity_of_level n <= 24)%Z)
  /\ (forall n m, (n <= m)%Z -> (severity_of_level n <= severity_of_level m)%Z)
  /\ map std_to_otel [0; 10; 20; 30; 40; 50]%Z = map Ok [0; 5; 9; 13; 17; 21]%Z.
Proof.
  split; [|split; [exact severity_monotone|vm_compute; reflexivity]].
  intros n. split; [apply severity_closed|apply severity_range].
Qed.
Print Assumptions C72_severity.

Example C72_example :
  map std_to_otel [-5; 9; 12; 25; 33; 49; 53; 54; 1000]%Z = map Ok [0; 0; 7; 12; 16; 20; 24; 24; 24]%Z.
Proof. vm_compute. reflexivity. Qed.

(** C73: through a handler of an SDK provider a record of the logging module becomes one log record with its
    creation time, the ids and flags of the current span, its severity, its body, the provider's resource, and
    (within the default limit of 128) the attributes the user added and the code and exception attributes. *)
Theorem C73_handler_partial :
  forall format now ctx res sc r, NoDup (keys (sr_vars r)) ->
  exists x raw,
    handler_emit format now ctx (LSdk res sc) r = Ok (Some (LogData x (Some sc)))
    /\ lr_time x = Some (sr_created r) /\ lr_observed x = Some now
    /\ lr_trace_id x = Some (sc_trace_id (current_span_context ctx))
    /\ lr_span_id x = Some (sc_span_id (current_span_context ctx))
    /\ lr_flags x = Some (sc_flags (current_span_context ctx))
    /\ lr_severity x = Some (severity_of_level (sr_levelno r))
    /\ lr_severity_text x = Some (if str_eq_dec (sr_levelname r) (lit "WARNING") then lit "WARN" else sr_levelname r)
    /\ body_spec format r (lr_body x)
    /\ lr_resource x = res
    /\ NoDup (keys raw) /\ (forall k, dget k raw = shown r k)
    /\ forall t, takes None (as_arg raw) t -> keeps (Some (Z.to_nat 128)) t x.
Proof. exact handler_emit_spec. Qed.
Print Assumptions C73_handler_partial.

(** When the SDK is disabled nothing is emitted. *)

Theorem C73_disabled : forall format now ctx r, handler_emit format now ctx LNoOp r = Ok None.
Proof. reflexivity. Qed.
Print Assumptions C73_disabled.

(** A handler made before a provider is set makes every logging call raise until one is set. *)
Theorem C73_no_provider_refuted :
  forall format now ctx r, handler_emit format now ctx LProxy r = Raises "AttributeError".
Proof. intros. unfold handler_emit, translate. rewrite severity_closed. reflexivity. Qed.
Print Assumptions C73_no_provider_refuted.

Definition c73_record : std_record :=
  Std [(lit "name", PStr false (lit "app")); (lit "user", PInt false 7); (lit "taskName", PNone)]
    (lit "app") 1000 35 (lit "WARNING") (PStr false (lit "/x.py")) (PStr false (lit "f")) (PInt false 12)
    (AStr (lit "hi %s")) true (lit "hi you") (Some (StdExc (Some (lit "E")) None (Some (lit "tb")))).
Example C73_example :
  NoDup (keys (sr_vars c73_record))
  /\ exists x, handler_emit None 2000 [] (LSdk (Res [] []) (Scope (lit "app") (Some []) [] [])) c73_record
               = Ok (Some (LogData x (Some (Scope (lit "app") (Some []) [] []))))
     /\ lr_severity x = Some 16%Z /\ lr_severity_text x = Some (lit "WARN") /\ lr_body x = AStr (lit "hi you")
     /\ lr_attrs x = [(lit "user", PInt false 7); (lit "code.filepath", PStr false (lit "/x.py"));
                      (lit "code.function", PStr false (lit "f")); (lit "code.lineno", PInt false 12);
                      (lit "exception.type", PStr false (lit "E")); (lit "exception.stacktrace", PStr false (lit "tb"))].
Proof.
  split; [repeat constructor; cbn; intuition discriminate|].
  eexists. split; [vm_compute; reflexivity|]. repeat split.
Qed.

(** C74: in any history of get_logger calls, every call yields a logger whose scope describes its arguments;
    two calls yield the same logger iff neither gives attributes and name, version and schema url agree; a
    disabled SDK only gives no-op loggers. *)
Theorem C74_scopes :
  forall calls,
  let (p, rs) := get_loggers (lp_new false) calls in
  length rs = length calls
  /\ forall i a, nth_error calls i = Some a ->
       exists n s, nth_error rs i = Some (Some n) /\ nth_error (lp_made p) n = Some s /\ names_scope a s.
Proof. exact get_loggers_scopes. Qed.
Print Assumptions C74_scopes.

Theorem C74_identity :
  forall calls i j a b n m,
  let rs := snd (get_loggers (lp_new false) calls) in
  i <> j -> nth_error calls i = Some a -> nth_error calls j = Some b ->
  nth_error rs i = Some (Some n) -> nth_error rs j = Some (Some m) ->
  (n = m <-> same_logger a b).
Proof. exact get_loggers_identity. Qed.
Print Assumptions C74_identity.

Theorem C74_disabled :
  forall calls, get_loggers (lp_new true) calls = (lp_new true, map (fun _ => None) calls).
Proof. exact get_loggers_disabled. Qed.
Print Assumptions C74_disabled.

Example C74_example :
  let a := LArgs (lit "a") None None None in
  let b := LArgs (lit "a") None (Some []) None in
  let c := LArgs (lit "a") None None (Some []) in
  snd (get_loggers (lp_new false) [a; b; a; c; c; b]) = [Some 0; Some 1; Some 0; Some 2; Some 3; Some 1]
  /\ sdk_disabled lower (fun v => if str_eqb v (lit "OTEL_SDK_DISABLED") then Some (lit " True ") else None) = true
  /\ sdk_disabled lower (fun _ => None) = false.
Proof. vm_compute. repeat split. Qed.

(** C75: over any history, the simple processor calls the exporter once for each record emitted before the first
    shutdown, with that record, in order, and then only with shutdown; emit never raises although the exporter
    may (an Exception), and the caller's context is as before. *)
Theorem C75_simple_log_processor :
  forall item (export : list item -> runtime -> list (xcall item) -> runtime * list (xcall item) * outcome) xshutdown u,
  (forall b s log, snd (fst (export b s log)) = log ++ [XExport b]) ->
  (forall b s log e, snd (export b s log) = Raised e -> ex_error e = true) ->
  (forall b s log, nested u s (fst (fst (export b s log)))) ->
  (forall log, fst (xshutdown log) = log ++ [XShutdown]) ->
  forall ops s log,
  let (st, outs) := sl_run (list (xcall item)) item export xshutdown u (SL false s log) ops in
  sl_exp st = log ++ map (fun x => XExport [x]) (emitted (before_shutdown ops)) ++ repeat XShutdown (shutdowns ops)
  /\ get_current u (sl_rt st) = get_current u s
  /\ Forall2 (fun o r => match o with SLShutdown => True | _ => r = Returned end) ops outs.
Proof. exact sl_run_spec. Qed.
Print Assumptions C75_simple_log_processor.

Definition c75_export (b : list nat) (s : runtime) (log : list (xcall nat)) : runtime * list (xcall nat) * outcome :=
  (s, log ++ [XExport b], if Nat.even (length log) then Raised (Exc true (lit "IOError") [] 1) else Returned).
Definition c75_shutdown (log : list (xcall nat)) : list (xcall nat) * outcome := (log ++ [XShutdown], Returned).
Example C75_example :
  (forall b s log, nested 0 s (fst (fst (c75_export b s log))))
  /\ sl_exp (fst (sl_run _ _ c75_export c75_shutdown 0 (SL false rt_init [])
       [SLEmit 1; SLFlush; SLEmit 2; SLShutdown; SLEmit 3; SLShutdown]))
     = [XExport [1]; XExport [2]; XShutdown; XShutdown].
Proof. split; [intros; apply nest_nil|vm_compute; reflexivity]. Qed.

(** C76: an event becomes a log record with the given fields; a missing (or zero) timestamp, trace id, span id
    or flags is taken from the clock and the current span, a missing severity is INFO, and the event's name is
    in the attribute event.name, whatever attributes are given. *)
Theorem C76_events_partial :
  forall now now2 ctx default res sc name time tid sid flags body sev attrs,
  match attrs with Some d => NoDup (keys d) | None => True end ->
  let e := new_event name time tid sid flags body sev attrs in
  exists x raw,
    event_emit now now2 ctx default (LSdk res sc) e = Ok (Some (LogData x (Some sc)))
    /\ lr_time x = Some (match time with Some z => if Z.eq_dec z 0 then now else z | None => now end)
    /\ lr_observed x = Some now2
    /\ lr_trace_id x = Some (match tid with Some z => if Z.eq_dec z 0 then sc_trace_id (current_span_context ctx) else z
                                          | None => sc_trace_id (current_span_context ctx) end)
    /\ lr_span_id x = Some (match sid with Some z => if Z.eq_dec z 0 then sc_span_id (current_span_context ctx) else z
                                         | None => sc_span_id (current_span_context ctx) end)
    /\ lr_flags x = Some (match flags with Some z => if Z.eq_dec z 0 then sc_flags (current_span_context ctx) else z
                                         | None => sc_flags (current_span_context ctx) end)
    /\ lr_severity x = Some (match sev with Some z => z | None => 9%Z end)
    /\ lr_severity_text x = None /\ lr_body x = body /\ lr_resource x = res
    /\ NoDup (keys raw)
    /\ dget (lit "event.name") raw = Some (PStr false name)
    /\ (forall k, k <> lit "event.name" -> dget k raw = match attrs with Some d => dget k d | None => None end)
    /\ (forall t, takes None (as_arg raw) t -> keeps (Some (Z.to_nat 128)) t x)
    /\ (match attrs with Some d => ~ In (lit "event.name") (keys d) | None => True end ->
        dget (lit "event.name") (lr_attrs x) = Some (PStr false name)).
Proof. exact event_emit_spec. Qed.
Print Assumptions C76_events_partial.

Theorem C76_disabled :
  forall now now2 ctx default e, event_emit now now2 ctx default LNoOp e = Ok None.
Proof. reflexivity. Qed.
Print Assumptions C76_disabled.

(** Flags of 0 (not sampled) cannot be given: inside a sampled span the event is marked sampled. *)
Theorem C76_unsampled_flags_refuted :
  exists ctx e x, evt_flags e = Some 0%Z
    /\ event_emit 1 2 ctx (Res [] []) (LSdk (Res [] []) (Scope [] None [] [])) e
       = Ok (Some (LogData x (Some (Scope [] None [] []))))
    /\ lr_flags x = Some 1%Z.
Proof.
  exists (set_span_in_context (OSpan (SC 5 6 false 1 []) true None) []),
    (new_event (lit "e") None (Some 9%Z) (Some 8%Z) (Some 0%Z) ANone None None).
  eexists. split; [reflexivity|]. split; [vm_compute; reflexivity|]. reflexivity.
Qed.
Print Assumptions C76_unsampled_flags_refuted.

Example C76_example :
  let e := new_event (lit "click") None (Some 9%Z) None None (AStr (lit "b")) None
             (Some [(lit "event.name", PStr false (lit "other")); (lit "k", PInt false 1)]) in
  exists x, event_emit 1 2 [] (Res [] []) (LSdk (Res [] []) (Scope [] None [] [])) e
            = Ok (Some (LogData x (Some (Scope [] None [] []))))
    /\ lr_trace_id x = Some 9%Z /\ lr_severity x = Some 9%Z
    /\ dget (lit "event.name") (lr_attrs x) = Some (PStr false (lit "click")).
Proof. eexists. split; [vm_compute; reflexivity|]. repeat split. Qed.
