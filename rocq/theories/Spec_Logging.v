(** Specification for logging from the calls of a program to the OTLP requests (C98). *)
From Verif Require Export Spec_Logs Spec_Tracing Model_Logging.
Local Open Scope nat_scope.

(** The tracing in a history. *)
Definition traces (h : list lev) : list tev := flat_map (fun e => match e with LTrace e => [e] | _ => [] end) h.
(** The log calls: how many a history has made, the number of the next one. *)
Definition is_log_call (e : lev) : bool := match e with LHandle _ _ _ _ | LEvent _ _ _ _ _ | LRecord _ _ => true | _ => false end.
Definition logs (h : list lev) : nat := length (filter is_log_call h).
(** In [h], log call [n] was [c]; [k] spans had been started. *)
Definition logged_by (h : list lev) (n : nat) (c : lev) (k : nat) : Prop :=
  exists before later, h = before ++ c :: later /\ is_log_call c = true /\ logs before = n /\ starts (traces before) = k.
(** Mappings have distinct keys (vars(record) and attributes are dicts). *)
Definition dicts (h : list lev) : Prop :=
  Forall (fun e => match e with
                   | LHandle _ _ _ r => NoDup (keys (sr_vars r))
                   | LEvent _ _ _ _ a => match ea_attrs a with Some d => NoDup (keys d) | None => True end
                   | _ => True
                   end) h.

Section World.
Context {G : Type}.
(** The span context that is current in a place, when [k] spans have been started. *)
Definition current_in (w : tworld (G := G)) (k : nat) (p : place) : span_context :=
  match p with
  | InContext c => current_span_context c
  | InSpan m base =>
      match (if Nat.ltb m k then context_of w m else None) with Some c => c | None => current_span_context base end
  end.

(** The logger that a call uses. *)
Definition logger_for (c : lev) : logger_args :=
  match c with
  | LHandle _ _ _ r => LArgs (sr_name r) (Some []) None None
  | LEvent a _ _ _ _ | LRecord a _ => a
  | _ => LArgs [] None None None
  end.
(** What the handler says about a record of the logging module. *)
Definition handled (format : option (std_record -> str)) (now : Z) (sc : span_context) (res : resource)
    (r : std_record) (x : log_record) : Prop :=
  lr_time x = Some (sr_created r) /\ lr_observed x = Some now
  /\ lr_trace_id x = Some (sc_trace_id sc) /\ lr_span_id x = Some (sc_span_id sc) /\ lr_flags x = Some (sc_flags sc)
  /\ lr_severity x = Some (severity_of_level (sr_levelno r))
  /\ lr_severity_text x = Some (if str_eq_dec (sr_levelname r) (lit "WARNING") then lit "WARN" else sr_levelname r)
  /\ body_spec format r (lr_body x) /\ lr_resource x = res
  /\ exists raw, NoDup (keys raw) /\ (forall k, dget k raw = shown r k)
       /\ forall t, takes None (as_arg raw) t -> keeps (Some (Z.to_nat 128)) t x.
(** An argument that is given and not zero, or else the default. *)
Definition given (o : option Z) (default : Z) : option Z :=
  Some (match o with Some z => if Z.eq_dec z 0 then default else z | None => default end).
Definition event_said (now now2 : Z) (sc : span_context) (res : resource) (e : event_args) (x : log_record) : Prop :=
  lr_time x = given (ea_time e) now /\ lr_observed x = Some now2
  /\ lr_trace_id x = given (ea_trace_id e) (sc_trace_id sc) /\ lr_span_id x = given (ea_span_id e) (sc_span_id sc)
  /\ lr_flags x = given (ea_flags e) (sc_flags sc)
  /\ lr_severity x = Some (match ea_severity e with Some z => z | None => 9%Z end)
  /\ lr_severity_text x = None /\ lr_body x = ea_body e /\ lr_resource x = res
  /\ exists raw, NoDup (keys raw) /\ dget (lit "event.name") raw = Some (PStr false (ea_name e))
       /\ (forall k, k <> lit "event.name" -> dget k raw = match ea_attrs e with Some d => dget k d | None => None end)
       /\ forall t, takes None (as_arg raw) t -> keeps (Some (Z.to_nat 128)) t x.
(** [d] is what log call [n] of the program says, under the scope of its logger. *)
Definition is_log (res : resource) (w : tworld (G := G)) (h : list lev) (n : nat) (d : log_data) : Prop :=
  exists c k sco, logged_by h n c k /\ ld_scope d = Some sco /\ names_scope (logger_for c) sco
    /\ match c with
       | LHandle format now p r => handled format now (current_in w k p) res r (ld_record d)
       | LEvent _ now now2 p e => event_said now now2 (current_in w k p) res e (ld_record d)
       | LRecord _ x => ld_record d = x
       | _ => False
       end.

(** Calls of the logging module whose parts can be encoded: text is Unicode, numbers fit. *)
Definition ids_fit (sc : span_context) : Prop :=
  fits 128 (sc_trace_id sc) /\ fits 64 (sc_span_id sc) /\ fits 32 (sc_flags sc).
Definition encodable_call (c : lev) : Prop :=
  match c with
  | LHandle format now p r =>
      fits 64 (sr_created r) /\ fits 64 now /\ unicode_text (sr_name r) /\ unicode_text (sr_levelname r)
      /\ (forall b, body_spec format r b -> carried true b) /\ fits 32 (Z.of_nat (length (sr_vars r)) + 6)
      /\ ids_fit (current_span_context (match p with InSpan _ base => base | InContext c => c end))
  | _ => False
  end.
(** What a call has to say about the place it is made in: calls of the logging module, and events whose ids and
    flags are not given. *)
Definition made_in (c : lev) (p : place) : Prop :=
  match c with
  | LHandle _ _ p' _ => p' = p
  | LEvent _ _ _ p' e => p' = p /\ ea_trace_id e = None /\ ea_span_id e = None /\ ea_flags e = None
  | _ => False
  end.

(** Log call [n] has returned from the processor's queue. *)
Definition handed_in_log (w : lworld (G := G)) (n : nat) : Prop :=
  (exists o, nth_error (lw_logs w) n = Some (o, true))
  /\ forall t d, b_thr (lw_proc w) t <> TOnEnd (n, d) /\ b_thr (lw_proc w) t <> TAppend (n, d).
(** Thread [t] begins no other call of the log record processor. *)
Definition no_log_by (t : nat) (h : list lev) : Prop :=
  Forall (fun e => match e with
                   | LHand _ t' | LProc (PFlush t') | LProc (PShutdown t') => t' <> t
                   | _ => True
                   end) h.
(** The log records that the exporter got, and those that a full queue dropped. *)
Definition exported_logs (w : lworld (G := G)) : list litem := handed_over (b_log (lw_proc w)).
Definition evicted_log (w : lworld (G := G)) (i : litem) : Prop := In (i, Evicted) (b_gone (lw_proc w)).
End World.
