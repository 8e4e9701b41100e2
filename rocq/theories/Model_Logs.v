(** Logs: severity numbers, LogRecord and LogLimits, LoggingHandler, LoggerProvider, SimpleLogRecordProcessor
    and the EventLogger.

    Sources: opentelemetry-sdk/src/opentelemetry/sdk/_logs/_internal/__init__.py ("sdk"),
    sdk/_logs/_internal/export/__init__.py ("export"), sdk/_events/__init__.py ("events"),
    opentelemetry-api/src/opentelemetry/_logs/severity/__init__.py ("severity"),
    opentelemetry-api/src/opentelemetry/_logs/_internal/__init__.py ("api"),
    opentelemetry-api/src/opentelemetry/_events/__init__.py ("api events").
    The batch processor for logs is in Model_Processor, the encoding in Model_Otlp. *)
From Verif Require Export Model_Otlp Model_Processor.

(** ** Severity *)

(** severity 29-56: SeverityNumber, as the integers of the enum *)
Definition SEV_UNSPECIFIED : Z := 0.
Definition SEV_DEBUG : Z := 5.
Definition SEV_INFO : Z := 9.
Definition SEV_WARN : Z := 13.
Definition SEV_ERROR : Z := 17.
Definition SEV_FATAL : Z := 21.
Definition SEV_FATAL4 : Z := 24.

(** severity 59-104 [_STD_TO_OTEL], in the order of the dict *)
Definition STD_TO_OTEL : dict Z Z := [
  (10, SEV_DEBUG); (11, 6); (12, 7); (13, 8); (14, 8); (15, 8); (16, 8); (17, 8); (18, 8); (19, 8);
  (20, SEV_INFO); (21, 10); (22, 11); (23, 12); (24, 12); (25, 12); (26, 12); (27, 12); (28, 12); (29, 12);
  (30, SEV_WARN); (31, 14); (32, 15); (33, 16); (34, 16); (35, 16); (36, 16); (37, 16); (38, 16); (39, 16);
  (40, SEV_ERROR); (41, 18); (42, 19); (43, 20); (44, 20); (45, 20); (46, 20); (47, 20); (48, 20); (49, 20);
  (50, SEV_FATAL); (51, 22); (52, 23); (53, SEV_FATAL4)]%Z.

(** severity 107-117 [std_to_otel]; a missing key raises KeyError *)
Definition std_to_otel (levelno : Z) : outcome_of Z :=
  if Z.ltb levelno 10 then Ok SEV_UNSPECIFIED
  else if Z.ltb 53 levelno then Ok SEV_FATAL4
  else match dget levelno STD_TO_OTEL with Some n => Ok n | None => Raises "KeyError" end.

(** ** Limits *)

(** sdk 107-127 [LogLimits.__init__], on sdk 132-158 [_from_env_if_absent] (the same function as for
    SpanLimits).  The pair is (max_attributes, max_attribute_length). *)
Definition log_limits (pylower : str -> str) (pyint : str -> option Z) (environ : str -> option str)
    (max_attributes max_attribute_length : option Z) : outcome_of (option Z * option Z) :=
  bind_out (from_env_if_absent pylower pyint environ max_attributes (lit "OTEL_ATTRIBUTE_COUNT_LIMIT") None) (fun g =>
  bind_out (from_env_if_absent pylower pyint environ max_attribute_length (lit "OTEL_ATTRIBUTE_VALUE_LENGTH_LIMIT") None) (fun l =>
  Ok (or_default g, l))).

(** sdk 161-164 [_UnsetLogLimits] *)
Definition UNSET_LOG_LIMITS : option Z * option Z := (Some 128%Z, None).

(** ** LogRecord *)

(** sdk 252-255 [dropped_attributes] *)
Definition dropped_attributes (a : battrs) : Z :=
  match ba_dict a with [] => 0%Z | _ => Z.of_nat (ba_dropped a) end.

(** sdk 174-217 [LogRecord.__init__] with api 58-82; [now] is the clock, [default] what [Resource.create({})]
    gives.  [bool(attributes)]: an empty mapping counts as none, which makes no difference.  The warning
    about dropped attributes is not modelled. *)
Definition new_log_record (now : Z) (default : resource) (limits : option Z * option Z)
    (timestamp observed trace_id span_id flags : option Z) (text : option str) (severity : option Z)
    (body : anyv) (res : option resource) (attributes : list (pyval * pyval)) : outcome_of log_record :=
  bind_out (ba_new (fst limits) attributes false (snd limits)) (fun a =>
  Ok (LogRec timestamp (Some (match observed with Some t => t | None => now end)) trace_id span_id flags
        text severity body (ba_dict a) (dropped_attributes a)
        (match res with Some r => r | None => default end))).

(** ** LoggingHandler *)

(** What [record.exc_info] yields when it is true: [exctype.__name__], [str(value.args[0])] (when there is
    a value with arguments) and the formatted traceback (when there is one). *)
Record std_exc := StdExc { se_type : option str; se_message : option str; se_trace : option str }.

(** A record of the logging module.  [sr_vars] is [vars(record)] without the fields given separately:
    those are all among the reserved names.  [sr_created] is [int(record.created * 1e9)]. *)
Record std_record := Std {
  sr_vars : dict str pyval;
  sr_name : str; sr_created : Z; sr_levelno : Z; sr_levelname : str;
  sr_pathname : pyval; sr_funcname : pyval; sr_lineno : pyval;
  sr_msg : anyv; sr_has_args : bool; sr_message : str; sr_exc : option std_exc }.

(** sdk 433-462 *)
Definition RESERVED_ATTRS : list str := map lit [
  "asctime"; "args"; "created"; "exc_info"; "exc_text"; "filename"; "funcName"; "getMessage"; "message";
  "levelname"; "levelno"; "lineno"; "module"; "msecs"; "msg"; "name"; "pathname"; "process"; "processName";
  "relativeCreated"; "stack_info"; "thread"; "threadName"; "taskName"]%string.
Definition is_reserved (k : str) : bool := existsb (str_eqb k) RESERVED_ATTRS.

Definition set_opt (k : string) (v : option str) (d : dict str pyval) : dict str pyval :=
  match v with Some s => dset (lit k) (PStr false s) d | None => d end.
(** sdk 479-504 [_get_attributes] *)
Definition handler_attributes (r : std_record) : dict str pyval :=
  let a := filter (fun kv => negb (is_reserved (fst kv))) (sr_vars r) in
  let a := dset (lit "code.filepath") (sr_pathname r) a in
  let a := dset (lit "code.function") (sr_funcname r) a in
  let a := dset (lit "code.lineno") (sr_lineno r) a in
  match sr_exc r with
  | None => a
  | Some e =>
      set_opt "exception.stacktrace" (se_trace e)
        (set_opt "exception.message" (se_message e) (set_opt "exception.type" (se_type e) a))
  end.

(** A logger, as far as the handler looks at it: NoOpLogger, an SDK logger (with its resource and scope), or
    an API ProxyLogger, which has no attribute [resource]. *)
Inductive logger_obj := LNoOp | LSdk (r : resource) (s : scope) | LProxy.

(** sdk 506-550 [_translate]; [format] is the formatter, if one is set, and [sr_message] what
    [record.getMessage()] returns (a call that raises is not modelled). *)
Definition body_of (format : option (std_record -> str)) (r : std_record) : anyv :=
  match format with
  | Some f => AStr (f r)
  | None =>
      match sr_has_args r, sr_msg r with
      | false, AStr _ => AStr (sr_message r)
      | false, m => m
      | true, _ => AStr (sr_message r)
      end
  end.
Definition translate (format : option (std_record -> str)) (now : Z) (ctx : context) (lg : logger_obj)
    (r : std_record) : outcome_of log_record :=
  let sc := current_span_context ctx in
  let attrs := handler_attributes r in
  bind_out (std_to_otel (sr_levelno r)) (fun sev =>
  let body := body_of format r in
  let level := if str_eqb (sr_levelname r) (lit "WARNING") then lit "WARN" else sr_levelname r in
  match lg with
  | LSdk res _ =>
      new_log_record now res UNSET_LOG_LIMITS (Some (sr_created r)) (Some now)
        (Some (sc_trace_id sc)) (Some (sc_span_id sc)) (Some (sc_flags sc))
        (Some level) (Some sev) body (Some res) (as_arg attrs)
  | _ => Raises "AttributeError"
  end).

(** sdk 552-560 [emit]: what is handed to the processors of the provider, if anything *)
Definition handler_emit (format : option (std_record -> str)) (now : Z) (ctx : context) (lg : logger_obj)
    (r : std_record) : outcome_of (option log_data) :=
  match lg with
  | LNoOp => Ok None
  | _ => bind_out (translate format now ctx lg r) (fun x =>
           Ok (Some (LogData x (match lg with LSdk _ s => Some s | _ => None end))))
  end.

(** ** LoggerProvider *)

(** The arguments of get_logger. *)
Record logger_args := LArgs {
  la_name : str; la_version : option str; la_schema : option str; la_attrs : option (list (pyval * pyval)) }.
(** sdk/util/instrumentation.py 88-102 [InstrumentationScope.__init__]: without limits [ba_new] does not raise *)
Definition scope_of_args (a : logger_args) : scope :=
  Scope (la_name a) (la_version a) (match la_schema a with Some s => s | None => [] end)
    (match ba_new None (match la_attrs a with Some l => l | None => [] end) true None with
     | Ok b => ba_dict b | Raises _ => [] end).

Definition logger_key : Type := str * option str * option str.
Definition opt_str_eq_dec (a b : option str) : {a = b} + {a <> b}.
Proof. decide equality. apply str_eq_dec. Defined.
#[export] Instance EqDec_logger_key : EqDec logger_key.
Proof.
  intros [[a b] c] [[a' b'] c'].
  destruct (str_eq_dec a a') as [->|N]; [|right; congruence].
  destruct (opt_str_eq_dec b b') as [->|N]; [|right; congruence].
  destruct (opt_str_eq_dec c c') as [->|N]; [left; reflexivity|right; congruence].
Defined.

(** sdk 596-620: a provider.  Loggers are numbered in order of creation; [lp_made] lists their scopes. *)
Record lprovider := LProv { lp_disabled : bool; lp_cache : dict logger_key nat; lp_made : list scope }.
(** sdk 610-611: [environ.get(OTEL_SDK_DISABLED, "").lower().strip() == "true"] *)
Definition sdk_disabled (pylower : str -> str) (environ : str -> option str) : bool :=
  str_eqb (strip py_space (pylower (match environ (lit "OTEL_SDK_DISABLED") with Some s => s | None => [] end)))
    (lit "true").
Definition lp_new (disabled : bool) : lprovider := LProv disabled [] [].

(** sdk 626-642 [_get_logger_no_cache] *)
Definition get_logger_no_cache (a : logger_args) (p : lprovider) : lprovider * nat :=
  (LProv (lp_disabled p) (lp_cache p) (lp_made p ++ [scope_of_args a]), length (lp_made p)).
(** sdk 644-659 [_get_logger_cached], under the lock *)
Definition get_logger_cached (a : logger_args) (p : lprovider) : lprovider * nat :=
  let key := (la_name a, la_version a, la_schema a) in
  match dget key (lp_cache p) with
  | Some n => (p, n)
  | None =>
      let (p1, n) := get_logger_no_cache (LArgs (la_name a) (la_version a) (la_schema a) None) p in
      (LProv (lp_disabled p1) (dset key n (lp_cache p1)) (lp_made p1), n)
  end.
(** sdk 661-677 [get_logger]; [None]: a NoOpLogger *)
Definition get_logger (p : lprovider) (a : logger_args) : lprovider * option nat :=
  if lp_disabled p then (p, None)
  else match la_attrs a with
       | None => let (p1, n) := get_logger_cached a p in (p1, Some n)
       | Some _ => let (p1, n) := get_logger_no_cache a p in (p1, Some n)
       end.
(** Any history of calls (the lock makes the calls of several threads one history): their results. *)
Fixpoint get_loggers (p : lprovider) (l : list logger_args) : lprovider * list (option nat) :=
  match l with
  | [] => (p, [])
  | a :: l' =>
      let (p1, r) := get_logger p a in
      let (p2, rs) := get_loggers p1 l' in (p2, r :: rs)
  end.

(** ** SimpleLogRecordProcessor *)

Section SimpleLog.
Variable X item : Type.
(** Any exporter: its [export] may also use the runtime context, its [shutdown] does not. *)
Variable export : list item -> runtime -> X -> runtime * X * outcome.
Variable xshutdown : X -> X * outcome.
Inductive slop := SLEmit (x : item) | SLShutdown | SLFlush.
(** State: [_shutdown], the runtime context and the exporter. *)
Record slstate := SL { sl_down : bool; sl_rt : runtime; sl_exp : X }.
(** export 122-141 [emit], [shutdown], [force_flush] in execution unit [u] *)
Definition sl_step (u : nat) (s : slstate) (o : slop) : slstate * outcome :=
  match o with
  | SLEmit x =>
      if sl_down s then (s, Returned)
      else let '(r, e, out) := simple_on_end X item (fun _ => true) export u x (sl_rt s) (sl_exp s) in
           (SL false r e, out)
  | SLShutdown => let (e, out) := xshutdown (sl_exp s) in (SL true (sl_rt s) e, out)
  | SLFlush => (s, Returned)
  end.
Fixpoint sl_run (u : nat) (s : slstate) (l : list slop) : slstate * list outcome :=
  match l with
  | [] => (s, [])
  | o :: l' => let (s1, r) := sl_step u s o in let (s2, rs) := sl_run u s1 l' in (s2, r :: rs)
  end.
End SimpleLog.
Arguments SLEmit {item} x. Arguments SLShutdown {item}. Arguments SLFlush {item}.
Arguments SL {X} _ _ _. Arguments sl_down {X} _. Arguments sl_rt {X} _. Arguments sl_exp {X} _.

(** ** Events *)

(** api events 34-58 [Event.__init__]; the attributes are given with string keys *)
Record log_event := LEv {
  evt_name : str; evt_time : option Z; evt_trace_id : option Z; evt_span_id : option Z; evt_flags : option Z;
  evt_body : anyv; evt_severity : option Z; evt_attrs : dict str pyval }.
Definition new_event (name : str) (time trace_id span_id flags : option Z) (body : anyv) (sev : option Z)
    (attrs : option (dict str pyval)) : log_event :=
  LEv name time trace_id span_id flags body sev
    (dset (lit "event.name") (PStr false name) (match attrs with Some d => d | None => [] end)).

(** [x or y] for an optional integer *)
Definition or_z (x : option Z) (y : Z) : Z :=
  match x with Some z => if Z.eqb z 0 then y else z | None => y end.
(** [severity or INFO]: members of a plain Enum are true, also SeverityNumber.UNSPECIFIED (0) *)
Definition or_sev (x : option Z) (y : Z) : Z := match x with Some z => z | None => y end.

(** events 48-66 [EventLogger.emit]; [now] is read twice, for the two timestamps *)
Definition event_emit (now now2 : Z) (ctx : context) (default : resource) (lg : logger_obj) (e : log_event)
    : outcome_of (option log_data) :=
  match lg with
  | LNoOp => Ok None
  | _ =>
      let sc := current_span_context ctx in
      bind_out (new_log_record now2 default UNSET_LOG_LIMITS (Some (or_z (evt_time e) now)) None
        (Some (or_z (evt_trace_id e) (sc_trace_id sc))) (Some (or_z (evt_span_id e) (sc_span_id sc)))
        (Some (or_z (evt_flags e) (sc_flags sc))) None (Some (or_sev (evt_severity e) SEV_INFO)) (evt_body e)
        (match lg with LSdk r _ => Some r | _ => None end) (as_arg (evt_attrs e))) (fun x =>
      match lg with
      | LSdk _ s => Ok (Some (LogData x (Some s)))
      | _ => Ok None                              (* ProxyLogger.emit: to the NoOpLogger *)
      end)
  end.
