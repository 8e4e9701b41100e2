(** Logging from the calls of a program to the OTLP requests, in a program that is also traced: a tracer provider and a
    logger provider, each with a batch processor and an OTLP exporter, used by any number of threads.

    Sources: opentelemetry-sdk/src/opentelemetry/sdk/_logs/_internal/__init__.py ("sdk"),
    opentelemetry-sdk/src/opentelemetry/sdk/_logs/_internal/export/__init__.py ("export"),
    opentelemetry-sdk/src/opentelemetry/sdk/_events/__init__.py ("events"), and the OTLP encoder
    (exporter/opentelemetry-exporter-otlp-proto-common/.../_log_encoder/__init__.py).  The parts are those of
    Model_Logs (the handler, the loggers, events), Model_Processor (the batch processor), Model_Otlp (the encoder) and
    Model_Tracing (the spans); here they are put together. *)
From Verif Require Export Model_Logs Model_Tracing.
Local Open Scope nat_scope.

(** The arguments of Event(...). *)
Record event_args := EventArgs {
  ea_name : str; ea_time : option Z; ea_trace_id : option Z; ea_span_id : option Z; ea_flags : option Z;
  ea_body : anyv; ea_severity : option Z; ea_attrs : option (dict str pyval) }.

(** An event of an execution.  The log calls of the program are numbered in their order. *)
Inductive lev :=
| LTrace (e : tev)                                     (* tracing *)
| LHandle (format : option (std_record -> str)) (now : Z) (p : place) (r : std_record)
                                                       (* logging, with a LoggingHandler of the provider *)
| LEvent (a : logger_args) (now now2 : Z) (p : place) (e : event_args)    (* EventLogger.emit *)
| LRecord (a : logger_args) (x : log_record)           (* Logger.emit with a record of the program's own *)
| LHand (n t : nat)                                    (* log call n calls emit of the processor, in thread t *)
| LProc (e : pev).                                     (* what threads do with the log record processor otherwise *)

(** A log record on its way, with the number of the call (an observation: nothing depends on the number). *)
Definition litem : Type := nat * log_data.
Definition litem_sampled (i : litem) : bool := true.

Section Logging.
Context {G : Type}.
Variable gen_trace_id gen_span_id : G -> Z * G.
Variable tr : tracer.
Variable tres : resource.
Variable tmaxq tmaxb : nat.
(** The logger provider: whether OTEL_SDK_DISABLED was true, its resource, and the sizes of its processor. *)
Variable disabled : bool.
Variable res : resource.
Variable maxq maxb : nat.

Record lworld := LW {
  lw_tr : tworld (G := G);
  lw_prov : lprovider;
  lw_logs : list (option log_data * bool);   (* what each log call made, if anything, and whether it was handed in *)
  lw_proc : bsp litem
}.
Definition lw_init (g : G) : lworld := LW (tw_init g) (lp_new disabled) [] (bsp_init litem false false).

(** sdk 661-677 [get_logger]: the logger.  (Loggers may be got earlier and kept: those got with the same arguments
    have the same scope.) *)
Definition ask (a : logger_args) (p : lprovider) : lprovider * logger_obj :=
  let (p1, r) := get_logger p a in
  (p1, match r with
       | Some n => match nth_error (lp_made p1) n with Some s => LSdk res s | None => LNoOp end
       | None => LNoOp
       end).
Definition made (o : outcome_of (option log_data)) : option log_data :=
  match o with Ok d => d | Raises _ => None end.
Definition lproc_step (b : bsp litem) (e : bev litem) : bsp litem :=
  match bsp_step litem litem_sampled maxq maxb b e with Some b' => b' | None => b end.
Definition pev_lbev (e : pev) : bev litem :=
  match e with
  | PWork => EWork
  | PFlush t => ECall t CFlush
  | PShutdown t => ECall t CShutdown
  | PStep t => EStep t
  | PTimeout t => ETimeout t
  end.
(** A log call: the logger, then what it makes of the call. *)
Definition log_call (w : lworld) (a : logger_args) (f : logger_obj -> outcome_of (option log_data)) : lworld :=
  let (p1, lg) := ask a (lw_prov w) in
  LW (lw_tr w) p1 (lw_logs w ++ [(made (f lg), false)]) (lw_proc w).

(** sdk 552-560 [LoggingHandler.emit] (api 270-291: the version is the empty string), events 48-66, sdk 581-586
    [Logger.emit]; then [emit] of the processor with what was made, by the same thread.  The second get_logger of the
    handler (533) finds the logger of the first.  A record of the program's own is taken as it is at the call.  A call
    that is not due, or whose thread is busy, leaves the state as it is. *)
Definition lw_step (w : lworld) (e : lev) : lworld :=
  match e with
  | LTrace e =>
      LW (tw_step gen_trace_id gen_span_id tr tres tmaxq tmaxb (lw_tr w) e) (lw_prov w) (lw_logs w) (lw_proc w)
  | LHandle format now p r =>
      log_call w (LArgs (sr_name r) (Some []) None None) (fun lg =>
        handler_emit format now (place_context (tw_spans (lw_tr w)) p) lg r)
  | LEvent a now now2 p e =>
      log_call w a (fun lg =>
        event_emit now now2 (place_context (tw_spans (lw_tr w)) p) res lg
          (new_event (ea_name e) (ea_time e) (ea_trace_id e) (ea_span_id e) (ea_flags e) (ea_body e) (ea_severity e)
             (ea_attrs e)))
  | LRecord a x =>
      log_call w a (fun lg => match lg with LSdk _ s => Ok (Some (LogData x (Some s))) | _ => Ok None end)
  | LHand n t =>
      match nth_error (lw_logs w) n with
      | Some (Some d, false) =>
          if in_no_call litem (b_thr (lw_proc w) t) then
            LW (lw_tr w) (lw_prov w) (set_nth n (Some d, true) (lw_logs w))
               (lproc_step (lw_proc w) (ECall t (COnEnd (n, d))))
          else w
      | _ => w
      end
  | LProc e => LW (lw_tr w) (lw_prov w) (lw_logs w) (lproc_step (lw_proc w) (pev_lbev e))
  end.
Definition lw_run (g : G) (h : list lev) : lworld := fold_left lw_step h (lw_init g).
End Logging.
Arguments lw_tr {G}. Arguments lw_prov {G}. Arguments lw_logs {G}. Arguments lw_proc {G}. Arguments LW {G}.

(** The request for a batch: export calls [encode_logs] with the log records of the batch. *)
Definition log_request (float_int : Z -> option Z) (b : list litem) : option (list (pb_group pb_log)) :=
  encode_logs same_resource_key (same_scope_key float_int) (map snd b).
