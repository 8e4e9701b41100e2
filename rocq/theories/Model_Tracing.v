(** Tracing from the calls of a program to the OTLP requests: a tracer provider with a batch processor and an OTLP
    exporter, used by any number of threads.

    Sources: opentelemetry-sdk/src/opentelemetry/sdk/trace/__init__.py ("trace"),
    opentelemetry-sdk/src/opentelemetry/sdk/trace/export/__init__.py ("export"), and the OTLP encoder
    (exporter/opentelemetry-exporter-otlp-proto-common/.../trace_encoder/__init__.py).  The parts are those of
    Model_Sampling (start_span), Model_Span (the calls on a span), Model_Processor (the batch processor) and
    Model_Otlp (the encoder); here they are put together. *)
From Verif Require Export Model_Sampling Model_Otlp Model_Processor.
Local Open Scope nat_scope.

(** The context a span is started in: one with the program's span [m] as the current span, or another one (for
    example one that a propagator has extracted). *)
Inductive place := InSpan (m : nat) (base : context) | InContext (c : context).

(** What threads do with the processor, apart from on_end. *)
Inductive pev := PWork | PFlush (t : nat) | PShutdown (t : nat) | PStep (t : nat) | PTimeout (t : nat).

(** An event of an execution.  The spans of the program are numbered in the order in which they are started.
    [explicit]: the context of the new span is given as an argument and the current context is [cur] ([Some cur]), or
    it is the current context ([None]). *)
Inductive tev :=
| VStart (sco : option scope) (explicit : option context) (p : place) (name : str) (kind : Z) (attrs : pairs)
    (links : link_args) (st : option Z) (now : Z)   (* tracer.start_span *)
| VCall (n : nat) (o : sop)                         (* a call on span n takes the span's lock *)
| VOnEnd (n t : nat)                                (* the end() that has ended span n calls on_end, in thread t *)
| VProc (e : pev).

(** A span on its way, with its number (an observation: nothing depends on the number). *)
Definition item : Type := nat * rspan.
Definition item_sampled (i : item) : bool := flags_sampled (sc_flags (sp_ctx (rs_span (snd i)))).

Section Tracing.
Context {G : Type}.
Variable gen_trace_id gen_span_id : G -> Z * G.
Variable tr : tracer.
Variable res : resource.
Variable maxq maxb : nat.

Record tworld := TW {
  tw_gen : G;                                  (* the id generator *)
  tw_spans : list (started * option scope);    (* the spans of the program *)
  tw_proc : bsp item                           (* the batch processor *)
}.
Definition tw_init (g : G) : tworld := TW g [] (bsp_init item false false).

(** trace propagation 20-35 [set_span_in_context].  (A number without span stands for no span.) *)
Definition place_context (spans : list (started * option scope)) (p : place) : context :=
  match p with
  | InContext c => c
  | InSpan m base =>
      match nth_error spans m with
      | Some (s, _) => set_span_in_context (as_obj s) base
      | None => base
      end
  end.
Definition pev_bev (e : pev) : bev item :=
  match e with
  | PWork => EWork
  | PFlush t => ECall t CFlush
  | PShutdown t => ECall t CShutdown
  | PStep t => EStep t
  | PTimeout t => ETimeout t
  end.
Definition proc_step (b : bsp item) (e : bev item) : bsp item :=
  match bsp_step item item_sampled maxq maxb b e with Some b' => b' | None => b end.

(** trace 1107-1181 [start_span], 780-978 (the calls), 925-941 [end]: the lock, then on_end with [_readable_span],
    which has the provider's resource and the tracer's scope; calls on a NonRecordingSpan do nothing.  An on_end
    that is not due, or whose thread is busy, and steps of the processor that are not possible, leave the state as it
    is. *)
Definition tw_step (w : tworld) (e : tev) : tworld :=
  match e with
  | VStart sco explicit p name kind attrs links st now =>
      let c := place_context (tw_spans w) p in
      let (out, g) := match explicit with
                      | Some cur => start_span gen_trace_id gen_span_id tr cur (Some c) name kind attrs links st now (tw_gen w)
                      | None => start_span gen_trace_id gen_span_id tr c None name kind attrs links st now (tw_gen w)
                      end in
      match out with
      | Ok s => TW g (tw_spans w ++ [(s, sco)]) (tw_proc w)
      | Raises _ => TW g (tw_spans w) (tw_proc w)
      end
  | VCall n o =>
      match nth_error (tw_spans w) n with
      | Some (Recording sw, sco) => TW (tw_gen w) (set_nth n (Recording (sw_step sw (ACall o)), sco) (tw_spans w)) (tw_proc w)
      | _ => w
      end
  | VOnEnd n t =>
      match nth_error (tw_spans w) n with
      | Some (Recording sw, sco) =>
          match w_pending sw with
          | O => w
          | S _ =>
              if in_no_call item (b_thr (tw_proc w) t) then
                TW (tw_gen w) (set_nth n (Recording (sw_step sw AOnEnd), sco) (tw_spans w))
                   (proc_step (tw_proc w) (ECall t (COnEnd (n, RSpan (w_span sw) res sco))))
              else w
          end
      | _ => w
      end
  | VProc e => TW (tw_gen w) (tw_spans w) (proc_step (tw_proc w) (pev_bev e))
  end.
Definition tw_run (g : G) (h : list tev) : tworld := fold_left tw_step h (tw_init g).
End Tracing.
Arguments tw_gen {G}. Arguments tw_spans {G}. Arguments tw_proc {G}. Arguments TW {G}.

(** The request for a batch: export calls [encode_spans] with the spans of the batch. *)
Definition batch_request (float_int : Z -> option Z) (b : list item) : option (list (pb_group pb_span)) :=
  encode_spans same_resource_key (same_scope_key float_int) (map snd b).
