(** Specification vocabulary: what auto-configuration should install. *)
From Verif Require Export Model_Config Spec_OtlpConfig.

(** Which exporter a name in a list stands for: "otlp" is one of two, by the protocol variables; others stand for
    themselves. *)
Definition protocol_variable (s : option signal) : str :=
  match s with
  | None => lit "OTEL_EXPORTER_OTLP_PROTOCOL"
  | Some Traces => lit "OTEL_EXPORTER_OTLP_TRACES_PROTOCOL"
  | Some Metrics => lit "OTEL_EXPORTER_OTLP_METRICS_PROTOCOL"
  | Some Logs => lit "OTEL_EXPORTER_OTLP_LOGS_PROTOCOL"
  end.
Definition exporters_variable (s : signal) : str :=
  match s with Traces => lit "OTEL_TRACES_EXPORTER" | Metrics => lit "OTEL_METRICS_EXPORTER" | Logs => lit "OTEL_LOGS_EXPORTER" end.
Definition stands_for (e : env) (s : signal) (name result : str) : Prop :=
  (name <> lit "otlp" /\ result = name)
  \/ (name = lit "otlp" /\
      match first_given [unless_empty (e (protocol_variable (Some s))); unless_empty (e (protocol_variable None))] with
      | None => result = lit "otlp_proto_grpc"
      | Some p => (strip py_space p = lit "grpc" /\ result = lit "otlp_proto_grpc")
                  \/ (strip py_space p = lit "http/protobuf" /\ result = lit "otlp_proto_http")
      end).
(** The names in a variable, between commas, without the spaces around them; "none" is none. *)
Definition names_in (pylower : str -> str) (v : option str) (l : list str) : Prop :=
  match unless_empty v with
  | None => l = []
  | Some v => (strip py_space (pylower v) = lit "none" /\ l = [])
              \/ (strip py_space (pylower v) <> lit "none"
                  /\ exists parts, v = join (lit ",") parts /\ Forall (fun p => ~ In 44%N p) parts /\ parts <> []
                     /\ l = map (strip py_space) parts)
  end.
(** A list without repetitions, in the order of first mention. *)
Fixpoint firsts (l : list str) : list str :=
  match l with [] => [] | x :: r => x :: filter (fun y => negb (str_eqb x y)) (firsts r) end.

Section Config.
Variable pylower : str -> str.
Variable entry_points : str -> str -> entry.
Variable e : env.
Definition exports_for (s : signal) (c : component) : Prop :=
  match s with
  | Traces => c_span_exporter c = true
  | Metrics => c_metric_exporter c = true \/ c_metric_reader c = true
  | Logs => c_log_exporter c = true
  end.
Definition entry_group (s : signal) : str :=
  match s with
  | Traces => lit "opentelemetry_traces_exporter" | Metrics => lit "opentelemetry_metrics_exporter" | Logs => lit "opentelemetry_logs_exporter"
  end.
(** The exporters asked for by the program and by the variable, once each. *)
Definition asked_for (s : signal) (given : list str) (l : list component) : Prop :=
  exists listed meant, names_in pylower (e (exporters_variable s)) listed
    /\ Forall2 (stands_for e s) listed meant
    /\ Forall2 (fun n c => entry_points (entry_group s) n = Entry c /\ exports_for s c) (firsts (given ++ meant)) l.
End Config.

(** ** What is installed *)
Definition reader_for (c : component) (r : reader) : Prop :=
  (c_metric_reader c = true /\ r = PullReader c) \/ (c_metric_reader c = false /\ r = PeriodicReader c).
(** Providers in the order traces, metrics, logs, events, each with its exporters behind it; last the logging handler. *)
Definition everything (s : sampler) (g : generator) (attrs : dict str str) (te : list component) (rs : list reader) (le : list component) (handler : bool) : effects :=
  SetTracerProvider s g attrs :: map AddSpanExporter te
  ++ SetMeterProvider rs attrs :: SetLoggerProvider attrs :: map AddLogExporter le
  ++ SetEventLoggerProvider :: if handler then [AddLoggingHandler] else [].
Definition chosen_generator (entry_points : str -> str -> entry) (constructs : component -> bool) (e : env) (given : option N) (g : generator) : Prop :=
  match given with
  | Some n => g = GivenGenerator n
  | None => exists c, entry_points (lit "opentelemetry_id_generator")
                        (strip py_space (match e (lit "OTEL_PYTHON_ID_GENERATOR") with Some n => n | None => lit "random" end)) = Entry c
                      /\ c_id_generator c = true /\ constructs c = true /\ g = EntryGenerator c
  end.
Definition with_version (version : option str) (given attrs : dict str str) : Prop :=
  forall k, dget k attrs = match unless_empty version with
                           | Some v => if str_eqb k (lit "telemetry.auto.version") then Some v else dget k given
                           | None => dget k given
                           end.
Definition wants_handler (pylower : str -> str) (e : env) (given : option bool) (h : bool) : Prop :=
  match given with
  | Some b => h = b
  | None => h = true <-> exists v, e (lit "OTEL_PYTHON_LOGGING_AUTO_INSTRUMENTATION_ENABLED") = Some v /\ pylower (strip py_space v) = lit "true"
  end.
Definition installed_sampler (es : effects) : option sampler :=
  match es with SetTracerProvider s _ _ :: _ => Some s | _ => None end.
(** The samplers that the SDK's own entry points name. *)
Definition sdk_samplers (sampler_entry : str -> option sampler_factory) : Prop :=
  forall n, sampler_entry n = option_map builtin_sampler (dget n KNOWN_SAMPLERS).
Definition lower_on_ascii (pylower : str -> str) : Prop := forall w, Forall (fun c => (c < 128)%N) w -> pylower w = lower w.
