(** opentelemetry-sdk/src/opentelemetry/sdk/_configuration/__init__.py: configuration of the SDK from entry points and
    environment variables.  The environment does not change meanwhile.  The providers themselves are modelled elsewhere
    (Model_Processor, Model_Reader, Model_Provider, Model_Logs); here a run is the list of what was installed.  Warnings are not
    modelled. *)
From Verif Require Export Model_OtlpConfig Model_Sampling.

(** A class an entry point loads: what issubclass says about it. *)
Record component := Component {
  c_id : N; c_span_exporter : bool; c_metric_exporter : bool; c_metric_reader : bool; c_log_exporter : bool; c_id_generator : bool
}.
(** entry_points(group, name): none; one whose load() raises; or a class. *)
Inductive entry := NoEntry | BrokenEntry | Entry (c : component).
(** The argument of a sampler factory: a float, or the text of the variable. *)
Inductive sampler_arg := ArgFloat (r : double) | ArgText (s : option str).
(** A sampler factory: it may raise or return something that is not a Sampler (None). *)
Definition sampler_factory := sampler_arg -> outcome_of (option sampler).

Section Config.
Variable pylower : str -> str.
Variable pyfloat : str -> option double.
Variable entry_points : str -> str -> entry.
Variable sampler_entry : str -> option sampler_factory.     (** group opentelemetry_traces_sampler *)
Variable constructs : component -> bool.                    (** the class can be called without arguments *)
Variable environ : str -> option str.

(** 95-125 [_import_config_components] *)
Fixpoint import_components (names : list str) (group : str) : outcome_of (list (str * component)) :=
  match names with
  | [] => Ok []
  | n :: r =>
      match entry_points group n with
      | NoEntry => Raises "RuntimeError"
      | BrokenEntry => Raises "load"
      | Entry c => bind_out (import_components r group) (fun l => Ok ((n, c) :: l))
      end
  end.

(** 75-85 *)
Definition exporter_var (s : signal) : str :=
  match s with Traces => lit "OTEL_TRACES_EXPORTER" | Metrics => lit "OTEL_METRICS_EXPORTER" | Logs => lit "OTEL_LOGS_EXPORTER" end.
Definition protocol_var (s : signal) : str := lit "OTEL_EXPORTER_OTLP_" ++ signal_name s ++ lit "_PROTOCOL".
(** 70-73 *)
Definition exporter_by_protocol (p : str) : option str :=
  if str_eqb p (lit "grpc") then Some (lit "otlp_proto_grpc")
  else if str_eqb p (lit "http/protobuf") then Some (lit "otlp_proto_http") else None.
(** 136-177 [_get_exporter_entry_point] *)
Definition exporter_entry_point (name : str) (s : signal) : outcome_of str :=
  if (str_eqb name (lit "otlp") || str_eqb name (lit "otlp_proto_grpc") || str_eqb name (lit "otlp_proto_http"))%bool then
    match or_str (environ (protocol_var s)) (environ (lit "OTEL_EXPORTER_OTLP_PROTOCOL")) with
    | Some ((_ :: _) as p) =>
        if str_eqb name (lit "otlp") then
          match exporter_by_protocol (strip py_space p) with Some e => Ok e | None => Raises "RuntimeError" end
        else Ok name
    | _ => if str_eqb name (lit "otlp") then Ok (lit "otlp_proto_grpc") else Ok name
    end
  else Ok name.
Fixpoint all_ok {A B} (f : A -> outcome_of B) (l : list A) : outcome_of (list B) :=
  match l with [] => Ok [] | x :: r => bind_out (f x) (fun y => bind_out (all_ok f r) (fun ys => Ok (y :: ys))) end.
(** 180-191 [_get_exporter_names] *)
Definition exporter_names (s : signal) : outcome_of (list str) :=
  match environ (exporter_var s) with
  | Some ((_ :: _) as names) =>
      if str_eqb (strip py_space (pylower names)) (lit "none") then Ok []
      else all_ok (fun n => exporter_entry_point (strip py_space n) s) (split_on 44 names)
  | _ => Ok []
  end.

(** 262-310 [_import_exporters]: one signal *)
Definition group_of (s : signal) : str :=
  match s with
  | Traces => lit "opentelemetry_traces_exporter" | Metrics => lit "opentelemetry_metrics_exporter" | Logs => lit "opentelemetry_logs_exporter"
  end.
Definition right_class (s : signal) (c : component) : bool :=
  match s with Traces => c_span_exporter c | Metrics => c_metric_exporter c || c_metric_reader c | Logs => c_log_exporter c end.
Definition import_exporters (s : signal) (names : list str) : outcome_of (dict str component) :=
  bind_out (import_components names (group_of s)) (fun l =>
  fold_left (fun acc nc => bind_out acc (fun d => if right_class s (snd nc) then Ok (dset (fst nc) (snd nc) d) else Raises "RuntimeError")) l (Ok [])).

(** 320-350 [_import_sampler] with 313-317; None: the default sampler is used *)
Definition import_sampler (name : option str) : option sampler :=
  match name with
  | Some ((_ :: _) as n) =>
      match sampler_entry (strip py_space n) with
      | None => None
      | Some factory =>
          let var := environ (lit "OTEL_TRACES_SAMPLER_ARG") in
          let arg := if (str_eqb n (lit "traceidratio") || str_eqb n (lit "parentbased_traceidratio"))%bool
                     then ArgFloat (match var with Some v => match pyfloat v with Some r => r | None => done_ end | None => done_ end)
                     else ArgText var in
          match factory arg with Ok (Some s) => Some s | _ => None end
      end
  | _ => None
  end.
(** sampling.py 398-418 and 324-346: the factories of the SDK (pyproject.toml 41-47).  A rate that is not a float raises
    TypeError. *)
Definition builtin_sampler (k : known_sampler) : sampler_factory := fun arg =>
  match k with
  | KAlwaysOn => Ok (Some ALWAYS_ON)
  | KAlwaysOff => Ok (Some ALWAYS_OFF)
  | KParentOn => Ok (Some (parent_based ALWAYS_ON default_delegates))
  | KParentOff => Ok (Some (parent_based ALWAYS_OFF default_delegates))
  | KRatio => match arg with ArgFloat r => bind_out (ratio_bound r) (fun b => Ok (Some (ratio_sampler b))) | _ => Raises "TypeError" end
  | KParentRatio =>
      match arg with ArgFloat r => bind_out (ratio_bound r) (fun b => Ok (Some (parent_based (ratio_sampler b) default_delegates))) | _ => Raises "TypeError" end
  end.

(** 353-361 [_import_id_generator] *)
Definition import_id_generator (name : str) : outcome_of component :=
  bind_out (import_components [strip py_space name] (lit "opentelemetry_id_generator")) (fun l =>
  match l with
  | (_, c) :: _ => if c_id_generator c then if constructs c then Ok c else Raises "constructor" else Raises "RuntimeError"
  | [] => Raises "RuntimeError"
  end).

(** What is installed, in order.  A span or log exporter is wrapped in a batch processor, a metric exporter (but not a metric
    reader) in a PeriodicExportingMetricReader. *)
Inductive reader := PullReader (c : component) | PeriodicReader (c : component).
Inductive effect {Gen Attrs : Type} :=
| SetTracerProvider (s : sampler) (g : Gen) (attrs : Attrs)
| AddSpanExporter (c : component)
| SetMeterProvider (l : list reader) (attrs : Attrs)
| SetLoggerProvider (attrs : Attrs)
| AddLogExporter (c : component)
| SetEventLoggerProvider
| AddLoggingHandler.
Arguments effect : clear implicits.

(** An id generator given by the program, or one of an entry point *)
Inductive generator := GivenGenerator (n : N) | EntryGenerator (c : component).
Record config_args := ConfigArgs {
  ca_auto_version : option str; ca_trace_names : list str; ca_metric_names : list str; ca_log_names : list str;
  ca_sampler : option sampler; ca_attributes : dict str str; ca_id_generator : option N; ca_logging_handler : option bool
}.

Definition effects := list (effect generator (dict str str)).
(** 204-211, 249-253: exporters are made one by one; the first that raises ends the configuration. *)
Fixpoint add_all (mk : component -> effect generator (dict str str)) (l : list component) : effects * bool :=
  match l with
  | [] => ([], true)
  | c :: r => if constructs c then let '(es, ok) := add_all mk r in (mk c :: es, ok) else ([], false)
  end.
(** 220-232 *)
Definition make_reader (c : component) : reader := if c_metric_reader c then PullReader c else PeriodicReader c.

(** 364-423 [_initialize_components] with 194-259.  Resource.create (Model_Resource) is applied to the attributes.  The sampler
    of a TracerProvider without one is that of Model_Sampling. *)
Definition initialize (a : config_args) : effects * outcome_of unit :=
  let names s given := bind_out (exporter_names s) (fun l => Ok (given ++ l)) in
  match bind_out (names Traces (ca_trace_names a)) (fun tn => bind_out (names Metrics (ca_metric_names a)) (fun mn =>
        bind_out (names Logs (ca_log_names a)) (fun ln =>
        bind_out (import_exporters Traces tn) (fun te => bind_out (import_exporters Metrics mn) (fun me =>
        bind_out (import_exporters Logs ln) (fun le => Ok (te, me, le))))))) with
  | Raises e => ([], Raises e)
  | Ok (te, me, le) =>
      let smp := match ca_sampler a with Some s => Some s | None => import_sampler (environ (lit "OTEL_TRACES_SAMPLER")) end in
      match (match ca_id_generator a with
             | Some g => Ok (GivenGenerator g)
             | None => bind_out (import_id_generator (match environ (lit "OTEL_PYTHON_ID_GENERATOR") with Some n => n | None => lit "random" end))
                         (fun c => Ok (EntryGenerator c))
             end) with
      | Raises e => ([], Raises e)
      | Ok gen =>
          let attrs := match ca_auto_version a with
                       | Some ((_ :: _) as v) => dset (lit "telemetry.auto.version") v (ca_attributes a)
                       | _ => ca_attributes a
                       end in
          match (match smp with Some s => Ok s | None => sampler_from_env pylower pyfloat environ end) with
          | Raises e => ([], Raises e)
          | Ok s =>
              let '(e1, ok1) := add_all AddSpanExporter (values te) in
              let es := SetTracerProvider s gen attrs :: e1 in
              if negb ok1 then (es, Raises "constructor")
              else if negb (forallb constructs (values me)) then (es, Raises "constructor")
              else
                let es := es ++ [SetMeterProvider (map make_reader (values me)) attrs] in
                let '(e2, ok2) := add_all AddLogExporter (values le) in
                let es := es ++ SetLoggerProvider attrs :: e2 in
                if negb ok2 then (es, Raises "constructor")
                else
                  let handler := match ca_logging_handler a with
                                 | Some b => b
                                 | None => str_eqb (pylower (strip py_space (match environ (lit "OTEL_PYTHON_LOGGING_AUTO_INSTRUMENTATION_ENABLED") with Some v => v | None => lit "false" end))) (lit "true")
                                 end in
                  (es ++ SetEventLoggerProvider :: (if handler then [AddLoggingHandler] else []), Ok tt)
          end
      end
  end.
End Config.
Arguments effect : clear implicits.
