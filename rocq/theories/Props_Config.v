(** Property theorems C94, C95: what auto-configuration installs from the program's arguments, the entry points and the
    environment.

    The theorems range over every environment, every set of entry points, every lower-casing and number-reading function and
    every choice of which classes can be constructed. *)
From Verif Require Import Spec_Config Proof_Sampling Proof_Config.

(** C94: if anything at all is installed, every exporter named by the program or the environment was found, and what is
    installed is the beginning of the full configuration; it is all of it, without an exception, exactly when every exporter
    could be constructed.  Nothing installed is always an exception. *)
Theorem C94_installed :
  forall pylower pyfloat entry_points sampler_entry constructs environ a es r,
    lower_on_ascii pylower ->
    initialize pylower pyfloat entry_points sampler_entry constructs environ a = (es, r) ->
    (es = [] /\ r <> Ok tt)
    \/ exists te me le rs s g attrs handler,
         asked_for pylower entry_points environ Traces (ca_trace_names a) te
         /\ asked_for pylower entry_points environ Metrics (ca_metric_names a) me
         /\ asked_for pylower entry_points environ Logs (ca_log_names a) le
         /\ Forall2 reader_for me rs
         /\ chosen_generator entry_points constructs environ (ca_id_generator a) g
         /\ with_version (ca_auto_version a) (ca_attributes a) attrs
         /\ wants_handler pylower environ (ca_logging_handler a) handler
         /\ (exists rest, everything s g attrs te rs le handler = es ++ rest /\ (r = Ok tt -> rest = []))
         /\ (r = Ok tt <-> Forall (fun c => constructs c = true) (te ++ me ++ le)).
Proof.
  intros pl pf ep se con env a es r L E. destruct (initialize_cases _ _ _ _ _ _ _ _ _ E) as [H|(te & me & le & s & g & A1 & A2 & A3 & Hs & Hg & Hr & _ & Hc)]; [left; exact H|].
  right. exists te, me, le, (readied me), s, g, (attributes_of a), (handler_of pl env a).
  split; [exact A1|]. split; [exact A2|]. split; [exact A3|]. split; [apply readied_spec|]. split; [apply generator_spec; exact Hg|].
  split; [apply attributes_spec|]. split; [apply handler_spec; exact L|]. split; [exact Hr|exact Hc].
Qed.
Print Assumptions C94_installed.

(** Conversely, when every name is found and the sampler is given or chosen without error, the tracer provider at least is
    installed; with every exporter constructible, everything is (by the theorem above). *)
Theorem C94_succeeds :
  forall pylower pyfloat entry_points sampler_entry constructs environ a te me le s g,
    asked_for pylower entry_points environ Traces (ca_trace_names a) te ->
    asked_for pylower entry_points environ Metrics (ca_metric_names a) me ->
    asked_for pylower entry_points environ Logs (ca_log_names a) le ->
    ca_sampler a = Some s \/ sampler_from_env pylower pyfloat environ = Ok s ->
    chosen_generator entry_points constructs environ (ca_id_generator a) g ->
    exists es r, initialize pylower pyfloat entry_points sampler_entry constructs environ a = (es, r) /\ es <> [].
Proof.
  intros pl pf ep se con env a te me le s g A1 A2 A3 Hs Hg. apply generator_spec in Hg.
  assert (X : exists s', sampler_of pl pf se env a = Ok s').
  { unfold sampler_of. destruct (ca_sampler a) as [x|]; [eauto|]. destruct Hs as [Hs|Hs]; [discriminate|].
    destruct (import_sampler _ _ _ _); eauto. }
  destruct X as (s' & X). eapply initialize_succeeds; eassumption.
Qed.
Print Assumptions C94_succeeds.

(** The exporters for one signal are determined by the names: asking is a function. *)
Theorem C94_asked_once :
  forall pylower entry_points environ sig given l,
    asked_for pylower entry_points environ sig given l ->
    forall l', asked_for pylower entry_points environ sig given l' -> l = l'.
Proof.
  intros pl ep env sig given l A l' A'. apply (asked_names pl ep (fun _ => true)) in A. apply (asked_names pl ep (fun _ => true)) in A'.
  destruct A as (n & d & N & D & <-), A' as (n' & d' & N' & D' & <-). congruence.
Qed.
Print Assumptions C94_asked_once.

(** *** A setting with everything in it *)
Definition setting_span_exp (n : N) := Component n true false false false false.
Definition setting_metric_exp (n : N) := Component n false true false false false.
Definition setting_metric_rdr (n : N) := Component n false false true false false.
Definition setting_log_exp (n : N) := Component n false false false true false.
Definition setting_generator_class := Component 9 false false false false true.
Definition setting_entries (group name : str) : entry :=
  if str_eqb group (lit "opentelemetry_traces_exporter") then
    if str_eqb name (lit "otlp_proto_grpc") then Entry (setting_span_exp 1)
    else if str_eqb name (lit "otlp_proto_http") then Entry (setting_span_exp 2)
    else if str_eqb name (lit "console") then Entry (setting_span_exp 3) else NoEntry
  else if str_eqb group (lit "opentelemetry_metrics_exporter") then
    if str_eqb name (lit "otlp_proto_grpc") then Entry (setting_metric_exp 4)
    else if str_eqb name (lit "prometheus") then Entry (setting_metric_rdr 5) else NoEntry
  else if str_eqb group (lit "opentelemetry_logs_exporter") then
    if str_eqb name (lit "otlp_proto_grpc") then Entry (setting_log_exp 6) else NoEntry
  else if str_eqb group (lit "opentelemetry_id_generator") then
    if str_eqb name (lit "random") then Entry setting_generator_class else NoEntry
  else NoEntry.
Definition setting_sdk (n : str) : option sampler_factory := option_map builtin_sampler (dget n KNOWN_SAMPLERS).
Definition setting_env_of (l : dict str str) (n : str) : option str := dget n l.
Definition setting_no_floats (_ : str) : option double := None.
Definition setting_tenth (s : str) : option double := if str_eqb s (lit "0.5") then Some (DFin 1 (-1)) else if str_eqb s (lit "2") then Some (DFin 1 1) else None.
Definition setting_plain := ConfigArgs None [] [] [] None [] None None.
Definition setting_variables : dict str str :=
  [(lit "OTEL_TRACES_EXPORTER", lit "otlp, console,otlp"); (lit "OTEL_METRICS_EXPORTER", lit "prometheus,otlp");
   (lit "OTEL_LOGS_EXPORTER", lit " None "); (lit "OTEL_EXPORTER_OTLP_TRACES_PROTOCOL", lit "http/protobuf ");
   (lit "OTEL_PYTHON_LOGGING_AUTO_INSTRUMENTATION_ENABLED", lit " TRUE")].

Example C94_example :
  exists s, let a := ConfigArgs (Some (lit "0.54b")) [] [] [] None [(lit "k", lit "v")] None None in
  initialize lower setting_no_floats setting_entries setting_sdk (fun _ => true) (setting_env_of setting_variables) a
  = ([SetTracerProvider s (EntryGenerator setting_generator_class) [(lit "k", lit "v"); (lit "telemetry.auto.version", lit "0.54b")];
      AddSpanExporter (setting_span_exp 2); AddSpanExporter (setting_span_exp 3);
      SetMeterProvider [PullReader (setting_metric_rdr 5); PeriodicReader (setting_metric_exp 4)]
        [(lit "k", lit "v"); (lit "telemetry.auto.version", lit "0.54b")];
      SetLoggerProvider [(lit "k", lit "v"); (lit "telemetry.auto.version", lit "0.54b")];
      SetEventLoggerProvider; AddLoggingHandler], Ok tt).
Proof. eexists. reflexivity. Qed.
Example C94_example_hypotheses : lower_on_ascii lower
  /\ asked_for lower setting_entries (setting_env_of setting_variables) Traces [] [setting_span_exp 2; setting_span_exp 3].
Proof.
  split; [intros w _; reflexivity|].
  exists [lit "otlp"; lit "console"; lit "otlp"], [lit "otlp_proto_http"; lit "console"; lit "otlp_proto_http"].
  split; [right; split; [vm_compute; discriminate|]|].
  - exists [lit "otlp"; lit " console"; lit "otlp"]. split; [reflexivity|]. split; [|split; [discriminate|reflexivity]].
    repeat constructor; vm_compute; intuition discriminate.
  - split; [|repeat constructor].
    constructor; [right; split; [reflexivity|right; split; reflexivity]|].
    constructor; [left; split; [vm_compute; discriminate|reflexivity]|].
    constructor; [right; split; [reflexivity|right; split; reflexivity]|constructor].
Qed.

(** A name nobody provides leaves the process unconfigured, with an exception; so does "none" beside another name. *)
Example C94_unknown_name :
  initialize lower setting_no_floats setting_entries setting_sdk (fun _ => true)
    (setting_env_of [(lit "OTEL_TRACES_EXPORTER", lit "console"); (lit "OTEL_LOGS_EXPORTER", lit "otpl")]) setting_plain = ([], Raises "RuntimeError")
  /\ initialize lower setting_no_floats setting_entries setting_sdk (fun _ => true)
    (setting_env_of [(lit "OTEL_TRACES_EXPORTER", lit "console,none")]) setting_plain = ([], Raises "RuntimeError").
Proof. split; reflexivity. Qed.

(** Configuration is not all or nothing: an exporter whose constructor raises leaves the providers before it installed. *)
Theorem C94_all_or_nothing_refuted :
  exists pylower pyfloat entry_points sampler_entry constructs environ a es e,
    initialize pylower pyfloat entry_points sampler_entry constructs environ a = (es, Raises e) /\ es <> [].
Proof.
  exists lower, setting_no_floats, setting_entries, setting_sdk, (fun c => negb (N.eqb (c_id c) 4)), (setting_env_of setting_variables), setting_plain.
  do 2 eexists. split; [reflexivity|discriminate].
Qed.
Print Assumptions C94_all_or_nothing_refuted.

(** C95: a sampler given by the program is installed. *)
Theorem C95_argument :
  forall pylower pyfloat entry_points sampler_entry constructs environ a es r s,
    ca_sampler a = Some s ->
    initialize pylower pyfloat entry_points sampler_entry constructs environ a = (es, r) -> es <> [] ->
    installed_sampler es = Some s.
Proof.
  intros pl pf ep se con env a es r s Hs E Ne. destruct (initialize_cases _ _ _ _ _ _ _ _ _ E) as [[H _]|(te & me & le & s' & g & _ & _ & _ & Ho & _ & _ & Hi & _)]; [congruence|].
  unfold sampler_of in Ho. rewrite Hs in Ho. congruence.
Qed.
Print Assumptions C95_argument.

(** A sampler from another package's entry point is installed; its factory is given the text of OTEL_TRACES_SAMPLER_ARG. *)
Theorem C95_plugin :
  forall pylower pyfloat entry_points sampler_entry constructs environ a es r s n factory,
    ca_sampler a = None -> environ (lit "OTEL_TRACES_SAMPLER") = Some n -> n <> [] -> ~ uses_rate n ->
    sampler_entry (strip py_space n) = Some factory ->
    factory (ArgText (environ (lit "OTEL_TRACES_SAMPLER_ARG"))) = Ok (Some s) ->
    initialize pylower pyfloat entry_points sampler_entry constructs environ a = (es, r) -> es <> [] ->
    installed_sampler es = Some s.
Proof.
  intros pl pf ep se con env a es r s n f Hs Hn Nn Hu Hf Hx E Ne.
  destruct (initialize_cases _ _ _ _ _ _ _ _ _ E) as [[H _]|(te & me & le & s' & g & _ & _ & _ & Ho & _ & _ & Hi & _)]; [congruence|].
  unfold sampler_of in Ho. rewrite Hs, Hn, import_sampler_named, Hf in Ho by exact Nn.
  assert (B : (str_eqb n (lit "traceidratio") || str_eqb n (lit "parentbased_traceidratio"))%bool = false).
  { destruct (_ || _)%bool eqn:Eb; [|reflexivity]. apply Bool.orb_true_iff in Eb. exfalso. apply Hu.
    destruct Eb as [Eb|Eb]; apply str_eqb_true in Eb; [left|right]; exact Eb. }
  rewrite B, Hx in Ho. congruence.
Qed.
Print Assumptions C95_plugin.

(** With the SDK's own samplers, the one installed is the one the variables name, and it samples accordingly. *)
Theorem C95_environment_partial :
  forall pylower pyfloat entry_points sampler_entry constructs environ a es r,
    lower_on_ascii pylower -> sdk_samplers sampler_entry -> ca_sampler a = None ->
    (forall n, environ (lit "OTEL_TRACES_SAMPLER") = Some n -> strip py_space n = n) ->
    initialize pylower pyfloat entry_points sampler_entry constructs environ a = (es, r) -> es <> [] ->
    let name := env_name pylower environ in let rate := env_rate pyfloat environ in
    (uses_rate name -> rate_in_range rate)
    /\ exists s, installed_sampler es = Some s
       /\ forall cur c t n k attrs l,
            sampled (s cur c t n k attrs l) <-> env_sampled name rate (current_span_context (resolve cur c)) t.
Proof.
  intros pl pf ep se con env a es r L Hs Hn Hsp E Ne name rate.
  destruct (initialize_cases _ _ _ _ _ _ _ _ _ E) as [[H _]|(te & me & le & s' & g & _ & _ & _ & Ho & _ & _ & Hi & _)]; [congruence|].
  rewrite sampler_of_env in Ho by assumption.
  destruct (sampler_from_env_spec pl pf env) as [(_ & _ & C)|(Hr & s & Es & Sp)]; [congruence|].
  split; [exact Hr|]. assert (s' = s) by congruence. subst s'. exists s. split; [exact Hi|exact Sp].
Qed.
Print Assumptions C95_environment_partial.
(** Missing: names with spaces around them, for which the claim is false. *)

Example C95_example :
  let e := setting_env_of [(lit "OTEL_TRACES_SAMPLER", lit "traceidratio"); (lit "OTEL_TRACES_SAMPLER_ARG", lit "0.5")] in
  sdk_samplers setting_sdk /\ lower_on_ascii lower
  /\ exists es s, initialize lower setting_tenth setting_entries setting_sdk (fun _ => true) e setting_plain = (es, Ok tt)
     /\ es <> [] /\ installed_sampler es = Some s.
Proof. split; [intros n; reflexivity|]. split; [intros w _; reflexivity|]. do 2 eexists. split; [reflexivity|]. split; [discriminate|reflexivity]. Qed.

(** " traceidratio" finds the ratio sampler, hands it text instead of a number, and ends with every trace sampled. *)
Theorem C95_spaces_refuted :
  exists pylower pyfloat entry_points sampler_entry constructs environ a es s,
    lower_on_ascii pylower /\ sdk_samplers sampler_entry /\ ca_sampler a = None
    /\ environ (lit "OTEL_TRACES_SAMPLER") = Some (lit " traceidratio") /\ env_rate pyfloat environ = DFin 1 (-1)
    /\ initialize pylower pyfloat entry_points sampler_entry constructs environ a = (es, Ok tt)
    /\ installed_sampler es = Some s
    /\ forall t n k attrs l, sampled (s [] None t n k attrs l).
Proof.
  exists lower, setting_tenth, setting_entries, setting_sdk, (fun _ => true),
    (setting_env_of [(lit "OTEL_TRACES_SAMPLER", lit " traceidratio"); (lit "OTEL_TRACES_SAMPLER_ARG", lit "0.5")]), setting_plain.
  do 2 eexists. split; [intros w _; reflexivity|]. split; [intros n; reflexivity|]. split; [reflexivity|]. split; [reflexivity|]. split; [reflexivity|].
  split; [reflexivity|]. split; [reflexivity|]. intros. reflexivity.
Qed.
Print Assumptions C95_spaces_refuted.

(** A rate out of range does not fall back to the default sampler: the configuration raises. *)
Theorem C95_rate_fallback_refuted :
  exists pylower pyfloat entry_points sampler_entry constructs environ a,
    lower_on_ascii pylower /\ sdk_samplers sampler_entry
    /\ import_sampler pyfloat sampler_entry environ (environ (lit "OTEL_TRACES_SAMPLER")) = None
    /\ initialize pylower pyfloat entry_points sampler_entry constructs environ a = ([], Raises "ValueError").
Proof.
  exists lower, setting_tenth, setting_entries, setting_sdk, (fun _ => true),
    (setting_env_of [(lit "OTEL_TRACES_SAMPLER", lit "traceidratio"); (lit "OTEL_TRACES_SAMPLER_ARG", lit "2")]), setting_plain.
  split; [intros w _; reflexivity|]. split; [intros n; reflexivity|]. split; reflexivity.
Qed.
Print Assumptions C95_rate_fallback_refuted.
