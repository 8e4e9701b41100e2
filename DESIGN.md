# Formal model of opentelemetry-python in Rocq (Coq 8.16.1)

The properties are in `properties.jsonl`, the model and proofs in `rocq/theories`, the
status of each property in `MANIFEST.json`.  This file says how each property is modelled
and proved, what the trusted base is, and what the proofs found out about the code.

## 1. Method

* Shallow embedding: each Python function is a total Gallina function that follows it branch
  by branch.  Exceptions are values (`option`/sum types), mutation returns a new state,
  loops are structural recursions or folds.
* Every model definition cites the file and lines of `/repo` it follows and names the
  simplifications.
* Layout: `Model_*.v` (definitions only), `Proof_*.v` (lemmas), `Props_*.v`
  (the property theorems, each closed by `exact`, with `Print Assumptions` beneath, and beside
  each a non-vacuity `Example`).  `Spec_*.v` hold specifications that are written independently
  of the model.
* External behaviour (sampler decisions, exporter results, clocks, random sources,
  server answers, detectors) is an argument or Section variable and so universally quantified.
* Concurrency: small-step interleaving semantics over shared state and program counters;
  a step is one access of shared state (or one lock-protected block where the code
  holds the lock for the whole block).  Theorems are invariants over all reachable states for
  any number of threads.

## 2. Representation choices

* `str`: `list N` of Unicode code points (`Model_Str.v`).
* `dict`/`OrderedDict`: association list in insertion order, keys unique (`Model_Dict.v`).
* numbers: `Z`.  A finite double is an integer multiple of 2^-1074, so any set of finite doubles
  embeds in `Z` by scaling, with order and exact sums preserved.  Rounding, NaN and infinities are in Model_Float.v and
  Model_FloatMetrics.v (C109), where ints and doubles are told apart; the other files keep to `Z`.
* time: integer nanoseconds as arguments.

## 3. Plan per property

| id | model | proof |
|----|-------|-------|
| C01 | TraceState constructor/add/update/delete over all strings | invariant, induction over op lists |
| C02 | same | algebraic laws per operation incl. frame (other keys, order) |
| C03 | same | expected `_refuted`: 33 entries make the constructor return the empty state |
| C04 | to_header/from_header with the delimiter and member grammar | round trip |
| C05 | from_header on arbitrary strings | all-or-nothing characterisation |
| C06 | inject/extract of traceparent/tracestate | round trip |
| C07 | extract on arbitrary strings | case characterisation + frame |
| C08 | `%032x`/`%016x` and `int(s,16)` | round trip, length, alphabet |
| C09 | B3 inject/extract | round trip |
| C10 | B3 extract | expected `_refuted` (all-zero ids are installed) + theorem for non-zero ids |
| C11 | Jaeger inject/extract | round trip; validity expected `_refuted` |
| C12 | CompositePropagator over arbitrary members | composition and frame laws |
| C13 | Context/baggage operations | store laws |
| C14 | quote_plus/unquote_plus with UTF-8, baggage inject/extract | round trip; the header character by character |
| C15 | baggage extract on arbitrary strings | bounds, frame; the text of every stored entry against a table-based UTF-8 and percent-escape relation (Spec_Utf8, Spec_Decoding) |
| C16 | ContextVar set/reset with tokens | induction over nesting |
| C17 | use_span with arbitrary body outcome | case analysis |
| C18 | parse_env_headers | characterisation |
| C19 | Once, interleaving semantics | inductive invariant |
| C20 | BoundedAttributes | invariant over op lists, refinement |
| C21 | _clean_attribute(_value) on a universe of Python values | case characterisation, idempotence |
| C22 | BoundedList/BoundedDict | refinement to "last maxlen of history" |
| C23-C26 | Span as state machine | invariants over op lists |
| C27 | SpanLimits env resolution | case characterisation |
| C28-C31 | samplers, start_span, id generator | laws with arbitrary samplers / random source |
| C32 | SynchronousMultiSpanProcessor with clock oracle | characterisation |
| C33 | SimpleSpanProcessor | refinement to filter |
| C34-C37 | BatchSpanProcessor, interleaving semantics | inductive invariants over reachable states |
| C38-C40 | Sum/LastValue aggregation | refinement to measurement history |
| C41 | explicit histogram | refinement to counting specification |
| C42 | ExponentMapping | arithmetic characterisation |
| C43-C45 | circular buckets, exponential aggregation, merge | refinement to index->count map; C45 expected `_refuted` |
| C46-C49 | view storage, instruments, exemplar reservoirs, registration | refinement / invariants |
| C50-C51 | Resource | algebraic laws; create |
| C52-C54 | OTLP encoders and retry | flattening law, round trip, loop characterisation |
| C55-C56 | Prometheus mapping | laws |
| C57 | LogRecord | expected `_refuted` at limit 0 |
| C58 | Jaeger `uberctx-` headers | round trip; refuted for names containing the prefix; the text of every extracted entry against Spec_Utf8 |
| C59 | `fields` of every propagator against the keys `inject` sets | inclusion; refuted for Jaeger |
| C60 | Span.__exit__ on all body outcomes | case characterisation |
| C61 | sampler selection from the environment | case characterisation |
| C62 | start_span with a remote parent, inject after extract | composition of C06, C09 and C11 (W3C, B3, Jaeger) with the span model |
| C63 | batch processor transition system | progress: some thread can step in every reachable state |
| C64 | reservoirs over all random draws | counting of draw sequences; refuted for size >= 2 |
| C65 | exemplar slots with span contexts | invariant; refuted outside spans |
| C66 | measurement consumer, reader storage, view matching | refinement to "one record per applying view" |
| C67-C69 | OTLP encoders for spans, logs, metrics | field-by-field relation to the SDK objects |
| C70-C71 | Prometheus unit mapping, families, the target and scrapes | alphabet law; relational specification of names (Spec_PromNames); grouping law; refutations |
| C72-C76 | severity table, LoggingHandler, LoggerProvider, simple log processor, EventLogger | characterisations and invariants |
| C77-C78 | proxies with set_provider as transition system | invariants over interleavings |
| C79-C81 | Zipkin encoders and exporter histories | relational specification of tags; history induction |
| C82-C83 | periodic reader as transition system (ticker, program threads, exporter) | inductive invariants |
| C84-C87 | MeterProvider loops, get_meter, reader registration, temporality tables | characterisations, history induction |
| C88 | built-in samplers and all compositions of them | induction over the composition |
| C89 | the metrics pipeline from `add`/`record`/`set` calls to the OTLP request (Model_Pipeline), for instruments without a view | composition: consumer histories (C66), streams (C46), aggregations (C38–C41), encoder (C69) |
| C90 | the tracing pipeline from `start_span` and span calls through the batch processor to the OTLP request (Model_Tracing), any number of threads | composition: start_span (C30), spans under any schedule (C24), batch processor (C34–C37), encoder (C52, C67); own invariant linking spans and queue |
| C91 | constructors of the OTLP HTTP exporters, sessions with case-insensitive headers, environment changes and exports as one history (Model_OtlpConfig) | invariant over histories: an exporter's settings never change; refinement of the constructor to a choice specification |
| C92 | TLS decisions of the HTTP and gRPC constructors, `_get_credentials`; files and urlparse as parameters | case analysis against the choice specification; refuted for empty variables and missing files |
| C93 | constructors of the gRPC exporters (Model_OtlpConfig) | refinement to the choice specification, both directions |
| C94, C95 | sdk `_configuration` from arguments, entry points and environment to the list of what is installed (Model_Config); a class is what issubclass says about it | refinement to a separate reading of the variables, both directions; the sampler composes with C61 |
| C96 | module body of api `propagate` (Model_Propagate) with the composite propagator | members that settle (idempotent, one entry each) commute and absorb repetitions; composes with C12 |
| C97 | programs of nested start_as_current_span blocks (Model_Blocks) over attach/detach, use_span, start_span and the span calls, with arbitrary actions of other threads in between | induction over programs (nested lists of statements) with a record of what every stretch of execution does to the store; the outcome and nesting are compared with a specification that knows nothing of spans |
| C98 | the log calls, the batch log record processor and the OTLP log encoder put together beside the traced program of C90 (Model_Logging) | the batch lemmas of C90 over items numbered by the call (Proof_Batch), an invariant for the logger provider, and the encoders of C67/C68 |
| C99–C101 | the OpenTracing shim: tracer, spans, scopes and scope manager over attach/detach, start_span and the span calls (Model_Shim); a history may mix both APIs in any number of threads and tasks | invariant that reads a unit's context variable as the nesting of what it is inside of, by induction over histories; C99, C101 compose it with C30/C24 |
| C102, C103 | inject, extract and baggage items of the OpenTracing shim (Model_Shim) | composes with C06, C07; histories of items by induction |
| C104, C105 | Model_Pipeline with views, and with observations in the collections | per-stream invariant of the view's aggregations over histories (interval since the reader's last completed collection), then the encoder; observable counters relate a collection to the last one that told something about the attributes |
| C106 | observable instruments with function and generator callbacks, and the collection loop with its clock (Model_Observable) | loop induction to the split at the deadline; invariant over programs that each callback stands where its calls have taken it |
| C107 | every lock, read and write of `measurement_consumer`, `metric_reader_storage`, `_view_instrument_match` and the aggregations as a program of single steps; any number of threads and any schedule (Model_MetricThreads); the SDK's aggregations in it (Model_MetricSdk) | program logic with a world of ghost facts (which match and stream an object is) and rely/guarantee by monotone extension; invariant over schedules; progress by lock order, termination by well-founded programs; histories read off the record |
| C108 | os.fork() as the system with one thread and all locks as they are | bisimulation when no call is under way; two stuck systems otherwise |
| C109 | Python's int and float (Flocq's binary64) with mixed arithmetic, comparison and OverflowError (Model_Float); the aggregations on them (Model_FloatMetrics) | induction over histories with an error bound that grows with each rounding; monotonicity of rounding; bisection; simulation of the integer model |
| C110 | LogarithmMapping's arithmetic on doubles, with any math.log of a stated accuracy (Model_FloatExp), under the model of C42-C45 | error analysis of the three roundings; rounding commutes with powers of two; a log that is consistent at the measured values is replaced by one consistent everywhere, so C44/C45 apply; ln 2 to 80 bits by repeated squaring for the refutations |
| C111 | the span's lock and what runs inside and after it: single attribute stores, warnings, `_check_span_ended`'s, start's and end's records, the read-only view and on_end, as frames of threads (Model_SpanThreads) | refinement of the schedules of C23/C24 (what is left of the method that has the lock is applied to the span); order by what a thread has left; progress by the frames above a method inside the lock; a cost that goes down |
| C112 | `_at_fork_reinit` on the transition system of C34-C37; a world of processes (Model_Fork); forks of a machine of C111 | invariants of C34-C37 survive a fork; numbered calls, NoDup over all processes; projection of a world's run to one process; refinement of C111 restarted with the copied span |
| C113 | ShimTracer and ShimSpan over the contexts, spans and blocks of C01, C25-C28 and C69 (Model_OpenCensus) | induction over histories of calls of both APIs; well-nested regions of one thread or task inside arbitrary interleavings; counterexample runs |
| C114 | `ns_to_iso_str`, `LoggingHandler` timestamps, OpenTracing seconds, OpenCensus times, in IEEE floats (Flocq), with the calendar (Model_Times) | half-ulp error bounds of each operation; exactness of modf; induction over years and months against an inductive calendar |
| C115 | `translate_to_collector`, `util.py` and `export` of the OpenCensus exporter (Model_OcExporter) | field by field against a relation that says what a message says; totality on exactly the spans that can be sent; counterexamples |
| C116 | `json.dumps` and `json.loads` as the SDK calls them (Model_Json), against the grammar of RFC 8259 with what each text stands for (Spec_Json) | induction over values for writing; mutual induction over the grammar for reading, with any text after it; the characters outside of strings as the invariant that refutes NaN |
| C117 | `to_json` of spans and ConsoleSpanExporter (Model_Document), against what each member should say (Spec_Document) | each part is made, says what it should and is well-formed JSON; streams by the parser's uniqueness; what attributes keep by the invariant of C21 |
| C118 | `to_json` of log records and ConsoleLogExporter | as C117, by induction over the body |
| C119 | `to_json` of metrics and ConsoleMetricExporter | as C117; each level is read back by C116 |
| C120 | NoOpTracer, INVALID_SPAN and use_span in programs of nested blocks, with messages, exceptions and other threads (Model_NoSdk) | refinement: the runtime's current context is at every point the one of the enclosing blocks (Spec_NoSdk.seens); then C06 and C07 for what is passed on |
| C121 | with blocks in frames that are suspended and resumed, in tasks; the decorator (Model_Frames) | simulation: tokens of open blocks stay unused; in nested schedules (Spec_Frames.nests) the current span is the innermost; refutations by schedules |
| C122 | in-memory exporters under threads, the in-memory metric reader (Model_Memory) | ghost order of the calls in memory; multiset accounting of measurements; refuted: growth after shutdown, flushed deltas |
| C123 | providers, their batch processors and the exit of the interpreter (Model_Exit) | invariant over histories, then induction over the exit callbacks; refuted: concurrent multi processor, raising exporters, early callbacks |
| C124 | set and get of the global provider by threads, one step per shared read, write and lock operation (Model_Global) | invariant over histories; a call and its result matched in the log; measure for progress; refuted: loaded once, raising hook |
| C125 | GlobalErrorHandler.__exit__ over any entry points (Model_ErrorHandler) | induction over the entry points; refuted: derived classes, interrupts |
| C126 | process, OS and host detectors over any facts about the process and platform, with Resource.create (Model_Detectors) | attribute by attribute against a relation; C51's layers; refuted: environment against detected values |
| C127 | install_shim, uninstall_shim, the property and its least-recently-used cache (Model_OcPatch) | histories; invariant of the cache; refuted: tracers made while installed, more than 128 contexts |
| C128 | OTLPMetricExporter._split_metrics_data and export (Model_Split) | one invariant for the four nested loops (points kept, sizes, parts, nothing empty), then the encoding of C69 |
| C129 | constructors of the batch processors, readers and meter provider, Python's int on texts (Model_Settings) | int against a relation on texts in both directions, then case analysis; the bounds by C35 |
| C130 | the Prometheus reader at the end of the metrics pipeline (Model_Scrape over Model_Pipeline and Model_Prometheus) | points of each stream by C104/C105's lemmas, families by C71, cumulative buckets by induction on the boundaries |
| C131 | the Zipkin exporter at the end of tracing (Model_ZipkinTracing over Model_Tracing and Model_Zipkin) | C90's spans, the shape of the processor's log (C35, C37), C79/C80 for each span; induction on the log |
| C132 | the documents of the Zipkin JSON encoders (Model_ZipkinDoc over Model_Zipkin, Model_Json and Model_Document) | C116 and C117's lemmas on what json.dumps writes; C79/C80 for the values; members by cases, spans by induction |
| C133 | the addresses and the service of the Zipkin exporters (Model_NodeEndpoint: NodeEndpoint, and of Python's ipaddress the readers and writers of addresses) | the readers decide the grammar of RFC 4291's texts, both directions, by induction on the groups; the writer by an invariant of the search for zeros; C132 for the documents |
| C134 | logging calls that come back through the SDK's handler (Model_SelfLog: LoggingHandler.emit, the two log processors, exporters that log and raise at will, a limit of nested calls) | for calm processors the call is computed, by induction on the processors; that it never ends after a shutdown, or with an exporter that raises, by induction on the limit; the worker's loops by induction on the records to go; resting and never resting by induction on the turns |
| C135 | the locks of the logging handler and of the batch log processors, with logging by the workers (Model_LogLocks: a transition system whose calls are lists of acquisitions, releases and waits) | an invariant on what each thread has and has yet to do gives the order of the locks; then every chain of waits ends, by cases on who has the lock |
| C136 | the concurrent multi processors, their thread pool and the handler's lock (Model_Pool: a transition system; processors are trees of the calls they make) | an invariant ties the tasks in the pool to the calls; a size that each step lessens gives the end; in a state where nothing goes on, the youngest running task gives a contradiction; refuted for every pool size by a state that is reached by induction |
| C137 | exponential histograms among the aggregations of the metrics pipeline (Model_ExpPipeline over Model_ExpHist and Model_Storage), up to what a collection delivers and the OTLP request made of it | the stream of each attribute set (C46, C66) runs a single exponential histogram, to which C44 and C45 apply; absence of exceptions from the storage invariant; refuted for amounts of zero and for observable instruments |
| C138 | the aggregation objects that views and readers name, with the boundaries they hold, as state beside the readers' storage (Model_Boundaries over Model_Storage and Model_Pipeline) | refinement: with the boundaries the objects hold in the end, the run equals the one of the plain pipeline, to which C104 applies; refuted for an object shared by histograms with different boundaries (the OTLP exporters' default) and for counters |
| C139 | the context a measurement is made with, the filter, and a reservoir in the state of each stream of the readers' storage (Model_ExemplarPipeline over Model_Exemplar, Model_Storage and Model_Pipeline) | invariant per stream: the reservoir's state is that of a history of offers and collections with one interval per collection (a collection without a point leaves an untouched reservoir), to which C48 and C65 apply, and the streams of C66; the request by the round trip of the encoder (C69); the points themselves by erasing reservoirs, which gives the run of Model_Pipeline; refuted for an empty context given inside of a span |
| C140 | one exponential histogram (Model_ExpHist) with its reservoir (Model_Exemplar), as the measurements and collections reach it (Model_ExpExemplar) | the reservoir sees the history of the measurements that are not zero, to which C48 and C65 apply; a collection without a point leaves a reservoir in which nothing was offered; erasing the reservoir gives the histories of C44 and C45; refuted for zeros. In the storage (Model_ExpExemplarPipeline): each stream's aggregation has the history of its measurements and collections, so the delivered points and the OTLP messages are those of C137 with the exemplars of C140 |

Where a property is false of the code, the theorem with suffix `_refuted` exhibits a concrete run of the model and the
status in MANIFEST.json is `partial`; the true remainder is proved in a theorem with suffix `_partial`, whose header
comment says what is missing.

## 4. Trusted base

* The kernel of Coq 8.16.1, including `vm_compute` (used in examples and refutation witnesses).
* `Print Assumptions` stands beneath every theorem of the `Props_*.v` files and answers "Closed under the global context"
  for each of them but those of Props_Float.v (C109) and Props_FloatExp.v (C110): no axioms of ours, none of the standard library.
* The theorems of Props_Float.v and Props_FloatExp.v are about real numbers and Flocq's floats.  `Print Assumptions` lists, for each of them, these axioms of the
  standard library and no others: `ClassicalDedekindReals.sig_forall_dec`, `ClassicalDedekindReals.sig_not_dec`,
  `Classical_Prop.classic`, `FunctionalExtensionality.functional_extensionality_dep`.  Flocq itself has no axioms.  Trusted beyond
  that: that CPython's float arithmetic is IEEE 754 binary64 with rounding to nearest, ties to even,
  as are ldexp and floor exact (C110 assumes of math.log only what its hypothesis `accurate_log` says).
  (A context-wide listing of the loaded libraries shows the seven opaque constants `Coq.ssr.ssrunder.Under_rel.*` of the
  ssreflect plugin that the standard distribution loads; no theorem depends on them.)
* No `Admitted`, `admit`, axioms, functors, module types, plugins or disabled kernel checks.
* The reading of the Python code.  The model is hand written and the code is not run: the fidelity of the definitions, each
  of which cites its lines, has to be judged by reading.  `seeded/LOG.jsonl` shows which wrong versions of the definitions
  the theorems reject.
* Sequential consistency and the granularity of steps.  In the transition systems one step is one access to shared state,
  or one lock-protected block.  CPython's GIL makes single dict and deque operations atomic, which is assumed.
* Facts about Python's library that are modelled rather than derived: `re`, `str.split/strip/partition`, `urllib.parse`,
  `int(s, 16)`, dict order, `deque`, `bisect`, `contextvars`.  Their models are in `Model_Str`, `Model_Regex`, `Model_Url`,
  `Model_Dict` and the definitions that use them.
* Section variables, which the theorems quantify over, stand for: user code (samplers, processors, exporters, callbacks,
  detectors, getters and setters), clocks, random sources, the network's answers, `str.lower/upper`, `json.dumps`,
  `str(value)`, `float(int)`, `fnmatch`, and the entry point registry.

## 5. What is modelled

| module | code |
|--------|------|
| Model_Trace | api `trace/span.py`: TraceFlags, TraceState, SpanContext, id formats |
| Model_Context | api `context`, `baggage`, `baggage/propagation`, `trace/propagation`, `trace/propagation/tracecontext`, `propagators/textmap`, `propagators/composite`; B3 and Jaeger propagators |
| Model_Runtime | api `context` (attach, detach, contextvars), `trace.use_span`, `util/_once`, `util/re` |
| Model_Attr | api `attributes`; sdk `util` BoundedList, BoundedDict |
| Model_Span | sdk `trace`: SpanLimits, Span (recording calls, links, events, status, start, end, `__exit__`); api `trace/status` |
| Model_Sampling | sdk `trace/sampling`, `trace/id_generator`, Tracer.start_span |
| Model_Processor | sdk `trace` multi processors; `trace/export` Simple- and BatchSpanProcessor (the log batch processor has the same code) |
| Model_Metrics, Model_View, Model_ExpHist | sdk `metrics/_internal/aggregation`, `_view_instrument_match`, `exponential_histogram/*` |
| Model_FloatExp | sdk `exponential_histogram/mapping/logarithm_mapping` in floating point (not `get_lower_boundary`) |
| Model_Exemplar | sdk `metrics/_internal/exemplar/*` |
| Model_Meter, Model_Storage | api `metrics/_internal` instrument creation; sdk `instrument`, `view`, `metric_reader_storage`, `measurement_consumer` |
| Model_Reader, Model_Provider | sdk `metrics/_internal/export` (MetricReader, PeriodicExportingMetricReader), `metrics/_internal/__init__` MeterProvider; OTLP temporality preference |
| Model_Pipeline | glue: synchronous instruments' calls, consumer, SDK aggregations and OTLP encoder as one program |
| Model_ExpPipeline | glue: Model_Storage with exponential histograms beside any other aggregations; an exception from an exponential histogram is recorded in its state instead of ending the call (C137_no_raise) |
| Model_Boundaries | aggregation.py 1206-1475 (what `_create_aggregation` stores in the object), _view_instrument_match.py 36-134, metric_reader_storage.py 79-128, 247-295, measurement_consumer.py 58-145; exponential histograms left out; the default aggregations of the OTLP exporters |
| Model_ExemplarPipeline | instrument.py 119-296 (the context of a measurement), measurement_consumer.py 77-150 (the filter), aggregation.py 94-148 and the calls of `_sample_exemplar` and `_collect_exemplars` in sums, last values and bucket histograms, view.py 37-45; custom reservoir factories and exponential histograms left out; the random generator answers arbitrarily within its range; points and exemplars as the OTLP metrics_encoder 248-297, 346-387 gets them |
| Model_ExpExemplar | aggregation.py 628-822, 824-1060: where the exponential histogram calls `_sample_exemplar` and `_collect_exemplars`, with the reservoir of min(20, max_size); one stream (the storage is that of Model_Storage); custom reservoir factories left out |
| Model_ExpExemplarPipeline | the storage (Model_Storage) with the aggregations of Model_ExpExemplar among arbitrary others: aggregation.py 94-148, 628-1060, 1315-1350, measurement_consumer.py 77-150, metric_reader_storage.py 119-251; their points and exemplars in the OTLP request (metrics_encoder 298-387). As in Model_ExpPipeline, the storage goes on where a call on the aggregation raises; the theorems are about histories in which none does |
| Model_Observable | sdk `instrument._Asynchronous`, creation with callbacks, the loop of `measurement_consumer.collect` |
| Model_MetricThreads, Model_MetricSdk | the locks, reads and writes of sdk `measurement_consumer`, `metric_reader_storage`, `_view_instrument_match` and `aggregation` as a thread sees them (a dict look-up or store, taking and giving back a lock, reading or writing all fields of an aggregation are one step each; exemplars and metric objects are left out) |
| Model_SpanThreads | sdk `trace.Span`'s use of its lock and `BoundedAttributes.__setitem__` inside it, as threads see them (taking and giving back the lock, cleaning, making room and storing are one step each; the body of a method that stores no attributes is one step; handlers and processors are the lists of calls they make on the span) |
| Model_Fork | trees of processes with a batch processor each; `_at_fork_reinit` (Model_Processor); not `_BSP_RESET_ONCE` |
| Model_OpenCensus | OpenCensus shim: tracer, spans, contexts, OpenCensus's execution context; reading of message event times is a parameter; not `_patch`, BlankSpan's fields |
| Model_OcExporter | OpenCensus exporter: messages and export; not the node's host, process id, times and versions, nor the channel |
| Model_Json | `json.dumps(x, indent)` with its defaults and `json.loads`: escapes, numbers, nesting, blanks; floats are identities with a given `repr`; not recursion and digit limits nor keys that are not strings |
| Model_Document | `to_json` of spans, resources, scopes, log records and metrics as JSON values; the three console exporters with the default formatters; `repr` of a text is given, line separator is a line feed; not other formatters or `out` streams that raise |
| Model_NoSdk | Blocks of NoOpTracer.start_as_current_span, use_span(NoOpTracer.start_span()), attach/detach around extract and set_baggage; `except`; what other threads and tasks do to their contexts. Methods of NonRecordingSpan do nothing. A propagator whose inject raises is left out |
| Model_Frames | Schedules of enter, leave and create_task events of frames; `_AgnosticContextManager.__call__` by the kind of the function. The context holds the span only; span contents are C23-C30 and C97 |
| Model_Memory | Each critical section is one step; the metrics of the reader are seen as the measurements since the last collection (delta; C38, C89) |
| Model_Exit | Batch processors are a queue with room for all and a worker (C34, C35, C37); what the interpreter does at exit (order of atexit callbacks, unregister, thread pools closed before) is taken from CPython |
| Model_Global | Providers are numbers; loading is one step with an oracle for its result (entry points, the class's constructor and its side effects are not modelled); the four signals share the code but for the meter hook, a predicate on providers |
| Model_ErrorHandler | A class is a number with its list of ancestors; a handler is a function from the exception to returning, failing or escaping; the text of the log is left out |
| Model_Times | conversions of times; datetime.fromtimestamp, strftime and strptime for the formats used, after CPython; times before 1970 are not modelled |
| Model_Tracing | glue: start_span, the spans of a program, the batch processor and the OTLP span encoder as one program; ReadableSpan = span with resource and scope |
| Model_Resource | sdk `resources` |
| Model_Otlp, Model_Retry | OTLP common encoders; HTTP and gRPC export loops |
| Model_OtlpConfig | constructors of the OTLP HTTP and gRPC exporters; what a HTTP export posts |
| Model_Config | sdk `_configuration`: `_initialize_components` and what it calls (not `_BaseConfigurator`, a singleton) |
| Model_Propagate | api `propagate`: choice of the global propagator |
| Model_Blocks | sdk `Tracer.start_as_current_span` with api `use_span`: programs of blocks with interference |
| Model_Logging | the log calls (LoggingHandler, EventLogger, Logger), the batch log record processor and the OTLP log encoder beside a traced program |
| Model_Shim | the OpenTracing shim except access to its objects from outside (`unwrap`, `tracer`), and event names that are not texts |
| Model_Prometheus | prometheus exporter `_mapping` and `__init__` |
| Model_Logs | sdk `_logs`, `_events`; api `_logs/severity` |
| Model_Proxy | api proxies for tracers, loggers, event loggers, meters, instruments |
| Model_Float, Model_FloatMetrics | Python's numbers; sum, last value and explicit bucket histogram aggregations on them |
| Model_Zipkin | zipkin json v1/v2 and protobuf encoders and exporter |
| Model_Str, Model_Dict, Model_Regex, Model_Url | Python's texts, dicts, `re.fullmatch`, and UTF-8 and percent encoding of `urllib.parse`, as far as the modelled code uses them |
| Model_Detectors | process, OS and host detectors; what `sys`, `os`, `platform`, `socket` and psutil give is arbitrary |
| Model_OcPatch | OpenCensus shim: installing and uninstalling, the cache of shim tracers; one thread |
| Model_Split | OTLP gRPC metric exporter: splitting and export of the parts (the retry loop of one request is a parameter) |
| Model_Settings | constructors' settings: batch processors, periodic reader, exemplar filter, preferred aggregations; `int` of texts; not `float` of texts (a parameter), not the messages |
| Model_Scrape | what the Prometheus reader gets and shows for a history of calls; amounts are ints, no exponential histograms; one collection at a time (the collector's lock is not modelled) |
| Model_ZipkinTracing | the posts for the calls that the batch processor makes of the Zipkin exporter; for the bytes of the JSON text and the endpoint see Model_ZipkinDoc |
| Model_ZipkinDoc | the JSON objects of the two JSON encoders, and their text; the addresses of the endpoint are texts (for those see Model_NodeEndpoint) |
| Model_NodeEndpoint | NodeEndpoint, with `ipaddress.ip_address` and `str` of its results, for texts and ints; not bytes. `Resource.create` is Model_Resource's; which resource is used is an argument |
| Model_SelfLog | LoggingHandler on the root logger, SimpleLogRecordProcessor, BatchLogRecordProcessor and its worker, one thread at a time; records are messages; not ConcurrentMultiLogRecordProcessor, levels and filters of loggers |
| Model_LogLocks | the lock of Python's logging.Handler and the conditions of BatchLogRecordProcessor; queues, contents and how full they are are left out; not SimpleLogRecordProcessor, forks |
| Model_Pool | `_submit_and_await` of both concurrent multi processors, ThreadPoolExecutor as a queue with max_workers threads, the lock of logging.Handler; not force_flush (whose waits time out) nor the closing of pools at exit (C123) |

Not modelled: semantic convention constants and generated protobuf code; the opencensus and opentracing packages' own classes;
the libraries requests, grpc,
gzip, zlib and urllib.parse (parameters of Model_OtlpConfig; requests' CaseInsensitiveDict is modelled); prometheus_client's text format; logging output and warnings; garbage
collection and weak references (except that a weak set does not reuse identities); NaN, infinities and rounding of float
arithmetic outside Model_FloatMetrics (exponential histograms, samplers' ratios and exporters keep to integers or rationals).

## 6. What the proofs found out about the code

Each line is a theorem named `..._refuted`, or a comment in the model.

Trace state and propagation
* C03: updating an existing key of a full (32 entries) trace state, with a new value, returns the empty trace state.
* C06: injecting into a carrier that still holds a `tracestate` of an earlier call leaves the stale one.
* C10: B3 extraction installs a context with all-zero ids.
* C11: Jaeger ids are read with `int(_, 16)`, which accepts signs: "-1" is installed.  An empty `uberctx-` value list raises.
* C58: Jaeger baggage names that contain `uberctx-` do not survive.  C59: Jaeger's `fields` omits the baggage headers.
* C12: with `context=None` the order of the members of a composite matters.
* Injecting an invalid context that is not equal to INVALID_SPAN_CONTEXT writes an invalid header; flags above 255 are
  written with three digits; baggage with lone surrogates makes inject raise.

Attributes, spans, sampling
* C21: cleaning with a negative length limit is not idempotent.
* C26: a Link object given to two spans is re-wrapped in place; its dropped counter is lost.
* C27: UNSET does not remove the limit on the number of attributes (128 applies); the same holds for LogLimits.
* A falsy description is kept with any status code; a falsy non-text one makes the OTLP encoding of the batch raise.
* C62: the no-op tracer does not continue a remote trace.
* C127: an OpenCensus tracer made while the shim is installed raises AttributeError after uninstall_shim; the shim tracer of a context changes after 128
  other contexts.
* C126: the detectors are taken from a set: whether OTEL_RESOURCE_ATTRIBUTES or a detector has the last word changes from run to run.
* C129: OTEL_BSP_MAX_QUEUE_SIZE (or OTEL_BLRP_…) alone, with a valid value under 512, makes the constructor raise ValueError, since the
  default batch size is then too large.  An unknown OTEL_METRICS_EXEMPLAR_FILTER makes MeterProvider() raise.
* OTEL_TRACES_SAMPLER_ARG out of range makes the start-up raise ValueError.

Processors
* C32: a processor that raises keeps the event from those registered after it.
* C33: a BaseException from the exporter leaves instrumentation suppressed in the caller's context.
* C36: force_flush during shutdown returns True although items are queued.  C37: an on_end racing with shutdown can lose its item.

Metrics
* C66: a list as attribute value makes `add` raise after some views have counted it.  1, True and 1.0 share a stream.
* C45: the exponential histogram's cumulative collection can raise "Incorrect merge scale", which loses the interval and, with
  the periodic reader, ends the ticker.  C42: the mapping cache returns a half-built mapping for a scale out of range.
* C64: the fixed size reservoir is not uniform for sizes above 1.  C65: an exemplar of a measurement outside spans carries the
  ids of the one it replaced.
* C49: instrument ids join unit and description with commas; two threads creating the same instrument can get KeyError; so does
  a second creation with an invalid name.
* C82: force_flush returns while another thread still holds a batch; concurrent collections can reach the exporter in reverse
  order; an exception in a tick's collection ends the ticker for good.  C83: an infinite interval means no export at shutdown; a
  second shutdown returns before the first finished; collect and force_flush use the exporter after its shutdown.
* C84: a reader that missed its turn is never shut down though later shutdown calls return normally.  C85: scopes {a: 1} and
  {a: True} share a meter.  C86: readers of a failed constructor stay claimed.

Resources and exporters
* C50: merging is not associative with conflicting schema urls.  C51: a detector's schema url loses the user's attributes; a
  process.executable.name that is not text raises TypeError.
* C53: None in a sequence, integers outside int64 and lone surrogates lose the attribute; a span name with a lone surrogate makes
  the batch raise.  C67: trace flags and link trace states are not sent.  C68: a log record without ids or severity makes the
  batch raise.  C69: a metric without points loses its kind; of entries with equal resources (or scopes) only the last is sent (C69_repeated_refuted).
* C54: the HTTP metric exporter ignores shutdown; a gRPC request can follow the return of shutdown; a shutdown that timed out
  waiting for the lock makes the running export raise; HTTP 429 is not retried; status 600 and above counts as success.
  The hint when to try again in the metadata of a gRPC error is not checked: a negative or malformed one makes the export raise,
  a large one makes it sleep as long as it says, with the lock (C54_grpc_hint_refuted).
* C91: exporters that share a requests session send each other's headers, and an exporter without compression then labels plain
  data as gzip.  C92: OTEL_EXPORTER_OTLP_CERTIFICATE set to the empty text makes the HTTP exporters pass verify="" to requests,
  which switches certificate checking off; a missing certificate file, or insecure=True with an https endpoint, makes the gRPC
  exporters trust the default roots instead of the named certificate.  C93: the documented compression value deflate (and the
  specification's none) makes the gRPC constructors raise.  An empty signal endpoint variable counts as unset for gRPC but is used
  as URL by HTTP.
* C94: an exporter whose constructor raises leaves a half-configured process (providers before it are set and cannot be set
  again).  "otlp,none" looks for an exporter called none.  The caller's resource attributes are modified.  C95: spaces around
  traceidratio make everything sampled; a rate out of range is announced as "using default sampler" and then raises.
* C96: OTEL_PROPAGATORS set to none, or to the empty text, makes importing the API raise.
* C56: an empty attribute key gives an empty label.  C70: in ratios units get other names than alone ("%/s" is "__per_second", "1/m" "per_minute", "1/min" "per_min").  C71: a scrape after force_flush shows families twice; different names can
  be sanitised to the same; one exponential histogram makes every scrape raise.
* C79: JSON escapes are counted as one character, so a tag can be cut inside its JSON.  C80: v1 raises without a tag length
  limit; the protobuf encoder raises for scopes without version.  C81: one service name for the whole batch.

Logs, events, proxies
* C98: a record emitted directly without severity or ids makes the request of its batch fail, so other log records are lost
  although force_flush returned True.
* C57: dropped_attributes is 0 when the limit is 0.  C73: a handler created before a provider is set makes logging calls raise.
  C76: ids and flags of 0 are replaced by the current span's.
* C78: the proxy meter provider drops the meter's attributes; one badly named instrument leaves later meters unconnected.
* C105: observations of a collection that timed out stay in the aggregation and are added to those of the next one.
* C106: the deadline is looked at before an instrument's callbacks run and not after, so callbacks of the last instrument may
  overrun it.  Callbacks given with a second creation of the same instrument are ignored without a warning.  A generator
  callback is shared by all readers, each gets only some of its batches.  A generator that ends before its first yield makes
  the creation raise StopIteration, and KeyError from then on.
* C107: a collection locks one stream after the other, so it can have a call on one instrument without an earlier call, by the same thread, on
  another (metric_reader_storage.py 130-137 says as much).  The collection's time is taken before the streams are read
  (139), so a stream that begins in between is reported with a time before its start time.  A callback that creates an observable instrument
  waits for ever for the consumer's lock, which its own thread holds (measurement_consumer.py 100, 108).
* C108: no lock of the metrics SDK is renewed in a forked child, so if another thread (for instance the periodic reader's) was in a call at the
  moment of the fork, collections or measurements in the child wait for ever.
* C109: a counter given ints and floats can go down once the ints exceed 2**53 (2**53+1 is reported, 0.5 is added, 2**53 is reported).
  Counter.add(float("nan")) is accepted, since nan < 0 is false, and every cumulative value from then on is NaN.  An int too
  large for a float makes add() raise OverflowError, and so a collection, which then forgets the interval's amounts.  NaN is counted in
  the first bucket.  Boundaries that do not increase are accepted.
* C125: the error handler asks whether the handler's class is a subclass of the exception's class, so a handler for KeyError does not get an
  exception of a class derived from KeyError, and does get a LookupError or a plain Exception; and it swallows KeyboardInterrupt and SystemExit.
* C124: two threads that get the global provider for the first time while the environment names one both instantiate it; one of the two
  providers is dropped without a shutdown (its worker threads and exporters stay).  A meter provider whose get_meter raises when the proxies
  are connected is installed although set_meter_provider raised, and can be replaced by a later set.
* C123: with the concurrent multi processor everything that is queued when the program ends is lost and the exporter is not shut down: the
  provider shuts down in an atexit callback, and from Python 3.9 on thread pools refuse work by then (`submit` raises RuntimeError);
  an exporter that raises in `shutdown` keeps the processors behind it from being shut down, so that what they hold is lost;
  what ends in an exit callback registered before the provider was made is lost.
* C122: an export that has passed the test of `_stopped` stores after shutdown has returned; with delta temporality what collect or force_flush
  has collected in an InMemoryMetricReader is overwritten by the next collection and never returned.
* C121: a block inside a generator stays current in its consumer while the generator is suspended; if it is then left out of order, an ended span
  stays current for good; a block that is left in another task is never detached; decorating a generator function gives a span that ends before the
  body starts.
* C120: without an SDK `use_span(tracer.start_span())` makes INVALID_SPAN current, so that a trace that was received is not sent on; `start_as_current_span`
  passes it on.  The specification asks that the API without an SDK propagate the context (`NoOpTracer.start_span` ignores its `context`).
* C117: a printed span shows neither its scope, nor whether it was sampled or its parent remote, nor how much was dropped; a start at time 0 is printed
  as null.  A time after the year 9999 makes the exporter raise in the middle of a batch.
* C118: ConsoleLogExporter raises TypeError for a record whose timestamp is None - the default of LogRecord - or whose body is bytes; the rest of the batch
  is lost.  `dropped_attributes` is 0 if all attributes were dropped.
* C119: a histogram with record_min_max=False is printed with `Infinity` and `-Infinity`, which is not JSON; an attribute of type bytes, which
  instruments accept, makes the exporter raise and print nothing.
* C116: a NaN or an infinity in an attribute, a measurement or a histogram's unrecorded minimum makes
  the printed document invalid JSON (`NaN`, `Infinity`), which only Python's own parser reads.
* C132: the same float in an event's attribute makes the value of its Zipkin annotation a text that is not JSON, though the body is.
* C133: `local_node_ipv6` given as an int below 2**32 (`::1` is 1) is taken for an IPv4 address, and the exporter's constructor raises ValueError.
* C133: the constructor raises KeyError if the global provider's resource has no `service.name` (`TracerProvider(resource=Resource({}))`).
* C133: the protobuf encoder does not send the zone of an IPv6 address (C133_zone_refuted).
* C133: a batch whose first span's resource has no `service.name` is posted under the service of an earlier batch, or of the global provider when the exporter was made.
* C134: after shutdown of a SimpleLogRecordProcessor (so after `LoggerProvider.shutdown()`) with the handler still on the root logger, every logging call of the program raises RecursionError: the processor's warning "already shutdown" comes back to it (C134_shutdown_refuted).
* C134: so does every logging call while a SimpleLogRecordProcessor's exporter raises; the exporter is called up to the interpreter's limit, and the thread's context is left with instrumentation suppressed (C134_failing_refuted).
* C134: a BatchLogRecordProcessor whose exporter fails never comes to rest: the message about each failed export is the next record to export (C134_rest_refuted). If the exporter logs more messages than it is given records, these push the program's records out of the queue during a flush (C134_flushed_refuted).
* C135: `logging.shutdown()`, and so `logging.config.dictConfig` and `fileConfig`, flush the handler while they have its lock.  If an export fails meanwhile, the worker waits for that lock to log it, and the flush for the worker, until the time-out of 30 seconds (C135_reset_refuted).
* C136: a processor that starts or ends spans itself can block a program with the concurrent multi processor for ever: if all threads of the pool
  (two by default) run such processors, they wait for tasks that nobody takes (C136_nested_refuted).  With ConcurrentMultiLogRecordProcessor and
  LoggingHandler on the root logger, one message logged by a processor or exporter in the pool, as SimpleLogRecordProcessor logs every failed
  export, blocks the program for ever: the logging thread has the handler's lock while it waits for the pool (C136_logging_refuted).
* C137: with a cumulative reader, a histogram that records 0 before a collection and a large amount after it makes the next collection raise
  (C137_raises_refuted, the pipeline form of C45_never_raises_refuted); an observable instrument given an exponential histogram by a view or a reader
  is never in any collection, without any warning (C137_observable_refuted).
* C138: an `ExplicitBucketHistogramAggregation()` keeps the boundaries of the first histogram it is used for.  The OTLP exporters have one
  such object for all histograms, so with them every histogram is reported with the boundaries that the first one used was created with
  (C138_shared_refuted).  A view or reader that gives such an object to a counter makes every `add` raise AttributeError
  (C138_counter_refuted).
* C139: `context or get_current()` (instrument.py 145, 177, 201, 269, 293) takes an empty Context for none: a measurement that the program
  makes with `context=Context()` to keep it apart from the current span is sampled for that span and its exemplar names it
  (C139_context_refuted).
* C140: the exponential histogram returns for a measurement of zero (aggregation.py 731-737) before it reaches `_sample_exemplar` (822):
  zeros are counted in the point but never become exemplars, also not in a sampled span with the trace-based filter, and not with the
  always-on filter; bucket histograms and sums do keep them (C140_zero_refuted).
* C130: the Prometheus collector looks families up under a text joined from their names and label keys (prometheus/__init__.py 245-254), which is
  the same for no attributes and for one attribute with the empty key: both land in one family, whose labels are those of the first, and
  the scrape shows two samples that cannot be told apart (C130_empty_key_refuted).
* C115: the OpenCensus exporter sends OpenTelemetry's status code numbers, which OpenCensus reads as google.rpc codes: OK (1) arrives as CANCELLED,
  ERROR (2) as UNKNOWN. Root spans are sent with the parent id 0000000000000000 instead of none. Unlike in OTLP, an attribute that cannot be
  encoded is not dropped: the batch fails. A service.name that is not a string makes `export` raise TypeError (outside of its try).
* C114: the OpenCensus shim reads a text that ends in Z (UTC) with `strptime(...).timestamp()`, which takes it as local time: outside of UTC the
  times of message events are wrong by hours. `ns_to_iso_str` divides by 1e9 in floating point, so the printed microsecond may be off by one
  (at most; until 2106). `int(record.created * 1e9)` truncates: 1.001 s becomes 1000999999 ns. `LogRecord.to_json()` raises TypeError if
  `timestamp` or `observed_timestamp` is None, which is their default.
* C113: `end_span` ends the *current* shim span. In a task made inside a span it ends the span of the maker, which stays current in both tasks.
  `finish()` ends a span but leaves it current, so later spans become children of a finished span. OpenCensus's execution context is set
  from the context that is current at that moment, not restored: after a context that is not derived from the current one was attached and
  detached around a span, it says that there is no span although there is one.
* C112: `_at_fork_reinit` makes the child's batch processor start afresh, so no span is exported by two processes unless it ends in both: a span that is
  open at the fork (a with block around os.fork()) does, with the same ids. A span's lock is not renewed: if another thread was inside a method of
  the span, the child's first call on it never returns.
* C111: the span's lock is not reentrant, and `set_attributes` (the warnings of `_clean_attribute`; the one for an ended span), `start` and
  `end` log while they hold it. A logging handler that uses the current span (adds an event, sets an attribute) then waits for itself for ever:
  C111_logging_refuted for `set_attribute("k", None)` and for a second `end()`. `_check_span_ended` does not hold it.
* C111: `span.attributes[k]` takes no lock, and setting a key deletes it before it stores it: a reader can get KeyError for a key that was set
  before and is set again (C111_read_refuted).
* C110: what C44 and C45 assume of the logarithm holds of the exact one but not of math.log: next to a power of two the index at scale 1 and the one
  at scale 0 (where no logarithm is used) disagree.  With default parameters, record(2**162) and then record(4 - 2**-51) gives a point that has
  both in the bucket (2, 4], and record(2**-146) and then record(8192 + 2**-39) raises IndexError.  This is so with the
  best possible math.log.

OpenTracing shim
* C99: a span that OpenTelemetry made current is not the parent of a span of start_span.  References given inside a scope are
  links only.  C100: scopes closed out of order leave a finished span active; a scope closed in another thread stays active
  where it was opened.  C101: start_active_span ignores ignore_active_span=True.  C102: with OTEL_PROPAGATORS=baggage,tracecontext
  extract from a carrier without traceparent yields the current span's context.  C103: baggage items are lost on activation, not
  inherited and not injected.
