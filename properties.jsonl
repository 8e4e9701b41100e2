{"id": "C01", "title": "TraceState stays well formed under any history of edits", "statement": "Starting from any TraceState constructor call, after any sequence of add, update and delete the TraceState has at most 32 entries, no key occurs twice, and every entry satisfies the W3C key and value grammar.", "quantifier": "all constructor inputs and all finite sequences of add/update/delete calls with arbitrary keys and values", "why_tests_cant": "the set of histories and of key/value strings is infinite; the invariant needs an induction over histories", "anchors": ["opentelemetry-api/src/opentelemetry/trace/span.py: TraceState.__init__, add, update, delete, _is_valid_pair"]}
{"id": "C02", "title": "TraceState edits change exactly the addressed key", "statement": "add of a new valid pair on a TraceState with room puts it first and keeps the others in order; add of an invalid pair, of a present key, or on a full state returns the same state; update of a present key moves it to the front with the new value; delete removes exactly that key. Every other key keeps its value and the relative order of the others does not change.", "quantifier": "all trace states, all keys and values", "why_tests_cant": "it is a law about every state and key, including the unnamed keys that must not change", "anchors": ["opentelemetry-api/src/opentelemetry/trace/span.py: TraceState.add, update, delete"]}
{"id": "C03", "title": "TraceState.update at the 32-entry limit", "statement": "update with a new valid key on a TraceState that already holds 32 entries returns the same TraceState (docstring: adding would exceed the limit), i.e. it does not lose entries.", "quantifier": "all full trace states and all new valid pairs", "why_tests_cant": "the limit case needs a state with exactly 32 distinct valid entries", "anchors": ["opentelemetry-api/src/opentelemetry/trace/span.py: TraceState.update (312-335), TraceState.__init__ (235-260)"]}
{"id": "C04", "title": "tracestate header round trip", "statement": "Parsing the header produced by to_header of any TraceState gives back an equal TraceState: the same pairs in the same order.", "quantifier": "all trace states reachable through the API", "why_tests_cant": "quantifies over every legal key and value string", "anchors": ["opentelemetry-api/src/opentelemetry/trace/span.py: TraceState.to_header, from_header"]}
{"id": "C05", "title": "tracestate header parser is total and all-or-nothing", "statement": "from_header of any list of header strings returns a well-formed TraceState; if any non-empty member is malformed or two members have the same key it returns the empty TraceState; otherwise it keeps every member in order unless there are more than 32 of them.", "quantifier": "all lists of arbitrary header strings", "why_tests_cant": "adversarial remote input: every byte string", "anchors": ["opentelemetry-api/src/opentelemetry/trace/span.py: TraceState.from_header"]}
{"id": "C06", "title": "Trace context header round trip", "statement": "Extracting what inject wrote for a valid span context yields a remote span context with the same trace id, span id, flags and trace state.", "quantifier": "all valid span contexts (128-bit trace ids, 64-bit span ids, 8-bit flags, all trace states) and all extraction base contexts", "why_tests_cant": "2^200 identifiers times all trace states", "anchors": ["opentelemetry-api/src/opentelemetry/trace/propagation/tracecontext.py: TraceContextTextMapPropagator.inject, extract", "opentelemetry-api/src/opentelemetry/trace/span.py: format_trace_id, format_span_id, SpanContext"]}
{"id": "C07", "title": "Malformed trace context never replaces the caller's context", "statement": "Extract either leaves the context exactly as it was or installs a span context that is valid, remote and equal to the identifiers written in the header; in particular version ff, all-zero ids, upper-case hex, wrong lengths and version-00 headers with trailing fields leave the context unchanged.", "quantifier": "all traceparent and tracestate strings, all contexts", "why_tests_cant": "adversarial remote input: every byte string", "anchors": ["opentelemetry-api/src/opentelemetry/trace/propagation/tracecontext.py: extract"]}
{"id": "C08", "title": "Hexadecimal identifiers are fixed width and injective", "statement": "format_trace_id/format_span_id of an in-range id has exactly 32/16 characters, all of them lower-case hex digits, and parsing it as base 16 gives the id back; hence two distinct ids never have the same rendering.", "quantifier": "all 128-bit trace ids and 64-bit span ids", "why_tests_cant": "2^128 inputs", "anchors": ["opentelemetry-api/src/opentelemetry/trace/span.py: format_trace_id, format_span_id"]}
{"id": "C09", "title": "B3 multi-header and single-header round trip", "statement": "Extracting what the B3 propagators inject for a valid span context yields a remote span context with the same ids and the same sampled bit; 64-bit trace ids are accepted and zero-extended.", "quantifier": "all valid span contexts", "why_tests_cant": "2^192 identifiers", "anchors": ["propagator/opentelemetry-propagator-b3/src/opentelemetry/propagators/b3/__init__.py: B3MultiFormat, B3SingleFormat"]}
{"id": "C10", "title": "B3 extraction only installs valid span contexts", "statement": "B3 extract either returns the given context unchanged or installs a valid span context.", "quantifier": "all header values and contexts", "why_tests_cant": "adversarial remote input", "anchors": ["propagator/opentelemetry-propagator-b3/src/opentelemetry/propagators/b3/__init__.py: B3MultiFormat.extract"]}
{"id": "C11", "title": "Jaeger header round trip and validity", "statement": "Extracting what the Jaeger propagator injects for a valid span context yields the same ids and sampled bit; extraction never installs an invalid span context.", "quantifier": "all valid span contexts; all header values", "why_tests_cant": "2^192 identifiers and adversarial remote input", "anchors": ["propagator/opentelemetry-propagator-jaeger/src/opentelemetry/propagators/jaeger/__init__.py: JaegerPropagator"]}
{"id": "C12", "title": "Composite propagation is the sequential composition of its members", "statement": "A composite extract threads the context through the members in order, a composite inject writes what each member writes in order, and its fields are exactly the union of theirs; members that touch disjoint context keys do not affect each other.", "quantifier": "all lists of propagators, carriers and contexts", "why_tests_cant": "quantifies over arbitrary propagators", "anchors": ["opentelemetry-api/src/opentelemetry/propagators/composite.py: CompositePropagator"]}
{"id": "C13", "title": "Contexts and baggage are immutable values", "statement": "set_value, set_baggage, remove_baggage and clear never change the context they are given; reading a key in the result gives the value just written, and every other key and baggage entry reads as before.", "quantifier": "all contexts, keys and values and all finite sequences of such calls", "why_tests_cant": "a law over all contexts including aliases held by other callers", "anchors": ["opentelemetry-api/src/opentelemetry/context/__init__.py: set_value, get_value", "opentelemetry-api/src/opentelemetry/baggage/__init__.py: set_baggage, get_baggage, get_all, remove_baggage, clear"]}
{"id": "C14", "title": "Baggage header round trip", "statement": "Extracting the header that inject wrote for a baggage within the size limits gives back the same keys and values, for keys that are valid baggage names and for all values that are Unicode strings without surrounding whitespace.", "quantifier": "all baggage maps within the limits of 180 pairs, 4096 bytes a pair and 8192 bytes in all", "why_tests_cant": "all Unicode strings", "anchors": ["opentelemetry-api/src/opentelemetry/baggage/propagation/__init__.py: W3CBaggagePropagator.inject, extract"]}
{"id": "C15", "title": "Baggage extraction is bounded and total", "statement": "Extract of any header never raises, adds at most 180 entries, ignores a header longer than 8192 characters and any pair longer than 4096, and only changes the baggage entry of the context.", "quantifier": "all header strings and contexts", "why_tests_cant": "adversarial remote input", "anchors": ["opentelemetry-api/src/opentelemetry/baggage/propagation/__init__.py: W3CBaggagePropagator.extract"]}
{"id": "C16", "title": "attach/detach nest like a stack", "statement": "For any properly nested sequence of attach and detach the current context after the sequence is the one before it; within it the current context is the last attached one; detach of a token never raises.", "quantifier": "all finite nested sequences of attach/detach in one thread", "why_tests_cant": "all nestings of every depth", "anchors": ["opentelemetry-api/src/opentelemetry/context/__init__.py: attach, detach, get_current", "opentelemetry-api/src/opentelemetry/context/contextvars_context.py: ContextVarsRuntimeContext"]}
{"id": "C17", "title": "use_span restores the current span and re-raises", "statement": "Whatever happens in the body, on leaving a use_span block the current span is the one from before; an exception propagates unchanged; the span is ended exactly when end_on_exit is set; an exception event and an ERROR status are recorded exactly when asked for and the span is recording.", "quantifier": "all bodies (normal return, any exception), all flag combinations, all nesting depths", "why_tests_cant": "quantifies over arbitrary bodies", "anchors": ["opentelemetry-api/src/opentelemetry/trace/__init__.py: use_span", "opentelemetry-api/src/opentelemetry/trace/propagation/__init__.py: get_current_span, set_span_in_context"]}
{"id": "C18", "title": "Environment header lists parse to exactly their valid members", "statement": "parse_env_headers returns a mapping with exactly the well-formed key=value members, keys lower-cased and stripped, values stripped and url-decoded, last occurrence wins; malformed members never affect the others.", "quantifier": "all environment strings", "why_tests_cant": "adversarial configuration strings", "anchors": ["opentelemetry-api/src/opentelemetry/util/re.py: parse_env_headers"]}
{"id": "C19", "title": "Once runs its function at most once to completion", "statement": "Under any interleaving of any number of threads calling do_once, at most one call completes its function, exactly that caller gets True, and after a caller returned (without exception) the function has completed.", "quantifier": "all numbers of threads, all interleavings, functions that may raise", "why_tests_cant": "the schedule space is unbounded", "anchors": ["opentelemetry-api/src/opentelemetry/util/_once.py: Once.do_once"]}
{"id": "C20", "title": "BoundedAttributes respects its capacity and counts what it dropped", "statement": "For any sequence of assignments and deletions, the number of entries never exceeds maxlen, keys are unique, and the number of entries plus dropped equals the accepted insertions minus deletions and overwrites; when full, the entry evicted is the oldest one.", "quantifier": "all limits and all finite operation sequences", "why_tests_cant": "unbounded histories", "anchors": ["opentelemetry-api/src/opentelemetry/attributes/__init__.py: BoundedAttributes"]}
{"id": "C21", "title": "Attribute values are cleaned to the specified types", "statement": "Every stored attribute has a non-empty string key and a value that is a primitive or a homogeneous tuple of primitives and None; strings longer than the limit are cut to exactly their first max_value_len characters, shorter ones are unchanged; cleaning a clean value changes nothing; an invalid value leaves the mapping unchanged.", "quantifier": "all keys and values of every Python type", "why_tests_cant": "every value, nested or not", "anchors": ["opentelemetry-api/src/opentelemetry/attributes/__init__.py: _clean_attribute, _clean_attribute_value, BoundedAttributes.__setitem__"]}
{"id": "C22", "title": "BoundedList and BoundedDict are bounded windows over their history", "statement": "After any sequence of appends and extends a BoundedList holds the last maxlen items in order and dropped counts all the others; a BoundedDict holds at most maxlen keys.", "quantifier": "all maxlen values and all finite operation sequences", "why_tests_cant": "unbounded histories", "anchors": ["opentelemetry-sdk/src/opentelemetry/sdk/util/__init__.py: BoundedList, BoundedDict"]}
{"id": "C23", "title": "An ended span never changes", "statement": "After end() has been called, no call of set_attribute(s), add_event, add_link, update_name, set_status, record_exception or end changes any observable field of the span; end time is set once.", "quantifier": "all operation sequences before and after end", "why_tests_cant": "unbounded histories", "anchors": ["opentelemetry-sdk/src/opentelemetry/sdk/trace/__init__.py: Span, _check_span_ended"]}
{"id": "C24", "title": "A span is handed to the processor exactly once and carries what was recorded", "statement": "on_end is called exactly once per recording span that is ended, however often end is called, with the attributes, events, links, name and status that the calls before end produced; on_start was called before.", "quantifier": "all operation sequences", "why_tests_cant": "unbounded histories", "anchors": ["opentelemetry-sdk/src/opentelemetry/sdk/trace/__init__.py: Span.start, end, _readable_span"]}
{"id": "C25", "title": "Span status transitions", "statement": "Setting UNSET never changes the status, once OK is set nothing changes it, otherwise the last set wins; a description survives only with ERROR.", "quantifier": "all sequences of set_status calls", "why_tests_cant": "unbounded histories", "anchors": ["opentelemetry-sdk/src/opentelemetry/sdk/trace/__init__.py: Span.set_status", "opentelemetry-api/src/opentelemetry/trace/status.py: Status"]}
{"id": "C26", "title": "Span limits", "statement": "Whatever is recorded, an exported span has at most max_span_attributes attributes, max_events events, max_links links, and each event and link at most its attribute limit; the dropped counters account for the rest.", "quantifier": "all limits and recording histories", "why_tests_cant": "unbounded histories", "anchors": ["opentelemetry-sdk/src/opentelemetry/sdk/trace/__init__.py: Span.__init__, add_event, add_link, _new_events, _new_links, SpanLimits"]}
{"id": "C27", "title": "SpanLimits precedence", "statement": "Explicit argument beats environment variable beats global limit beats default; UNSET removes a limit; a negative or non-integer value raises ValueError; the result never is a negative limit.", "quantifier": "all argument and environment combinations", "why_tests_cant": "combinatorial explosion over eight limits and arbitrary strings", "anchors": ["opentelemetry-sdk/src/opentelemetry/sdk/trace/__init__.py: SpanLimits.__init__, _from_env_if_absent"]}
{"id": "C28", "title": "Ratio sampling is consistent and monotone", "statement": "TraceIdRatioBased decides from the low 64 bits of the trace id alone, so all participants of a trace agree; a trace sampled at one rate is sampled at every higher rate; rate 0 samples nothing and rate 1 everything; the number of sampled low-64-bit values is exactly the bound.", "quantifier": "all rates in [0,1], all 128-bit trace ids", "why_tests_cant": "2^128 ids times all rates", "anchors": ["opentelemetry-sdk/src/opentelemetry/sdk/trace/sampling.py: TraceIdRatioBased"]}
{"id": "C29", "title": "Parent based sampling follows the parent", "statement": "ParentBased uses the root sampler exactly for parentless spans and otherwise the delegate selected by the parent's remote and sampled bits; with the default delegates the child is sampled iff the parent is.", "quantifier": "all parents and delegate samplers", "why_tests_cant": "quantifies over arbitrary delegate samplers", "anchors": ["opentelemetry-sdk/src/opentelemetry/sdk/trace/sampling.py: ParentBased"]}
{"id": "C30", "title": "start_span builds a consistent span context", "statement": "A child span has the trace id of its valid parent, a root span has the freshly generated one; the sampled flag equals the sampler decision RECORD_AND_SAMPLE; the span records iff the decision records; the trace state is the sampler's; the parent's own span context is not modified.", "quantifier": "all parent contexts, samplers and id generators", "why_tests_cant": "quantifies over arbitrary samplers and contexts", "anchors": ["opentelemetry-sdk/src/opentelemetry/sdk/trace/__init__.py: Tracer.start_span", "opentelemetry-sdk/src/opentelemetry/sdk/trace/id_generator.py"]}
{"id": "C31", "title": "Generated identifiers are never the invalid id", "statement": "The random id generator returns a trace id in 1..2^128-1 and a span id in 1..2^64-1 for every random source.", "quantifier": "all outcomes of the random source", "why_tests_cant": "the zero case has probability 2^-64", "anchors": ["opentelemetry-sdk/src/opentelemetry/sdk/trace/id_generator.py: RandomIdGenerator"]}
{"id": "C32", "title": "Synchronous fan-out reaches every processor in order", "statement": "Each registered processor receives every event, in registration order; force_flush returns True iff every processor returned True before the deadline, and stops at the first failure.", "quantifier": "all processor lists, clocks and processor results", "why_tests_cant": "arbitrary processors and clock behaviour", "anchors": ["opentelemetry-sdk/src/opentelemetry/sdk/trace/__init__.py: SynchronousMultiSpanProcessor"]}
{"id": "C33", "title": "Simple processor exports exactly the sampled spans", "statement": "Every ended sampled span is exported once, immediately and in order, an unsampled one never; an exporter exception neither escapes nor affects later spans; instrumentation suppression is active during export and restored afterwards.", "quantifier": "all span sequences and exporter behaviours", "why_tests_cant": "unbounded histories", "anchors": ["opentelemetry-sdk/src/opentelemetry/sdk/trace/export/__init__.py: SimpleSpanProcessor"]}
{"id": "C34", "title": "Batch processor never loses or duplicates an accepted span", "statement": "Under every interleaving of producers, worker, flushers and shutdown: every span accepted is at any time in exactly one of queue, batch in flight, exported or evicted-because-full; nothing is exported twice; exports are in acceptance order.", "quantifier": "all numbers of producer threads, all interleavings, all queue and batch sizes", "why_tests_cant": "the schedule space is unbounded", "anchors": ["opentelemetry-sdk/src/opentelemetry/sdk/trace/export/__init__.py: BatchSpanProcessor"]}
{"id": "C35", "title": "Batch processor respects queue and batch bounds", "statement": "The queue never exceeds max_queue_size, every exported batch has between 1 and max_export_batch_size spans, and a span is evicted only when the queue is full.", "quantifier": "all interleavings and sizes", "why_tests_cant": "the schedule space is unbounded", "anchors": ["opentelemetry-sdk/src/opentelemetry/sdk/trace/export/__init__.py: BatchSpanProcessor._export_batch, on_end"]}
{"id": "C36", "title": "force_flush means flushed", "statement": "When force_flush returns True, every span accepted before the call has been exported or evicted.", "quantifier": "all interleavings with producers, other flushers and shutdown", "why_tests_cant": "the schedule space is unbounded", "anchors": ["opentelemetry-sdk/src/opentelemetry/sdk/trace/export/__init__.py: BatchSpanProcessor.force_flush, worker, _export"]}
{"id": "C37", "title": "shutdown drains", "statement": "When shutdown returns, every span whose on_end returned before shutdown was called has been exported or evicted, and the exporter is shut down after the last export.", "quantifier": "all interleavings", "why_tests_cant": "the schedule space is unbounded", "anchors": ["opentelemetry-sdk/src/opentelemetry/sdk/trace/export/__init__.py: BatchSpanProcessor.shutdown, worker, _drain_queue"]}
{"id": "C38", "title": "Sum aggregation conserves the measurements", "statement": "For any history of measurements and collections with any mix of readers' temporality, the delta points add up to the recorded total, each cumulative point is the total so far, and consecutive delta points have contiguous, non-overlapping time intervals.", "quantifier": "all measurement and collection histories (integers)", "why_tests_cant": "unbounded histories", "anchors": ["opentelemetry-sdk/src/opentelemetry/sdk/metrics/_internal/aggregation.py: _SumAggregation"]}
{"id": "C39", "title": "Asynchronous sums convert between cumulative and delta", "statement": "For observable counters a delta reader receives differences of consecutive observations whose sum is the latest observation; a cumulative reader receives the observation itself.", "quantifier": "all observation histories (integers)", "why_tests_cant": "unbounded histories", "anchors": ["opentelemetry-sdk/src/opentelemetry/sdk/metrics/_internal/aggregation.py: _SumAggregation"]}
{"id": "C40", "title": "Last value aggregation reports the latest measurement", "statement": "A collected gauge point carries the most recent measurement since the last collection and nothing is reported when there was none.", "quantifier": "all histories", "why_tests_cant": "unbounded histories", "anchors": ["opentelemetry-sdk/src/opentelemetry/sdk/metrics/_internal/aggregation.py: _LastValueAggregation"]}
{"id": "C41", "title": "Explicit bucket histogram is a faithful histogram", "statement": "For every history the bucket counts have length boundaries+1 and add up to count, bucket i counts exactly the measurements in (b[i-1], b[i]], sum/min/max are those of the measurements, for delta and cumulative collection alike.", "quantifier": "all boundary lists (sorted) and measurement/collection histories", "why_tests_cant": "unbounded histories and every boundary value", "anchors": ["opentelemetry-sdk/src/opentelemetry/sdk/metrics/_internal/aggregation.py: _ExplicitBucketHistogramAggregation"]}
{"id": "C42", "title": "Exponential bucket mapping is correct at exponent scales", "statement": "For scale -10..0 a positive finite double v maps to the index i with base^i < v <= base^(i+1), base = 2^(2^-scale), up to the documented clamping of subnormals; lowering the scale by k shifts the index right by k.", "quantifier": "all positive doubles and scales -10..0", "why_tests_cant": "2^63 doubles", "anchors": ["opentelemetry-sdk/src/opentelemetry/sdk/metrics/_internal/exponential_histogram/mapping/exponent_mapping.py", "opentelemetry-sdk/src/opentelemetry/sdk/metrics/_internal/exponential_histogram/mapping/ieee_754.py"]}
{"id": "C43", "title": "Exponential buckets refine a map from index to count", "statement": "The circular buckets behave as a finite map from bucket index to count: increment adds one at one index, grow changes nothing, downscale by k merges indexes i>>k, and the offset/counts view lists the map.", "quantifier": "all operation histories that respect the window", "why_tests_cant": "unbounded histories", "anchors": ["opentelemetry-sdk/src/opentelemetry/sdk/metrics/_internal/exponential_histogram/buckets.py: Buckets"]}
{"id": "C44", "title": "Exponential histogram conserves counts within its size", "statement": "For any history of measurements within one collection interval, count = zero_count + all bucket counts, each bucket side spans at most max_size buckets, every measurement is counted in the bucket its value maps to at the current scale, and sum, min and max are exact.", "quantifier": "all measurement histories and max_size >= 2", "why_tests_cant": "unbounded histories", "anchors": ["opentelemetry-sdk/src/opentelemetry/sdk/metrics/_internal/aggregation.py: _ExponentialBucketHistogramAggregation.aggregate"]}
{"id": "C45", "title": "Exponential histogram cumulative collection never fails and conserves counts", "statement": "Collecting repeatedly with cumulative temporality never raises and the cumulative point holds all measurements so far.", "quantifier": "all measurement and collection histories", "why_tests_cant": "unbounded histories", "anchors": ["opentelemetry-sdk/src/opentelemetry/sdk/metrics/_internal/aggregation.py: _ExponentialBucketHistogramAggregation.collect, _merge, _downscale"]}
{"id": "C46", "title": "A view stream separates attribute sets and filters attributes", "statement": "Two measurements end up in the same data point iff their attributes agree on the view's attribute keys; the reported point attributes contain only those keys; no measurement is lost.", "quantifier": "all measurement histories, all attribute key sets", "why_tests_cant": "unbounded histories", "anchors": ["opentelemetry-sdk/src/opentelemetry/sdk/metrics/_internal/_view_instrument_match.py: _ViewInstrumentMatch.consume_measurement, collect"]}
{"id": "C47", "title": "Monotonic instruments never go down", "statement": "Counter.add and Histogram.record ignore negative amounts, so a cumulative counter is non-decreasing over time.", "quantifier": "all histories of add calls and collections", "why_tests_cant": "unbounded histories", "anchors": ["opentelemetry-sdk/src/opentelemetry/sdk/metrics/_internal/instrument.py: Counter.add, Histogram.record"]}
{"id": "C48", "title": "Exemplar reservoirs are bounded and sound", "statement": "A reservoir returns at most size exemplars, each of them a measurement that was offered since the last collection with its own value, time and filtered attributes; the aligned histogram reservoir holds the last measurement of each bucket. A fixed-size reservoir keeps as many as were offered, up to one less than its size, and at least one if any was offered.", "quantifier": "all offer/collect histories and random choices", "why_tests_cant": "unbounded histories and every random outcome", "anchors": ["opentelemetry-sdk/src/opentelemetry/sdk/metrics/_internal/exemplar/exemplar_reservoir.py"]}
{"id": "C49", "title": "Instrument identity", "statement": "Two create_* calls return the same instrument iff they have the same kind, case-insensitive name, unit and description.", "quantifier": "all pairs of creation calls", "why_tests_cant": "all strings", "anchors": ["opentelemetry-api/src/opentelemetry/metrics/_internal/__init__.py: Meter._register_instrument", "opentelemetry-sdk/src/opentelemetry/sdk/metrics/_internal/__init__.py: Meter"]}
{"id": "C50", "title": "Resource merge is a right-biased union with schema rules", "statement": "The merged attributes contain every key of both, the updating resource wins on common keys; the empty resource is neutral; merge is associative when the schema urls do not conflict; a conflict returns the old resource.", "quantifier": "all resources", "why_tests_cant": "all attribute maps", "anchors": ["opentelemetry-sdk/src/opentelemetry/sdk/resources/__init__.py: Resource.merge"]}
{"id": "C51", "title": "Resource.create always yields a service name", "statement": "A created resource has a non-empty service.name, user attributes win over detected ones, and those over the SDK defaults.", "quantifier": "all user attributes, environments and detectors", "why_tests_cant": "arbitrary detectors", "anchors": ["opentelemetry-sdk/src/opentelemetry/sdk/resources/__init__.py: Resource.create, get_aggregated_resources, OTELResourceDetector"]}
{"id": "C52", "title": "OTLP encoding keeps every span in its own resource and scope", "statement": "Flattening the encoded request gives exactly the given spans, each under a resource and scope equal to its own, in the original order within a scope; no resource or (resource, scope) group occurs twice.", "quantifier": "all span batches", "why_tests_cant": "arbitrary groupings", "anchors": ["exporter/opentelemetry-exporter-otlp-proto-common/src/opentelemetry/exporter/otlp/proto/common/_internal/trace_encoder/__init__.py: _encode_resource_spans"]}
{"id": "C53", "title": "OTLP identifiers and attribute values round trip", "statement": "Trace and span ids are encoded as exactly 16 and 8 big-endian bytes from which the id can be recovered; an attribute value that BoundedAttributes can hold is encoded so that it can be recovered, and an attribute that cannot be encoded never affects the others.", "quantifier": "all ids, all attribute maps", "why_tests_cant": "2^128 ids, all values", "anchors": ["exporter/opentelemetry-exporter-otlp-proto-common/src/opentelemetry/exporter/otlp/proto/common/_internal/__init__.py: _encode_trace_id, _encode_value, _encode_attributes"]}
{"id": "C54", "title": "OTLP retry is bounded and stops at the first conclusive answer", "statement": "An export makes at most six attempts with waits 1,2,4,8,16,32 seconds, returns SUCCESS iff an attempt succeeded before any non-retryable failure, makes no attempt after a conclusive answer, and after shutdown makes none at all.", "quantifier": "all sequences of server answers", "why_tests_cant": "all answer sequences", "anchors": ["exporter/opentelemetry-exporter-otlp-proto-http/src/opentelemetry/exporter/otlp/proto/http/trace_exporter/__init__.py: _export_serialized_spans", "exporter/opentelemetry-exporter-otlp-proto-grpc/src/opentelemetry/exporter/otlp/proto/grpc/exporter.py: _export", "exporter/opentelemetry-exporter-otlp-proto-common/src/opentelemetry/exporter/otlp/proto/common/_internal/__init__.py: _create_exp_backoff_generator"]}
{"id": "C55", "title": "Prometheus buckets are cumulative", "statement": "The exposed bucket counts are non-decreasing, the last bound is +Inf and its count is the total count; differences recover the original bucket counts.", "quantifier": "all histogram points", "why_tests_cant": "all bucket count vectors", "anchors": ["exporter/opentelemetry-exporter-prometheus/src/opentelemetry/exporter/prometheus/__init__.py: _convert_buckets"]}
{"id": "C56", "title": "Prometheus names are legal", "statement": "Sanitised metric names and label keys contain only characters that Prometheus allows, and sanitising is idempotent.", "quantifier": "all strings", "why_tests_cant": "all Unicode strings", "anchors": ["exporter/opentelemetry-exporter-prometheus/src/opentelemetry/exporter/prometheus/_mapping.py: sanitize_full_name, sanitize_attribute"]}
{"id": "C57", "title": "Log record attribute accounting", "statement": "A log record reports how many attributes were dropped because of its limits.", "quantifier": "all limits and attribute maps", "why_tests_cant": "all limits including 0", "anchors": ["opentelemetry-sdk/src/opentelemetry/sdk/_logs/_internal/__init__.py: LogRecord.dropped_attributes"]}
{"id": "C58", "title": "Jaeger baggage round trip", "statement": "Extracting what the Jaeger propagator injects gives back every baggage entry with its name and value, next to the base context's entries.", "quantifier": "all contexts with a valid current span, all baggage names and Unicode values without surrounding whitespace, all base contexts and carriers", "why_tests_cant": "names and values are arbitrary strings that pass through percent encoding and a prefix replacement", "anchors": ["propagator/opentelemetry-propagator-jaeger/src/opentelemetry/propagators/jaeger/__init__.py: JaegerPropagator.inject, extract, _extract_baggage"]}
{"id": "C59", "title": "fields lists every header inject may write", "statement": "Each header name that a propagator's inject sets is contained in its fields, so that a caller who clears the fields of a reused carrier leaves nothing behind.", "quantifier": "all contexts, all standard propagators and composites of them", "why_tests_cant": "the written headers depend on the context, in particular on arbitrary baggage names", "anchors": ["opentelemetry-api/src/opentelemetry/propagators/composite.py: CompositePropagator.fields", "opentelemetry-api/src/opentelemetry/trace/propagation/tracecontext.py: fields", "propagator/opentelemetry-propagator-jaeger/src/opentelemetry/propagators/jaeger/__init__.py: fields"]}
{"id": "C60", "title": "Leaving the with block of a span", "statement": "Leaving a with block on a span ends the span. If an exception leaves the block and recording is on, one exception event marked as escaped is added; if setting the status is on, the status becomes ERROR with 'Type: message' unless it was OK; nothing else changes.", "quantifier": "all span states, all exceptions, all settings of the two flags", "why_tests_cant": "the span's state at the exit and the exception are arbitrary", "anchors": ["opentelemetry-sdk/src/opentelemetry/sdk/trace/__init__.py: Span.__exit__, Span.record_exception, Span.set_status"]}
{"id": "C61", "title": "The environment selects the sampler", "statement": "OTEL_TRACES_SAMPLER selects the named sampler whatever its letter case; any other name and no name select parentbased_always_on. The ratio samplers take the rate in OTEL_TRACES_SAMPLER_ARG, or 1 if it is missing or not a number; the only failure is a ValueError for a rate outside [0,1].", "quantifier": "all environments, all spans and parents", "why_tests_cant": "environment values, parents and trace ids are arbitrary", "anchors": ["opentelemetry-sdk/src/opentelemetry/sdk/trace/sampling.py: _get_from_env_or_default, _KNOWN_SAMPLERS"]}
{"id": "C62", "title": "A trace continues across processes", "statement": "When a span's context is injected with the W3C propagator (or B3, or Jaeger, which do not send the trace state) and extracted in another process, a span started there with a parent based sampler has the same trace id, the first span as remote parent, and the same sampling decision and trace state.", "quantifier": "all spans, carriers, base contexts, samplers, id generators", "why_tests_cant": "composition of start_span, inject, extract and start_span over arbitrary states", "anchors": ["opentelemetry-sdk/src/opentelemetry/sdk/trace/__init__.py: Tracer.start_span", "opentelemetry-api/src/opentelemetry/trace/propagation/tracecontext.py: inject, extract", "opentelemetry-api/src/opentelemetry/trace/__init__.py: NoOpTracer.start_span"]}
{"id": "C63", "title": "The batch processors cannot deadlock", "statement": "Whatever on_end/emit, force_flush and shutdown calls are in progress, each of them can make a step or the worker can; the worker, left to itself, answers a flush and ends after shutdown.", "quantifier": "all reachable states of all interleavings of any number of threads", "why_tests_cant": "A deadlock shows only in particular schedules; a test runs a few of them.", "anchors": ["opentelemetry-sdk/src/opentelemetry/sdk/trace/export/__init__.py: BatchSpanProcessor", "opentelemetry-sdk/src/opentelemetry/sdk/_logs/_internal/export/__init__.py: BatchLogRecordProcessor"]}
{"id": "C64", "title": "Fixed size exemplar sampling is uniform", "statement": "A fixed size exemplar reservoir keeps every measurement while there is room, and afterwards each measurement offered in the interval is kept with the same probability size/n.", "quantifier": "all sizes, numbers of measurements and all outcomes of the random draws", "why_tests_cant": "A probability over all random outcomes; tests see a few seeds.", "anchors": ["opentelemetry-sdk/src/opentelemetry/sdk/metrics/_internal/exemplar/exemplar_reservoir.py: SimpleFixedSizeExemplarReservoir"]}
{"id": "C65", "title": "Exemplars name the span of their measurement", "statement": "An exemplar carries the trace id and span id of the span that was current when its measurement was made, and none if there was no span; with the trace based filter only measurements made in a sampled span become exemplars, with the always off filter none.", "quantifier": "all filters, histories of measurements in and outside spans, random draws", "why_tests_cant": "Depends on which earlier measurement occupied the same slot.", "anchors": ["opentelemetry-sdk/src/opentelemetry/sdk/metrics/_internal/exemplar/exemplar_reservoir.py: ExemplarBucket", "opentelemetry-sdk/src/opentelemetry/sdk/metrics/_internal/exemplar/exemplar_filter.py"]}
{"id": "C66", "title": "Every measurement reaches every reader through every view that applies, once", "statement": "Every measurement reaches every reader and, for each, every view that applies to the instrument (or the default view if none does) exactly once. A collection by a reader reports, grouped by scope, one metric per instrument and view with points, under the view's name and description, computed from all measurements and that reader's own collections only; no measurement call raises.", "quantifier": "all sets of views and readers, instruments, and histories of measurements, observations and collections", "why_tests_cant": "Quantifies over all configurations of views and readers and all interleavings of measurements and collections.", "anchors": ["opentelemetry-sdk/src/opentelemetry/sdk/metrics/_internal/metric_reader_storage.py: MetricReaderStorage", "opentelemetry-sdk/src/opentelemetry/sdk/metrics/_internal/measurement_consumer.py: SynchronousMeasurementConsumer", "opentelemetry-sdk/src/opentelemetry/sdk/metrics/_internal/view.py: View._match"]}
{"id": "C67", "title": "OTLP spans carry everything the span says", "statement": "Reading an encoded span gives back the span's ids, parent id, trace state, flags, name, kind, times, status, attributes, events, links and drop counts; a span is encoded whenever its texts are Unicode and its numbers fit, and one span that cannot be encoded makes the call raise.", "quantifier": "all spans", "why_tests_cant": "all field values, including the boundary of every integer field", "anchors": ["exporter/opentelemetry-exporter-otlp-proto-common/src/opentelemetry/exporter/otlp/proto/common/_internal/trace_encoder/__init__.py: _encode_span, _encode_events, _encode_links, _encode_status"]}
{"id": "C68", "title": "OTLP log records carry everything the record says", "statement": "Reading an encoded log record gives back its ids, flags, times, severity, body (of any nesting), attributes and drop count; batches are grouped by resource and scope as spans are; exactly the records with ids, flags and severity, Unicode texts and numbers that fit can be encoded.", "quantifier": "all log records, all batches", "why_tests_cant": "bodies nest arbitrarily", "anchors": ["exporter/opentelemetry-exporter-otlp-proto-common/src/opentelemetry/exporter/otlp/proto/common/_internal/_log_encoder/__init__.py: encode_logs, _encode_log, _encode_resource_logs"]}
{"id": "C69", "title": "OTLP metrics carry everything the points say", "statement": "Reading an encoded metrics request gives back every resource, scope, metric and point with its attributes, times, values, buckets, exemplars, temporality and monotonicity, in order; encoding succeeds whenever texts are Unicode and numbers fit.", "quantifier": "all metrics data", "why_tests_cant": "all point values and shapes", "anchors": ["exporter/opentelemetry-exporter-otlp-proto-common/src/opentelemetry/exporter/otlp/proto/common/_internal/metrics_encoder/__init__.py: encode_metrics, _encode_metric, _encode_exemplars"]}
{"id": "C70", "title": "Prometheus units are legal name suffixes", "statement": "Every unit is translated to characters that are legal in a metric name, and curly-brace annotations do not change the result.", "quantifier": "all unit strings", "why_tests_cant": "all strings, including annotations and ratios", "anchors": ["exporter/opentelemetry-exporter-prometheus/src/opentelemetry/exporter/prometheus/_mapping.py: map_unit"]}
{"id": "C71", "title": "A Prometheus scrape shows every data point once", "statement": "The families of a scrape are exactly the groups of data points with the same kind, name, description, labels and unit (ids never collide), each point appears exactly once with its attributes as labels, and a scrape shows each family once.", "quantifier": "all metrics data and all scrape histories", "why_tests_cant": "all names, descriptions, attributes and histories", "anchors": ["exporter/opentelemetry-exporter-prometheus/src/opentelemetry/exporter/prometheus/__init__.py: _CustomCollector.collect, _translate_to_prometheus"]}
{"id": "C72", "title": "Severity mapping", "statement": "Every level of Python's logging module maps to a severity number between 0 and 24; higher levels never map to smaller numbers; DEBUG, INFO, WARNING, ERROR, CRITICAL map to DEBUG, INFO, WARN, ERROR, FATAL.", "quantifier": "all integers as levels", "why_tests_cant": "unbounded range of custom levels; monotonicity is a property of pairs", "anchors": ["opentelemetry-api/src/opentelemetry/_logs/severity/__init__.py: std_to_otel"]}
{"id": "C73", "title": "Logging handler translation", "statement": "A record of the logging module emitted through LoggingHandler yields exactly one log record, with the record's time, severity, body, the current span's ids and flags, the provider's resource, the user's extra attributes without the standard fields, and code and exception attributes; nothing when the SDK is disabled; a logging call never raises because of the handler.", "quantifier": "all records, contexts, formatters", "why_tests_cant": "arbitrary extra attributes and messages", "anchors": ["opentelemetry-sdk/src/opentelemetry/sdk/_logs/_internal/__init__.py: LoggingHandler"]}
{"id": "C74", "title": "Logger identity", "statement": "get_logger yields loggers whose scope describes its arguments; calls without attributes yield the same logger iff name, version and schema url agree; a disabled SDK gives no-op loggers.", "quantifier": "all histories of get_logger calls", "why_tests_cant": "identity depends on the whole history", "anchors": ["opentelemetry-sdk/src/opentelemetry/sdk/_logs/_internal/__init__.py: LoggerProvider.get_logger"]}
{"id": "C75", "title": "Simple log processor", "statement": "Each record emitted before the first shutdown is exported once, alone and in order, with suppression on and the caller's context restored; after shutdown nothing is exported; emit never raises because of an exporter's Exception.", "quantifier": "all histories of emit, shutdown, force_flush and all exporters", "why_tests_cant": "arbitrary interleavings and raising exporters", "anchors": ["opentelemetry-sdk/src/opentelemetry/sdk/_logs/_internal/export/__init__.py: SimpleLogRecordProcessor"]}
{"id": "C76", "title": "Events", "statement": "An emitted event becomes a log record with the given fields, defaults from the clock and the current span, severity INFO unless given, and its name in event.name.", "quantifier": "all events and contexts", "why_tests_cant": "combinations of missing fields and conflicting attributes", "anchors": ["opentelemetry-sdk/src/opentelemetry/sdk/_events/__init__.py: EventLogger.emit", "opentelemetry-api/src/opentelemetry/_events/__init__.py: Event"]}
{"id": "C77", "title": "Tracers and loggers obtained before a provider is set", "statement": "A call on a tracer or logger that starts after the global provider was set reaches the tracer or logger this provider gives for the arguments of the caller's get call, even if that get call came before; before that it is a no-op; it never reaches anything else, and never waits.", "quantifier": "all histories and interleavings of get, set and use in any threads", "why_tests_cant": "The proxy's cached tracer, the global provider and the call race; tests run one order.", "anchors": ["opentelemetry-api/src/opentelemetry/trace/__init__.py: ProxyTracer, ProxyTracerProvider, get_tracer, set_tracer_provider", "opentelemetry-api/src/opentelemetry/_logs/_internal/__init__.py: ProxyLogger, ProxyLoggerProvider"]}
{"id": "C78", "title": "Meters and instruments obtained before a provider is set", "statement": "An instrument created through the API before the meter provider is set is connected, when it is set, to exactly one real instrument with the same meter and instrument arguments; no measurement reaches another instrument, none is lost once set_meter_provider has returned, and set_meter_provider returns.", "quantifier": "all interleavings of get_meter, instrument creation, measurements and one set_meter_provider", "why_tests_cant": "Creation races with the setting thread between two levels of locks.", "anchors": ["opentelemetry-api/src/opentelemetry/metrics/_internal/__init__.py: _ProxyMeterProvider, _ProxyMeter, _set_meter_provider", "opentelemetry-api/src/opentelemetry/metrics/_internal/instrument.py: _ProxyInstrument"]}
{"id": "C79", "title": "Zipkin tags", "statement": "Every attribute of a span and its resource becomes a tag with its text, cut to the maximal length; a sequence becomes a JSON array of the longest prefix of its elements that fits; scope, status and dropped counts become tags of their own, which win over attributes of the same name.", "quantifier": "all spans, attributes, maximal lengths", "why_tests_cant": "lengths around the element boundary, escapes, colliding keys", "anchors": ["exporter/opentelemetry-exporter-zipkin-json/src/opentelemetry/exporter/zipkin/encoder/__init__.py: Encoder._extract_tags_from_span, _extract_tag_value_string_from_sequence"]}
{"id": "C80", "title": "Zipkin spans", "statement": "An ended span is encoded with its ids, name, kind, parent, sampled flag and events, and its times rounded to the nearest microsecond, in every zipkin format; no span makes encoding fail.", "quantifier": "all ended spans", "why_tests_cant": "number ranges, missing versions, the default maximal length", "anchors": ["exporter/opentelemetry-exporter-zipkin-json/src/opentelemetry/exporter/zipkin/json/v2/__init__.py: JsonV2Encoder", "exporter/opentelemetry-exporter-zipkin-json/src/opentelemetry/exporter/zipkin/json/v1/__init__.py: JsonV1Encoder", "exporter/opentelemetry-exporter-zipkin-proto-http/src/opentelemetry/exporter/zipkin/proto/http/v2/__init__.py: ProtobufEncoder"]}
{"id": "C81", "title": "Zipkin export calls", "statement": "An export posts one payload with exactly the given spans in order, under their service name, succeeds exactly if the collector accepted it; after shutdown nothing is posted and every export fails.", "quantifier": "all histories of export and shutdown calls and answers", "why_tests_cant": "histories of unbounded length", "anchors": ["exporter/opentelemetry-exporter-zipkin-json/src/opentelemetry/exporter/zipkin/json/__init__.py: ZipkinExporter"]}
{"id": "C82", "title": "Periodic metric export", "statement": "Everything recorded reaches the exporter exactly once, in order, in calls of export that never overlap and run with instrumentation suppressed; a force_flush that returned has brought everything recorded before it to the exporter; until shutdown the ticker keeps exporting.", "quantifier": "all schedules of the ticker, of any number of threads calling collect, force_flush and shutdown, and of recordings, with every outcome of collections and exports", "why_tests_cant": "schedules of several threads, failures at every point", "anchors": ["opentelemetry-sdk/src/opentelemetry/sdk/metrics/_internal/export/__init__.py: PeriodicExportingMetricReader, MetricReader.collect"]}
{"id": "C83", "title": "Metric reader shutdown", "statement": "Shutdown of a periodic reader exports everything recorded before it was called, then shuts the exporter down, once, however many threads call it; nothing is exported afterwards.", "quantifier": "all schedules, any number of threads", "why_tests_cant": "schedules of several threads", "anchors": ["opentelemetry-sdk/src/opentelemetry/sdk/metrics/_internal/export/__init__.py: PeriodicExportingMetricReader.shutdown, _ticker", "opentelemetry-api/src/opentelemetry/util/_once.py: Once.do_once"]}
{"id": "C84", "title": "MeterProvider.force_flush and shutdown reach every reader", "statement": "force_flush and shutdown of a meter provider call its readers in order, each with the time left before the deadline, go on after a reader that raised, return True exactly if all readers were called and returned, and otherwise raise naming the readers that failed or had no turn; a reader is shut down at most once however often shutdown is called.", "quantifier": "every list of readers, every behaviour of each, every clock and timeout, every history of calls", "why_tests_cant": "tests use one or two mock readers with a fixed clock; which readers are reached depends on every combination of failures and times", "anchors": ["opentelemetry-sdk/src/opentelemetry/sdk/metrics/_internal/__init__.py:MeterProvider.force_flush", "opentelemetry-sdk/src/opentelemetry/sdk/metrics/_internal/__init__.py:MeterProvider.shutdown"]}
{"id": "C85", "title": "get_meter returns one meter per scope", "statement": "Two calls of get_meter on a provider return the same meter exactly if name, version, schema URL and attributes are equal, the meter reports the scope of the first such call, and a meter that records nothing is returned exactly if the SDK is disabled, the provider was shut down before or the name is empty.", "quantifier": "every history of get_meter and shutdown calls with any arguments", "why_tests_cant": "a unit test compares two meters; identity must hold across any sequence of requests", "anchors": ["opentelemetry-sdk/src/opentelemetry/sdk/metrics/_internal/__init__.py:MeterProvider.get_meter", "opentelemetry-sdk/src/opentelemetry/sdk/util/instrumentation.py:InstrumentationScope"]}
{"id": "C86", "title": "A metric reader belongs to at most one provider", "statement": "Whatever meter providers a program creates, with success or not, no reader is shared by two of them, each reader collects from its own provider, and a provider with distinct unused readers can always be created.", "quantifier": "every sequence of provider constructions with any lists of readers", "why_tests_cant": "depends on the whole history of a process-wide registry", "anchors": ["opentelemetry-sdk/src/opentelemetry/sdk/metrics/_internal/__init__.py:MeterProvider.__init__"]}
{"id": "C87", "title": "A reader reports each instrument with the preferred temporality", "statement": "A metric reader accepts exactly the preferences that give a temporality to SDK instrument classes and uses them, with cumulative as the default; with an OTLP exporter the user's preference comes first, then the DELTA, LOWMEMORY or CUMULATIVE table chosen by the environment variable.", "quantifier": "every dict of preferences, every value of the environment variable, every instrument kind", "why_tests_cant": "the combinations of user dict and environment value are unbounded", "anchors": ["opentelemetry-sdk/src/opentelemetry/sdk/metrics/_internal/export/__init__.py:MetricReader.__init__", "exporter/opentelemetry-exporter-otlp-proto-common/src/opentelemetry/exporter/otlp/proto/common/_internal/metrics_encoder/__init__.py:OTLPMetricExporterMixin._get_temporality"]}
{"id": "C88", "title": "Built-in samplers pass on attributes and trace state", "statement": "A sampler built in any way from those of the SDK returns the parent's trace state when the parent is valid and none otherwise, and returns the attributes it was given unless it drops the span.", "quantifier": "all nestings of the built-in samplers, all parents, attributes and decisions", "why_tests_cant": "the nestings are unbounded and the decision depends on the parent and the trace id", "anchors": ["opentelemetry-sdk/src/opentelemetry/sdk/trace/sampling.py: StaticSampler, TraceIdRatioBased, ParentBased"]}
{"id": "C89", "title": "A collection's OTLP request totals exactly the program's calls", "statement": "For an instrument to which no view applies, the OTLP request made of a reader's collection contains, under the instrument's scope and with its name, description and unit, one point per distinct attribute set used, and that point carries the total (counters, up-down counters), the last value (gauges) or the count/sum/min/max/buckets (histograms) of exactly the amounts the program measured with those attributes: since the start for cumulative readers, since that reader's last collection for delta ones (and gauges). Negative amounts of counters and histograms are not counted; start times are the previous collection or the first measurement.", "quantifier": "all histories of calls on any number of instruments with any attributes, interleaved with collections by any number of readers with any temporality, observations of observable instruments and failed (timed out) collections", "why_tests_cant": "A unit test fixes one short history and one reader; mixing of streams, readers, temporalities, attribute equality and encoding interact in unboundedly many ways", "anchors": ["opentelemetry-sdk/src/opentelemetry/sdk/metrics/_internal/measurement_consumer.py:SynchronousMeasurementConsumer", "opentelemetry-sdk/src/opentelemetry/sdk/metrics/_internal/metric_reader_storage.py:MetricReaderStorage", "opentelemetry-sdk/src/opentelemetry/sdk/metrics/_internal/aggregation.py:_SumAggregation.collect", "exporter/opentelemetry-exporter-otlp-proto-common/src/opentelemetry/exporter/otlp/proto/common/_internal/metrics_encoder/__init__.py:encode_metrics"]}
{"id": "C90", "title": "Exported OTLP spans say exactly what the program recorded, once, in the program's tree", "statement": "With a batch span processor and the OTLP exporter, under every interleaving of the program's threads with the worker: every span handed to the exporter is a sampled, ended span of the program; its message carries the name, kind, times, attributes, events, links, status, context and parent that the calls up to its first end() gave it, under the provider's resource and its tracer's scope; no span is handed over twice; the parent and trace ids in the messages form the tree of the program's start_span calls; with a parent based sampler a span is sampled iff its parent is; and a sampled span whose end() had returned before force_flush() or shutdown() was called has been exported when that call returns successfully, unless a full queue dropped it, which needs more spans than the queue size.", "quantifier": "every sequence of start_span, span, on_end, force_flush and shutdown calls of any number of threads, every interleaving with the worker, every id generator of valid ids, every sampler built from the SDK's, all limits, queue and batch sizes", "why_tests_cant": "Tests run a handful of spans in one thread with an in-memory exporter; the composition of sampling, locking, the worker's races and the encoder is never covered for all histories.", "anchors": ["opentelemetry-sdk/src/opentelemetry/sdk/trace/__init__.py:Tracer.start_span", "opentelemetry-sdk/src/opentelemetry/sdk/trace/__init__.py:Span.end", "opentelemetry-sdk/src/opentelemetry/sdk/trace/export/__init__.py:BatchSpanProcessor", "exporter/opentelemetry-exporter-otlp-proto-common/src/opentelemetry/exporter/otlp/proto/common/_internal/trace_encoder/__init__.py:encode_spans"]}
{"id": "C91", "title": "OTLP over HTTP sends what the settings said when the exporter was made", "statement": "An OTLP HTTP exporter (traces, metrics or logs) that uses a session of its own can be constructed exactly if the timeout is a number and the compression is known. Every request it posts then goes to the URL chosen by argument, signal variable or general variable (with the signal's path appended with one slash), with the chosen timeout, certificates, compression and headers as they were at construction: later changes of the environment and other exporters make no difference. Each header name occurs once; the exporter's own headers win over configured ones and these over the session's. A receiver that undoes the stated content encoding gets the encoded data.", "quantifier": "every signal, every combination of arguments, every environment, every history of environment changes, sessions, other exporters and exports", "why_tests_cant": "precedence of nine settings with three sources each over three signals, with later interference, is an unbounded product", "anchors": ["exporter/opentelemetry-exporter-otlp-proto-http/src/opentelemetry/exporter/otlp/proto/http/trace_exporter/__init__.py: OTLPSpanExporter.__init__, _export, _append_trace_path, _compression_from_env", "exporter/opentelemetry-exporter-otlp-proto-http/src/opentelemetry/exporter/otlp/proto/http/metric_exporter/__init__.py: OTLPMetricExporter.__init__", "exporter/opentelemetry-exporter-otlp-proto-http/src/opentelemetry/exporter/otlp/proto/http/_log_exporter/__init__.py: OTLPLogExporter.__init__"]}
{"id": "C92", "title": "An OTLP exporter that is asked for TLS uses it, with the certificates that were named", "statement": "The HTTP exporters check the server's certificate whatever the environment says. The gRPC exporters never speak plaintext to an https endpoint or when insecure=False is passed, and the channel credentials are the credentials argument, else made of the files named by the signal's certificate variables, else of those named by the general ones, else the defaults.", "quantifier": "every signal, every combination of arguments, every environment, every content of the file system", "why_tests_cant": "security defaults must hold for every combination of settings", "anchors": ["exporter/opentelemetry-exporter-otlp-proto-grpc/src/opentelemetry/exporter/otlp/proto/grpc/exporter.py: OTLPExporterMixin.__init__, _get_credentials, _load_credentials, _read_file", "exporter/opentelemetry-exporter-otlp-proto-grpc/src/opentelemetry/exporter/otlp/proto/grpc/trace_exporter/__init__.py: OTLPSpanExporter.__init__", "exporter/opentelemetry-exporter-otlp-proto-http/src/opentelemetry/exporter/otlp/proto/http/trace_exporter/__init__.py: OTLPSpanExporter.__init__"]}
{"id": "C93", "title": "Settings of the OTLP gRPC exporters", "statement": "Target, plaintext or TLS, timeout, compression and metadata of a gRPC exporter are decided by argument, signal variable, general variable and default in that order, where an https address overrides the rest; construction succeeds exactly if the address parses, the timeout variables that are read are numbers and the compression is known; every documented value of the compression variables is accepted.", "quantifier": "every signal, every combination of arguments and every environment", "why_tests_cant": "the product of arguments and variables is unbounded", "anchors": ["exporter/opentelemetry-exporter-otlp-proto-grpc/src/opentelemetry/exporter/otlp/proto/grpc/exporter.py: OTLPExporterMixin.__init__, environ_to_compression", "exporter/opentelemetry-exporter-otlp-proto-grpc/src/opentelemetry/exporter/otlp/proto/grpc/metric_exporter/__init__.py: OTLPMetricExporter.__init__", "exporter/opentelemetry-exporter-otlp-proto-grpc/src/opentelemetry/exporter/otlp/proto/grpc/_log_exporter/__init__.py: OTLPLogExporter.__init__"]}
{"id": "C94", "title": "Auto-configuration installs what the program and the environment ask for", "statement": "Configuring the SDK installs, in order, a tracer provider with one batch processor for every trace exporter named by the program or by OTEL_TRACES_EXPORTER, a meter provider with a reader for every metric exporter or reader named, a logger provider with one batch processor for every log exporter named, and the logging handler if asked for. 'otlp' means gRPC or HTTP as the protocol variable of the signal, else the general one, says (gRPC without either); 'none' means none; a name given twice counts once. If any name is unknown or of the wrong kind an exception is raised and nothing is installed. If an exporter's constructor raises, what was installed before it stays.", "quantifier": "every environment, every set of installed entry points, every configurator argument, every choice of which classes can be constructed", "why_tests_cant": "Tests check a few settings of mocked entry points; the combinations of names, protocols, spaces, repetitions and failing constructors are unbounded.", "anchors": ["opentelemetry-sdk/src/opentelemetry/sdk/_configuration/__init__.py: _initialize_components, _get_exporter_names, _get_exporter_entry_point, _import_exporters, _init_tracing, _init_metrics, _init_logging"]}
{"id": "C95", "title": "The sampler that auto-configuration installs", "statement": "A sampler given by the program wins. A plugin sampler gets the text of OTEL_TRACES_SAMPLER_ARG. With the SDK's samplers, the sampler installed samples exactly the spans that the name in OTEL_TRACES_SAMPLER and the rate in OTEL_TRACES_SAMPLER_ARG say.", "quantifier": "every environment, every entry point, every span", "why_tests_cant": "The name is read twice, by two functions with different rules; agreement must hold for every value of the variables and every span.", "anchors": ["opentelemetry-sdk/src/opentelemetry/sdk/_configuration/__init__.py: _import_sampler, _import_sampler_factory, _initialize_components", "opentelemetry-sdk/src/opentelemetry/sdk/trace/sampling.py: _get_from_env_or_default"]}
{"id": "C96", "title": "OTEL_PROPAGATORS selects the propagators; order and repetition do not matter", "statement": "The global propagator has the members named in OTEL_PROPAGATORS, in that order (trace context and baggage when it is not set); importing the API raises exactly when a name is not found or cannot be loaded. Two processes that name trace context and baggage in any order, with any spaces and repetitions, exchange span context and baggage without loss.", "quantifier": "every value of the variable, every set of entry points, every context and carrier", "why_tests_cant": "Orders and repetitions are unbounded, and the claim relates two processes with different settings.", "anchors": ["opentelemetry-api/src/opentelemetry/propagate/__init__.py: module body", "opentelemetry-api/src/opentelemetry/propagators/composite.py: CompositePropagator"]}
{"id": "C97", "title": "Nested with-blocks record the call tree and do not disturb the program", "statement": "A program made of nested 'with tracer.start_as_current_span(...)' blocks, try blocks, attached contexts and baggage returns or raises exactly what it would without instrumentation and leaves its context as it was. Each block has a span whose parent is the innermost block around it (or the span of the context given, attached or inherited), in the parent's trace, showing the block's arguments and the calls made on it. When a block is left by an Exception the span gets the exception event and the ERROR status as the flags say; end_on_exit ends the span and hands it to the processor exactly once. With a clock that does not go back, inner spans lie within the time of outer spans.", "quantifier": "every program of such blocks (any nesting and length), every exception, every choice of flags, every sampler, and every interference of other threads that start spans, call methods of any span, and attach or detach in their own units", "why_tests_cant": "Programs and interleavings are unbounded; tests show single nestings.", "anchors": ["opentelemetry-sdk/src/opentelemetry/sdk/trace/__init__.py: Tracer.start_as_current_span, Tracer.start_span", "opentelemetry-api/src/opentelemetry/trace/__init__.py: use_span", "opentelemetry-api/src/opentelemetry/context/__init__.py: attach, detach"]}
{"id": "C98", "title": "Exported log records say what was logged and point at the span they were logged in", "statement": "Every log record that a batch log record processor hands to its exporter is that of one call of the program - a call of the logging module with a LoggingHandler, an event, or a record emitted directly - as it was at the call, and none is handed over twice; none at all when the SDK is disabled. In the OTLP request of a batch each of its log records has exactly one message with what was logged, under its resource and the scope of its logger. The message of a record made inside a span has the trace id, the span id and the flags of that span - the same bytes as in the span's own message - and one made outside any span has no ids. A record whose call was past the queue when force_flush or shutdown was called has been given to the exporter when that call has returned successfully, unless the full queue dropped it.", "quantifier": "every history of span starts, span calls, log calls, events, flushes and shutdowns by any number of threads, every interleaving with the two workers, every generator of valid ids, every sampler of the SDK, all queue and batch sizes", "why_tests_cant": "Histories and schedules are unbounded; unit tests check one record and one schedule at a time.", "anchors": ["opentelemetry-sdk/src/opentelemetry/sdk/_logs/_internal/__init__.py: LoggingHandler.emit, Logger.emit, LoggerProvider.get_logger", "opentelemetry-sdk/src/opentelemetry/sdk/_logs/_internal/export/__init__.py: BatchLogRecordProcessor", "opentelemetry-sdk/src/opentelemetry/sdk/_events/__init__.py: EventLogger.emit", "exporter/opentelemetry-exporter-otlp-proto-common/src/opentelemetry/exporter/otlp/proto/common/_internal/_log_encoder/__init__.py: encode_logs"]}
{"id": "C99", "title": "OpenTracing start_span: parent and content of the span", "statement": "The span that the shim's start_span makes has as parent the span or context given as child_of; else the span of the innermost scope the caller is inside of, unless ignore_active_span was given; else the first reference that is not the invalid context; else it is a root span. It shows the name, tags and start time it was given, the references as links, and all later calls on it - set_tag, log_kv, set_operation_name, the exception that left a scope's with block - up to the call that finished it or the close of a scope opened with finish_on_close; and it is exported once, when finished.", "quantifier": "every history of starts, activations, closes (by any thread, with or without an exception), forks, calls on spans, and OpenTelemetry starts, attaches, detaches and calls in between; every sampler and every generator of valid ids", "why_tests_cant": "Histories of any length with several threads and two APIs mixed; unit tests check single calls and one level of nesting.", "anchors": ["shim/opentelemetry-opentracing-shim/src/opentelemetry/shim/opentracing_shim/__init__.py: TracerShim.start_span, SpanShim, ScopeShim", "shim/opentelemetry-opentracing-shim/src/opentelemetry/shim/opentracing_shim/util.py"]}
{"id": "C100", "title": "OpenTracing scopes: what is active", "statement": "As long as a thread or task closes its scopes in the reverse order of opening them, its active scope is always the innermost it is inside of, tracer.active_span is the span of that scope and OpenTelemetry's current span is that of whatever was entered last, whichever API was used; a new task starts inside of what its creator is inside of; other threads have no influence.", "quantifier": "every history of starts, activations, closes (by any thread, with or without an exception), forks, calls on spans, and OpenTelemetry starts, attaches, detaches and calls in between; every sampler and every generator of valid ids; every thread or task", "why_tests_cant": "Histories of any length with several threads and two APIs mixed; unit tests check single calls and one level of nesting.", "anchors": ["shim/opentelemetry-opentracing-shim/src/opentelemetry/shim/opentracing_shim/__init__.py: ScopeManagerShim, ScopeShim.close, ScopeShim.__exit__"]}
{"id": "C101", "title": "OpenTracing start_active_span", "statement": "start_active_span makes a span as start_span does, with the current span as parent unless one is given or ignore_active_span is true, makes it active, and finishes it on close if asked to.", "quantifier": "every history of starts, activations, closes (by any thread, with or without an exception), forks, calls on spans, and OpenTelemetry starts, attaches, detaches and calls in between; every sampler and every generator of valid ids", "why_tests_cant": "Histories of any length with several threads and two APIs mixed; unit tests check single calls and one level of nesting.", "anchors": ["shim/opentelemetry-opentracing-shim/src/opentelemetry/shim/opentracing_shim/__init__.py: TracerShim.start_active_span"]}
{"id": "C102", "title": "OpenTracing inject and extract", "statement": "A span context injected through the shim into a text map or HTTP headers and extracted through the shim on the other side is the same context marked remote, whatever is current on either side; extract yields what an acceptable traceparent header says or the invalid context, never what happens to be current; other formats raise UnsupportedFormatException.", "quantifier": "every valid span context, every current context, every carrier", "why_tests_cant": "Contexts, carriers and header texts are unbounded.", "anchors": ["shim/opentelemetry-opentracing-shim/src/opentelemetry/shim/opentracing_shim/__init__.py: TracerShim.inject, TracerShim.extract"]}
{"id": "C103", "title": "OpenTracing baggage items", "statement": "A baggage item set on a span is what get_baggage_item of that span returns until it is set again, and it goes along with the span: to its children and to other processes.", "quantifier": "every history of starts, activations, closes (by any thread, with or without an exception), forks, calls on spans, and OpenTelemetry starts, attaches, detaches and calls in between; every sampler and every generator of valid ids; every item name", "why_tests_cant": "Histories of any length with several threads and two APIs mixed; unit tests check single calls and one level of nesting.", "anchors": ["shim/opentelemetry-opentracing-shim/src/opentelemetry/shim/opentracing_shim/__init__.py: SpanShim.set_baggage_item, SpanShim.get_baggage_item, SpanContextShim"]}
{"id": "C104", "title": "What the request of a collection says through views", "statement": "For every history of calls on instruments and collections, every set of views and every reader, each instrument that a view selects appears in the OTLP request under the name and description the view gives, with one point per set of attributes as far as the view keeps them, and the point has exactly the sum, last value or histogram of the amounts with these attributes in the reader's interval.", "quantifier": "all histories of instrument calls and collections of any length by several readers, all lists of views, all attribute sets, all buckets", "why_tests_cant": "Views, readers and histories combine without bound: which calls fall into one point depends on the attributes a view keeps and on every collection before.", "anchors": ["opentelemetry-sdk/src/opentelemetry/sdk/metrics/_internal/_view_instrument_match.py: _ViewInstrumentMatch", "opentelemetry-sdk/src/opentelemetry/sdk/metrics/_internal/metric_reader_storage.py: MetricReaderStorage", "opentelemetry-sdk/src/opentelemetry/sdk/metrics/_internal/aggregation.py", "exporter/opentelemetry-exporter-otlp-proto-common: encode_metrics"]}
{"id": "C105", "title": "Observable instruments in the request", "statement": "For an observable counter or up-down counter a cumulative reader is told the total that its callbacks observed in this collection for each set of attributes, and a delta reader the difference to what it was last told, from the time it was last told.", "quantifier": "all histories of observations and collections by several readers, some of which time out, all views", "why_tests_cant": "Deltas relate any two collections of a history with any number of collections by other readers and failed ones between them.", "anchors": ["opentelemetry-sdk/src/opentelemetry/sdk/metrics/_internal/aggregation.py: _SumAggregation.collect", "opentelemetry-sdk/src/opentelemetry/sdk/metrics/_internal/measurement_consumer.py: SynchronousMeasurementConsumer.collect", "opentelemetry-sdk/src/opentelemetry/sdk/metrics/_internal/_view_instrument_match.py"]}
{"id": "C106", "title": "Callbacks of observable instruments", "statement": "In every collection, each callback given when an observable instrument was created is called once, in the order of creation, with the time that is left (at most ten seconds) until the deadline has passed; everything it observes is taken, and a callback that fails affects no other; a generator gives one batch per call.", "quantifier": "all programs that create instruments with functions and generators as callbacks and collect any number of times, all clocks, all failures", "why_tests_cant": "What a callback is given and gives depends on all its calls before, and the deadline can pass before any instrument.", "anchors": ["opentelemetry-sdk/src/opentelemetry/sdk/metrics/_internal/instrument.py: _Asynchronous.__init__, _Asynchronous.callback", "opentelemetry-sdk/src/opentelemetry/sdk/metrics/_internal/measurement_consumer.py: SynchronousMeasurementConsumer.collect", "opentelemetry-sdk/src/opentelemetry/sdk/metrics/_internal/__init__.py: Meter.create_observable_counter"]}
{"id": "C107", "title": "Metrics with threads", "statement": "Any number of threads may use instruments while readers collect, interrupted anywhere. What happens to a metric stream is then one sequence of measurements and collections that one thread could have made on one aggregation: every call that has ended has added its amounts exactly once, each between the beginning and the end of its call; a collection returns, once each, what the streams of its reader gave it; for a cumulative counter this is the total over a set of calls that has all calls that ended before the collection began and none that began after it ended, for a delta counter the total since the previous collection. No call fails with KeyError or because a dict changed during iteration, and there is no deadlock: every call ends. (False: that a collection is a picture of one moment across streams, that a point's time is never before its start, that a callback may create an observable instrument.)", "quantifier": "all programs of calls in any number of threads, all schedules of their reads, writes and locks, all views, readers and attribute sets", "why_tests_cant": "A test runs a few schedules; the property is about every interleaving of every number of threads, and the races (two threads creating one stream, a stream created during a collection) need interleavings at single instructions.", "anchors": ["opentelemetry-sdk/src/opentelemetry/sdk/metrics/_internal/measurement_consumer.py:SynchronousMeasurementConsumer", "opentelemetry-sdk/src/opentelemetry/sdk/metrics/_internal/metric_reader_storage.py:MetricReaderStorage", "opentelemetry-sdk/src/opentelemetry/sdk/metrics/_internal/_view_instrument_match.py:_ViewInstrumentMatch", "opentelemetry-sdk/src/opentelemetry/sdk/metrics/_internal/aggregation.py:_SumAggregation"]}
{"id": "C108", "title": "Metrics after a fork", "statement": "A process forked from one that uses the metrics SDK can use instruments and collect: if no call was under way in the parent, the child goes on exactly as the parent would have. (False if another thread was in a call: the child inherits its locks and waits for ever.)", "quantifier": "all programs and schedules before and after the fork", "why_tests_cant": "Whether another thread holds a lock at the moment of the fork depends on the schedule.", "anchors": ["opentelemetry-sdk/src/opentelemetry/sdk/metrics/_internal/export/__init__.py:PeriodicExportingMetricReader._at_fork_reinit", "opentelemetry-sdk/src/opentelemetry/sdk/metrics/_internal/measurement_consumer.py:SynchronousMeasurementConsumer"]}
{"id": "C109", "title": "Floating point measurements", "statement": "For measurements that are floats or ints: what a sum reports differs from the exact sum of the amounts that count by at most the rounding of that many additions; a counter's cumulative value never goes down; the deltas of an observable sum are the differences of the observed values up to one rounding, and not negative if the values grow; every recorded value is counted in its histogram bucket once, with exact count, minimum and maximum; a last value is reported as it was set; no call or collection raises; ints alone are exact. (False: ints above 2**53 together with floats make a counter go down; an int too large for a float makes add or a collection raise OverflowError, and the collection's amounts are lost; Counter.add(nan) is accepted, and nothing the counter reports afterwards is a number; histogram boundaries are not checked.)", "quantifier": "all histories of calls and collections of one stream, all ints and IEEE 754 doubles including infinities and NaN, all kinds of instruments, both temporalities, all boundaries", "why_tests_cant": "Rounding errors depend on all amounts and their order; tests use a few small numbers.", "anchors": ["opentelemetry-sdk/src/opentelemetry/sdk/metrics/_internal/aggregation.py:_SumAggregation", "opentelemetry-sdk/src/opentelemetry/sdk/metrics/_internal/aggregation.py:_ExplicitBucketHistogramAggregation", "opentelemetry-sdk/src/opentelemetry/sdk/metrics/_internal/aggregation.py:_LastValueAggregation", "opentelemetry-sdk/src/opentelemetry/sdk/metrics/_internal/instrument.py:Counter"]}
{"id": "C110", "title": "Exponential histograms of floating point numbers", "statement": "With logarithms computed in floating point (math.log accurate to one unit in the last place, the SDK's own multiplication and division rounded), every value recorded into an exponential histogram is counted in the bucket it belongs to up to a factor of 1+2^-39; lowering the scale never moves a value to a bucket that disagrees with where it is then looked up; and therefore recording never raises and every point lists the recorded values, also after rescaling and merging.", "quantifier": "every math.log of the stated accuracy, every finite double, every scale, every sequence of record and collect calls", "why_tests_cant": "the disagreements are at a handful of doubles next to powers of two and need a second value that forces the scale down to exactly 0; no test samples them", "anchors": ["opentelemetry-sdk/src/opentelemetry/sdk/metrics/_internal/exponential_histogram/mapping/logarithm_mapping.py: LogarithmMapping", "opentelemetry-sdk/src/opentelemetry/sdk/metrics/_internal/exponential_histogram/mapping/exponent_mapping.py: ExponentMapping", "opentelemetry-sdk/src/opentelemetry/sdk/metrics/_internal/aggregation.py: _ExponentialBucketHistogramAggregation"]}
{"id": "C111", "title": "A span used by several threads", "statement": "Threads may use one span at the same time: whatever the schedule, whenever no thread is inside a method the span shows exactly what the methods called so far record one after the other, in an order that agrees with each thread's program, up to the first end(); on_end is called at most once, outside the span's lock, with the ended span; all threads come to their end. (False: logging handlers that use the span make set_attribute(k, None), set_attribute on an ended span and a second end() wait for ever, because these log while they hold the span's lock; a key read without the lock can be missing while it is set again.)", "quantifier": "all programs of any number of threads, all schedules at the level of taking the lock and storing single attributes, all numbers of logged records, all calls made by processors", "why_tests_cant": "Interleavings inside set_attributes and between end() and on_end are not chosen by a test.", "anchors": ["opentelemetry-sdk/src/opentelemetry/sdk/trace/__init__.py:Span", "opentelemetry-api/src/opentelemetry/attributes/__init__.py:BoundedAttributes"]}
{"id": "C112", "title": "Spans and batch processors after a fork", "statement": "In a program that forks, at any time and any number of times, each sampled span that ends is exported at most once, by the process in which it ended and only by it; force_flush and shutdown export what ended in their process; no process waits for ever; a span open at a fork goes on in the child as it was. (False: a span open at a fork that both processes end is exported by both; if another thread was inside a method of the span at the moment of the fork, the child's first call on it never returns.)", "quantifier": "all trees of forks, all schedules of the threads and workers of all processes, all crash points of processes, all queue and batch sizes", "why_tests_cant": "What is in the queue, with the worker or under a lock at the moment of the fork depends on the schedule.", "anchors": ["opentelemetry-sdk/src/opentelemetry/sdk/trace/export/__init__.py:BatchSpanProcessor._at_fork_reinit", "opentelemetry-sdk/src/opentelemetry/sdk/_logs/_internal/export/__init__.py:BatchLogRecordProcessor._at_fork_reinit", "opentelemetry-sdk/src/opentelemetry/sdk/trace/__init__.py:Span"]}
{"id": "C113", "title": "OpenCensus spans through the shim", "statement": "Through the OpenCensus shim, a span that start_span makes is a child of the current OpenTelemetry span, or else of the span context its tracer was made with; it shows its name and what its methods and others did to it until it was finished, and is handed to the processors once; it is what current_span(), OpenTelemetry's current span and OpenCensus's execution context show in its thread or task until end_span or the end of its with block, after which everything is as before. (False: end_span in a task made inside the span ends that span and leaves it current; a finished span stays current; the execution context goes wrong around contexts that are not derived from the current one.)", "quantifier": "all histories of calls of OpenCensus and OpenTelemetry in all threads and tasks, all tracer contexts, samplers and limits", "why_tests_cant": "Spans of two APIs are mixed by any number of threads and tasks in any order.", "anchors": ["shim/opentelemetry-opencensus-shim/src/opentelemetry/shim/opencensus/_shim_tracer.py:ShimTracer", "shim/opentelemetry-opencensus-shim/src/opentelemetry/shim/opencensus/_shim_span.py:ShimSpan"]}
{"id": "C114", "title": "Times in texts, seconds and nanoseconds", "statement": "A time of a span, event or log record is printed as a UTC text that says a time less than a microsecond away, and exactly that time if it is a whole number of microseconds (until 2106); later times are never printed as earlier ones. The timestamp of a record from Python's logging, and times that OpenTracing users give or read in seconds, are less than half a microsecond away from the time itself, and in the same order. Times of OpenCensus message events are read with the same accuracy. (False: outside of UTC local time, message event times are wrong by the difference; the text is not the nearest microsecond; a log record without a timestamp cannot be printed.)", "quantifier": "all nanosecond timestamps and all floats of seconds from 1970 to 2106 (order: as long as they can be printed); all texts of dates; all local time zones", "why_tests_cant": "Rounding errors of float arithmetic depend on the value; there are 2^62 timestamps and every calendar rule to meet.", "anchors": ["opentelemetry-sdk/src/opentelemetry/sdk/util/__init__.py:ns_to_iso_str", "opentelemetry-sdk/src/opentelemetry/sdk/_logs/_internal/__init__.py:LoggingHandler._translate", "shim/opentelemetry-opentracing-shim/src/opentelemetry/shim/opentracing_shim/util.py:time_seconds_to_ns", "shim/opentelemetry-opencensus-shim/src/opentelemetry/shim/opencensus/_shim_span.py:_opencensus_time_to_nanos"]}
{"id": "C115", "title": "Spans exported to an OpenCensus collector", "statement": "The OpenCensus exporter sends one message per span of a batch, in order, that says what the span says: ids, parent, trace state, name, server or client kind, times to the nanosecond, attributes, events, links (marked if they are to the parent), status code and message; under the service name of the first span's resource; and export() says SUCCESS exactly if the collector answered to these. (False: status OK is sent as code 1, which OpenCensus reads as an error; root spans get a parent id of zeros; one attribute that cannot be sent keeps the batch from being sent; a service name that is not a string makes export() raise.)", "quantifier": "all batches of spans, all attributes, times, ids and answers of the collector", "why_tests_cant": "Field-by-field faithfulness has to hold for every span, value type and range; tests compare a few literals.", "anchors": ["exporter/opentelemetry-exporter-opencensus/src/opentelemetry/exporter/opencensus/trace_exporter/__init__.py:translate_to_collector", "exporter/opentelemetry-exporter-opencensus/src/opentelemetry/exporter/opencensus/trace_exporter/__init__.py:OpenCensusSpanExporter.export", "exporter/opentelemetry-exporter-opencensus/src/opentelemetry/exporter/opencensus/util.py:add_proto_attribute_value"]}
{"id": "C116", "title": "Values are written as JSON that stands for them, and read back", "statement": "Where the SDK serialises a value as JSON (spans, resources, scopes, log records, metrics; with any indentation), the text is a JSON text in the sense of RFC 8259 that stands for exactly that value, whatever characters its strings contain; and where the SDK parses JSON back, every JSON text is read as the value that it stands for, so that a resource, data point or metric that is written, read and written again inside a larger document loses nothing.", "quantifier": "every nesting of objects, lists, strings, integers and floats, every character in strings and keys, every indentation, every blank space in what is read", "why_tests_cant": "Escapes, surrogate pairs, nesting, separators and number forms multiply without bound; a test compares a few documents.", "anchors": ["opentelemetry-sdk/src/opentelemetry/sdk/trace/__init__.py:ReadableSpan.to_json", "opentelemetry-sdk/src/opentelemetry/sdk/resources/__init__.py:Resource.to_json", "opentelemetry-sdk/src/opentelemetry/sdk/metrics/_internal/point.py:MetricsData.to_json", "opentelemetry-sdk/src/opentelemetry/sdk/_logs/_internal/__init__.py:LogRecord.to_json", "opentelemetry-sdk/src/opentelemetry/sdk/util/instrumentation.py:InstrumentationScope.to_json"]}
{"id": "C117", "title": "The document printed for a span says what the span is", "statement": "A span's JSON document, and the stream of documents that the console exporter prints for a batch, is JSON that says of every span its name, identifiers, trace state, kind, parent, times, status, attributes, events, links and resource, such that whoever reads the stream gets back exactly the documents that were printed, in order; every attribute that was accepted can be printed.", "quantifier": "every span with texts in Unicode, floats that are numbers, identifiers in range and times between 1970 and 2106; every batch; every indentation", "why_tests_cant": "Names, attribute values and nested data are unbounded; a test prints a few spans and compares the text.", "anchors": ["opentelemetry-sdk/src/opentelemetry/sdk/trace/__init__.py:ReadableSpan.to_json", "opentelemetry-sdk/src/opentelemetry/sdk/trace/export/__init__.py:ConsoleSpanExporter", "opentelemetry-sdk/src/opentelemetry/sdk/resources/__init__.py:Resource.to_json"]}
{"id": "C118", "title": "The document printed for a log record says what the record is", "statement": "A log record's JSON document, and what the console exporter prints for a batch of records, is JSON that says of every record its body - with all that is nested in it -, severity, attributes, dropped attributes, times, identifiers, flags and resource.", "quantifier": "every record with both times between 1970 and 2106 and texts in Unicode; every body of nested sequences and mappings; every batch; every indentation", "why_tests_cant": "Bodies nest without bound; a test prints a few.", "anchors": ["opentelemetry-sdk/src/opentelemetry/sdk/_logs/_internal/__init__.py:LogRecord.to_json", "opentelemetry-sdk/src/opentelemetry/sdk/_logs/_internal/export/__init__.py:ConsoleLogExporter"]}
{"id": "C119", "title": "The document printed for metrics says what the metrics are", "statement": "The JSON document of a collection of metrics, which is written, read and written again at each level, and what the console exporter prints for it, is JSON that says of every resource, scope, metric and data point all its members, in order, losing nothing at any level.", "quantifier": "every collection of resource, scope, metric, data point and exemplar with floats that are numbers and texts in Unicode; gauges, sums, histograms and exponential histograms; every indentation", "why_tests_cant": "Documents nest and repeat without bound and go through the parser at each level; a test compares a few texts.", "anchors": ["opentelemetry-sdk/src/opentelemetry/sdk/metrics/_internal/point.py:MetricsData.to_json", "opentelemetry-sdk/src/opentelemetry/sdk/metrics/_internal/export/__init__.py:ConsoleMetricExporter", "opentelemetry-sdk/src/opentelemetry/sdk/util/instrumentation.py:InstrumentationScope.to_json"]}
{"id": "C120", "title": "Without an SDK the API does nothing and passes traces on", "statement": "In a program instrumented with the API while no SDK is installed, blocks of tracer.start_as_current_span and calls on its spans have no effect: the program sends, is answered and raises what it would without them, is_recording() is never true, and afterwards the current context is what it was. A trace received in an acceptable traceparent header reaches the next process with the same trace id, span id, flags and tracestate.", "quantifier": "every arrangement of nested blocks, messages, baggage, exceptions and handlers, every propagator (the passing on: W3C), every state of the runtime context and everything other threads and tasks do", "why_tests_cant": "tests run a few blocks; the claim is about all programs and all nestings", "anchors": ["opentelemetry-api/src/opentelemetry/trace/__init__.py:NoOpTracer", "opentelemetry-api/src/opentelemetry/trace/__init__.py:use_span", "opentelemetry-api/src/opentelemetry/trace/span.py:NonRecordingSpan"]}
{"id": "C121", "title": "Spans in coroutines, generators and decorated functions", "statement": "In every task the current span is that of the innermost open with-block of the task, or the one in which the task was made; new spans are its children; leaving a block makes current what was so before. A function or coroutine function decorated with tracer.start_as_current_span runs each call inside a new span, which is current when the body starts and ends after it.", "quantifier": "every schedule of any number of tasks and of frames (coroutines, generators) that are suspended and resumed inside their blocks", "why_tests_cant": "which frame runs when is decided by the event loop and by the consumers of generators; tests see a few orders", "anchors": ["opentelemetry-api/src/opentelemetry/util/_decorator.py:_AgnosticContextManager", "opentelemetry-api/src/opentelemetry/trace/__init__.py:use_span", "opentelemetry-sdk/src/opentelemetry/sdk/trace/__init__.py:Tracer.start_as_current_span"]}
{"id": "C122", "title": "Telemetry kept in memory", "statement": "InMemorySpanExporter and InMemoryLogExporter: what is read are whole batches of successful exports, each once, in an order that agrees with time, exactly those since the last clear; an export fails if and only if shutdown was called before it. InMemoryMetricReader with delta temporality: every measurement is returned by exactly one get_metrics_data.", "quantifier": "every interleaving of any number of exports, reads, clears, a shutdown; every history of measurements, collections and reads", "why_tests_cant": "the guarantee is about all interleavings of critical sections; tests run a few", "anchors": ["opentelemetry-sdk/src/opentelemetry/sdk/trace/export/in_memory_span_exporter.py:InMemorySpanExporter", "opentelemetry-sdk/src/opentelemetry/sdk/_logs/_internal/export/in_memory_log_exporter.py:InMemoryLogExporter", "opentelemetry-sdk/src/opentelemetry/sdk/metrics/_internal/export/__init__.py:InMemoryMetricReader"]}
{"id": "C123", "title": "What was recorded until the program ends is exported", "statement": "A provider made with shutdown_on_exit, whose program never shuts it down: when the interpreter exits, the exporter of every batch processor is given every span (log record) that ended after the processor was added, each once and in order, including those that end in exit callbacks registered after the provider was made; then it is shut down exactly once. If the program calls shutdown itself, everything until then is exported, nothing afterwards, and the exit does not shut the exporter down again.", "quantifier": "every program over any number of providers and processors, every work of the background threads before and during the exit, every set of exit callbacks", "why_tests_cant": "the claim ranges over all programs, registration orders and worker progress at exit; a test ends one program in one state", "anchors": ["opentelemetry-sdk/src/opentelemetry/sdk/trace/__init__.py:TracerProvider.shutdown", "opentelemetry-sdk/src/opentelemetry/sdk/trace/__init__.py:ConcurrentMultiSpanProcessor", "opentelemetry-sdk/src/opentelemetry/sdk/_logs/_internal/__init__.py:LoggerProvider.shutdown"]}
{"id": "C124", "title": "The global provider, set, got and loaded by threads", "statement": "Whatever threads set and get the global provider, in any interleaving, with or without a provider named by the environment, all gets that return a provider return the same one, which was passed to a set or loaded from the environment; it is the provider of the one set that returned without a warning, if there is one; no get returns None. Once a call has shown that a provider is installed, every later get returns it. When the environment names a provider that loads, every get returns a provider. There is no deadlock. Refuted: that the named class is instantiated at most once, and, for meter providers whose get_meter raises, that the provider never changes.", "quantifier": "all histories of set and get calls by any number of threads, all interleavings of their reads, writes and lock operations, all environments", "why_tests_cant": "A test runs a few interleavings; the claim is about all of them, and the Once's fast path, its lock and the two reads of the global in a get only interact in rare ones.", "anchors": ["opentelemetry-api/src/opentelemetry/trace/__init__.py:get_tracer_provider", "opentelemetry-api/src/opentelemetry/trace/__init__.py:set_tracer_provider", "opentelemetry-api/src/opentelemetry/metrics/_internal/__init__.py:_set_meter_provider", "opentelemetry-api/src/opentelemetry/util/_once.py:Once", "opentelemetry-api/src/opentelemetry/util/_providers.py:_load_provider"]}
{"id": "C125", "title": "The global error handler", "statement": "When an exception leaves the body of a GlobalErrorHandler with statement and all registered handlers load and raise only Exceptions, the handlers whose class inherits from the exception's class take it, each once and in order; their failures are logged; the default handler logs it exactly when none handled it; and the program goes on. The statement raises exactly when an entry point does not load or a handler raises something that is no Exception. Refuted: a handler for a class takes exceptions of derived classes; KeyboardInterrupt and SystemExit pass.", "quantifier": "all registered entry points, all class hierarchies, all behaviours of handlers, all exceptions", "why_tests_cant": "A test registers two or three handlers; the claim is about every list of handlers, hierarchy and combination of failures.", "anchors": ["opentelemetry-sdk/src/opentelemetry/sdk/error_handler/__init__.py:GlobalErrorHandler"]}
{"id": "C126", "title": "The built-in resource detectors describe the process, the operating system and the host", "statement": "The process detector gives exactly the runtime's name, version and description, the process and parent ids, the executable and its directory, the command and its arguments and, with psutil, the owner; the operating system is named in lower case with its version; a detector that raises does not stop Resource.create and the resource is the one without it; with the process detector the default service name carries the executable's name; a value given in OTEL_RESOURCE_ATTRIBUTES is not replaced by a detected one.", "quantifier": "all processes, platforms, environments, user attributes and orders of the detectors", "why_tests_cant": "platform values, absent executables and the order of a set differ from machine to machine and run to run", "anchors": ["opentelemetry-sdk/src/opentelemetry/sdk/resources/__init__.py:ProcessResourceDetector.detect", "opentelemetry-sdk/src/opentelemetry/sdk/resources/__init__.py:OsResourceDetector.detect", "opentelemetry-sdk/src/opentelemetry/sdk/resources/__init__.py:_HostResourceDetector.detect", "opentelemetry-sdk/pyproject.toml:opentelemetry_resource_detector"]}
{"id": "C127", "title": "Installing the OpenCensus shim replaces the tracers of all Tracer objects", "statement": "While the shim is installed the tracer of every OpenCensus Tracer, made before or after, is a shim tracer with that Tracer's current span context and the OpenTelemetry tracer of the last installation, and assignments are ignored; tracers with the same span context share one shim tracer, and no shim tracer stands for two contexts; after uninstalling, a Tracer has the tracer it was given.", "quantifier": "all sequences of installing, uninstalling, making tracers, setting contexts, assigning and reading", "why_tests_cant": "the cache of 128 entries and attributes lost during an installation show only in long or unusual histories", "anchors": ["shim/opentelemetry-opencensus-shim/src/opentelemetry/shim/opencensus/_patch.py:install_shim", "shim/opentelemetry-opencensus-shim/src/opentelemetry/shim/opencensus/_patch.py:uninstall_shim"]}
{"id": "C128", "title": "Splitting a metric export loses, repeats and misplaces nothing", "statement": "An OTLP gRPC metric exporter with max_export_batch_size=n sends every data point of a collection in exactly one request, in order, under its own resource, scope and metric. No request has more than n points or anything empty or repeated in it, and there are as few requests as possible. Every request says what its part of the collection says. A request that fails does not keep the others from being sent, and export() reports SUCCESS if and only if all were accepted.", "quantifier": "every collection (any nesting of resources, scopes, metrics of all kinds and points, empty ones included), every n, every sequence of results of the requests", "why_tests_cant": "the splitting depends on where batches end in the three nested groupings; tests try a few shapes", "anchors": ["exporter/opentelemetry-exporter-otlp-proto-grpc/src/opentelemetry/exporter/otlp/proto/grpc/metric_exporter/__init__.py:OTLPMetricExporter.export", "exporter/opentelemetry-exporter-otlp-proto-grpc/src/opentelemetry/exporter/otlp/proto/grpc/metric_exporter/__init__.py:OTLPMetricExporter._split_metrics_data"]}
{"id": "C129", "title": "Settings of batch processors, readers and the meter provider", "statement": "A batch processor's queue length, delay, batch size and timeout are each the constructor's argument, else the value of its own environment variable if that text is an integer as Python reads it, else the documented default; the constructor gives a processor with exactly these settings if the delay is positive and 0 < batch size <= queue length (and the length fits the machine) and raises ValueError (OverflowError) otherwise, so a processor that exists always respects its bounds. The periodic reader's interval, the exemplar filter and the preferred aggregations follow from arguments, variables and defaults in the same way.", "quantifier": "every combination of arguments, every environment, every text in a variable, every table of digits outside ASCII, every limit on the length of numerals", "why_tests_cant": "The texts a variable may hold are unbounded and the settings combine; tests try a handful of values.", "anchors": ["opentelemetry-sdk/src/opentelemetry/sdk/trace/export/__init__.py:BatchSpanProcessor.__init__,_default_max_queue_size,_validate_arguments", "opentelemetry-sdk/src/opentelemetry/sdk/_logs/_internal/export/__init__.py:BatchLogRecordProcessor.__init__", "opentelemetry-sdk/src/opentelemetry/sdk/metrics/_internal/export/__init__.py:MetricReader.__init__,PeriodicExportingMetricReader.__init__", "opentelemetry-sdk/src/opentelemetry/sdk/metrics/_internal/__init__.py:_get_exemplar_filter", "exporter/opentelemetry-exporter-otlp-proto-common/src/opentelemetry/exporter/otlp/proto/common/_internal/metrics_encoder/__init__.py:_get_aggregation"]}
{"id": "C130", "title": "A Prometheus scrape shows what the program measured", "statement": "For any program that creates instruments, measures with them, registers callbacks and is scraped through the Prometheus reader, under any views: a scrape never fails; for each instrument as each view sees it and each distinct set of kept attributes, it shows one sample under the instrument's (sanitised) name, description and unit, whose value is the sum of everything added so far (counters, up-down counters), the sum of what the callbacks observed now (observable counters), the last value (gauges), or, for histograms, for each boundary the number of recorded amounts up to it and their sum; nothing else is shown, and no family twice.", "quantifier": "all instruments, views, sequences of measurements and scrapes, observations and attributes", "why_tests_cant": "tests scrape a handful of instruments after one measurement each; the whole way from the call to the text goes through views, aggregation state kept between scrapes, and grouping by labels, for arbitrary histories", "anchors": ["exporter/opentelemetry-exporter-prometheus/src/opentelemetry/exporter/prometheus/__init__.py:PrometheusMetricReader", "exporter/opentelemetry-exporter-prometheus/src/opentelemetry/exporter/prometheus/__init__.py:_CustomCollector", "opentelemetry-sdk/src/opentelemetry/sdk/metrics/_internal/metric_reader_storage.py:MetricReaderStorage.collect"]}
{"id": "C131", "title": "What Zipkin is sent is what the program did", "statement": "A program traces with spans in several threads, a batch processor and the Zipkin JSON v2 exporter. For each batch there is exactly one POST, whatever the collector answered to the earlier ones, under the service's name. It holds for each span of the batch, in order, one Zipkin span with the ids, name, times in microseconds, kind, sampled flag, events and tags that the program recorded until the span's first end(). No span is posted twice and no unsampled span is posted. The parents and trace ids in the posts form the tree of the program's spans.", "quantifier": "every history of starts, calls and ends of spans in any number of threads, every interleaving with the worker, every queue and batch size, every built-in sampler, every sequence of collector answers and failures, every maximal tag length", "why_tests_cant": "The claim joins recording, queueing and encoding under every schedule and every failure of the collector; tests of the exporter hand it finished spans.", "anchors": ["opentelemetry-sdk/src/opentelemetry/sdk/trace/export/__init__.py: BatchSpanProcessor", "exporter/opentelemetry-exporter-zipkin-json/src/opentelemetry/exporter/zipkin/json/__init__.py: ZipkinExporter", "exporter/opentelemetry-exporter-zipkin-json/src/opentelemetry/exporter/zipkin/json/v2/__init__.py: JsonV2Encoder"]}
{"id": "C132", "title": "The body of a post to Zipkin is JSON that says each span", "statement": "Whatever spans are exported (texts in Unicode, attribute values other than bytes and foreign objects), the body that the Zipkin JSON exporter posts is a JSON array with one object per span in their order. Each object has exactly the members of Zipkin's span: ids, name, timestamp, duration, the local endpoint with the service's name and the addresses and port that are set, the kind (v2), tags (v2) or binary annotations (v1), annotations, debug and parentId, each at most once and present only when there is something to say; and their values are those of C79 and C80. The value of each annotation is itself the JSON text of the event's name and attributes. Reading the body with json.loads gives these objects back.", "quantifier": "every list of spans, every endpoint, every maximal tag length, every text and number in them", "why_tests_cant": "Tests compare the body for a few fixed spans; escapes, nested JSON, missing members and non-finite floats depend on the data.", "anchors": ["exporter/opentelemetry-exporter-zipkin-json/src/opentelemetry/exporter/zipkin/encoder/__init__.py: JsonEncoder.serialize", "exporter/opentelemetry-exporter-zipkin-json/src/opentelemetry/exporter/zipkin/json/v1/__init__.py: JsonV1Encoder", "exporter/opentelemetry-exporter-zipkin-json/src/opentelemetry/exporter/zipkin/json/v2/__init__.py: JsonV2Encoder", "exporter/opentelemetry-exporter-zipkin-json/src/opentelemetry/exporter/zipkin/node_endpoint.py: NodeEndpoint"]}
{"id": "C133", "title": "The Zipkin endpoint says the addresses and the service it was given", "statement": "A Zipkin exporter is constructed with local_node_ipv4 and local_node_ipv6 exactly when each is an address of its kind (a text in the syntax of that kind of address, or an integer), and raises ValueError otherwise. Every object of every document it posts then has an endpoint with the service's name, and with exactly the addresses and the port that were given, each written in a text that stands for the same address with the same zone.", "quantifier": "all texts and integers given as addresses, all ports, resources and lists of spans", "why_tests_cant": "There are infinitely many texts of addresses, with compressed zeros, embedded IPv4 addresses, zones, leading zeros and out-of-range groups; tests pick a handful.", "anchors": ["exporter/opentelemetry-exporter-zipkin-json/src/opentelemetry/exporter/zipkin/node_endpoint.py:NodeEndpoint", "exporter/opentelemetry-exporter-zipkin-json/src/opentelemetry/exporter/zipkin/encoder/__init__.py:_encode_local_endpoint"]}
{"id": "C134", "title": "What the SDK logs itself does not keep the program from logging", "statement": "With the SDK's logging handler on Python's root logger, what the processors and exporters log comes back to them. Still every logging call of the program returns, hands its record to every live processor once and leaves the context as it was; a flush and a shutdown end and export what was queued; and the workers come to rest when the program logs nothing more.", "quantifier": "all providers (any number of processors of both kinds, with any queues), all exporters (whatever they log and whenever they raise), all recursion limits of the interpreter, all numbers of turns of the workers", "why_tests_cant": "The feedback appears only when the handler, the processors and a failing exporter are put together; whether a loop of that kind ends is a statement about all depths and all numbers of turns.", "anchors": ["opentelemetry-sdk/src/opentelemetry/sdk/_logs/_internal/__init__.py:LoggingHandler.emit", "opentelemetry-sdk/src/opentelemetry/sdk/_logs/_internal/export/__init__.py:SimpleLogRecordProcessor.emit", "opentelemetry-sdk/src/opentelemetry/sdk/_logs/_internal/export/__init__.py:BatchLogRecordProcessor", "opentelemetry-sdk/src/opentelemetry/sdk/_configuration/__init__.py:_init_logging"]}
{"id": "C135", "title": "Threads that log and the workers of the log processors do not block each other", "statement": "With the SDK's logging handler on the root logger, any number of threads that log, flush and shut down and the workers of any number of batch processors, which may log themselves, never come to a state where somebody waits, directly or through others, for themselves: whoever has something to do can go on or waits for somebody who can.", "quantifier": "all interleavings of any number of threads and workers, all numbers of messages logged by workers and exporters, all points where a wait times out", "why_tests_cant": "A deadlock shows only in particular interleavings of the handler's lock and the processors' locks; tests run a few.", "anchors": ["opentelemetry-sdk/src/opentelemetry/sdk/_logs/_internal/__init__.py:LoggingHandler", "opentelemetry-sdk/src/opentelemetry/sdk/_logs/_internal/export/__init__.py:BatchLogRecordProcessor"]}
{"id": "C136", "title": "The concurrent multi processors call every processor and let the program go on", "statement": "With ConcurrentMultiSpanProcessor or ConcurrentMultiLogRecordProcessor, in every interleaving of the program's threads and the pool's threads: a call that returns has reached every processor once and all have finished; a call raises only if a processor raised; processors hear of one thread's calls in order; and no call waits for ever.", "quantifier": "all numbers of threads, pool sizes, processors, calls and exceptions, all interleavings, processors that make calls themselves", "why_tests_cant": "Deadlocks of a thread pool show only when all its threads wait, which depends on sizes and interleavings.", "anchors": ["opentelemetry-sdk/src/opentelemetry/sdk/trace/__init__.py:ConcurrentMultiSpanProcessor", "opentelemetry-sdk/src/opentelemetry/sdk/_logs/_internal/__init__.py:ConcurrentMultiLogRecordProcessor", "opentelemetry-sdk/src/opentelemetry/sdk/_logs/_internal/__init__.py:LoggingHandler"]}
{"id": "C137", "title": "Exponential histograms reach the exporter whole", "statement": "If a view, or a reader's preferences, give an instrument an exponential histogram, then each collection of a delta reader delivers, under the name and description the view gives, one data point for each attribute set used since that reader's last collection; the point's count, sum, extremes, zero count and buckets describe exactly the amounts recorded with these attributes in that interval.  A cumulative reader gets the same since the start.  The OTLP request made of the collection says the same.  No recording or collection raises.", "quantifier": "every configuration of views and readers, every history of recordings and collections by several readers, all attribute sets and all legal sizes and scales", "why_tests_cant": "Rescaling, merging and the per-reader state interact over the whole history; tests try single aggregations or short histories", "anchors": ["opentelemetry-sdk/src/opentelemetry/sdk/metrics/_internal/aggregation.py:_ExponentialBucketHistogramAggregation", "opentelemetry-sdk/src/opentelemetry/sdk/metrics/_internal/_view_instrument_match.py:_ViewInstrumentMatch", "opentelemetry-sdk/src/opentelemetry/sdk/metrics/_internal/metric_reader_storage.py:MetricReaderStorage"]}
{"id": "C138", "title": "Histograms have the bucket boundaries they should have", "statement": "A metric of an instrument that a view or a reader gives a bucket histogram is reported with the boundaries named by the view or reader, or else those the histogram was created with, or else the standard ones, and with the counts of exactly the recorded amounts in them.  Which other instruments exist, and which was used first, makes no difference; recording never raises.", "quantifier": "all views, readers and aggregation objects shared between them, all instruments and histories of recordings and collections", "why_tests_cant": "The boundaries are kept in objects that views, readers and instruments share, so that the order in which instruments are first used decides; tests use one instrument at a time", "anchors": ["opentelemetry-sdk/src/opentelemetry/sdk/metrics/_internal/aggregation.py:ExplicitBucketHistogramAggregation._create_aggregation", "exporter/opentelemetry-exporter-otlp-proto-common/src/opentelemetry/exporter/otlp/proto/common/_internal/metrics_encoder/__init__.py:OTLPMetricExporterMixin._get_aggregation"]}
{"id": "C139", "title": "Exemplars come from the measurements they stand for", "statement": "The exemplars of each data point that a collection delivers are measurements with the point's attributes, made since the reader's last collection and let through by the filter, each at most once; they carry the value, the time and the attributes that the point does not show, and name the span of the context that the program gave with the measurement, or else of the current one.  A histogram has the last one of each bucket, sums and last values have one if there is any to take. In the OTLP request the points carry these exemplars, with both ids in 8 and 16 bytes or none. Apart from them, what is delivered does not depend on the filter or the reservoirs.", "quantifier": "all filters, views, readers, instruments, contexts given or current, histories of measurements and collections, and all answers of the random generator", "why_tests_cant": "What a reservoir holds depends on all measurements and collections before, on the random generator and on how streams are formed by views; tests offer a few measurements to one reservoir", "anchors": ["opentelemetry-sdk/src/opentelemetry/sdk/metrics/_internal/instrument.py:Counter.add", "opentelemetry-sdk/src/opentelemetry/sdk/metrics/_internal/measurement_consumer.py:SynchronousMeasurementConsumer", "opentelemetry-sdk/src/opentelemetry/sdk/metrics/_internal/aggregation.py:_Aggregation._sample_exemplar", "opentelemetry-sdk/src/opentelemetry/sdk/metrics/_internal/exemplar/exemplar_reservoir.py"]}
{"id": "C140", "title": "Exemplars of exponential histograms", "statement": "The exemplars of each point of an exponential histogram are measurements of its stream made since the collection before and let through by the filter, each at most once, with their value, time, filtered attributes and the span they were made in; there are as many as were let through if those are fewer than there is room for (20, or the histogram's maximum size if that is less), otherwise as many as there is room for or one less, and at least one if any was let through. Apart from them the points do not depend on the filter or the reservoir. The same holds, for every view and reader, of the points that a collection delivers and of the messages of the OTLP request.", "quantifier": "every history of measurements (of any values, in any context, with any attributes) and collections of an exponential histogram in which no call raises, every filter and every outcome of the random draws, both temporalities; with delta temporality every history of doubles; all views, readers and other aggregations around it", "why_tests_cant": "the reservoir replaces exemplars at random and a collection without a point leaves it as it is, so what a point shows depends on the whole history and the draws", "anchors": ["opentelemetry-sdk/src/opentelemetry/sdk/metrics/_internal/aggregation.py:_ExponentialBucketHistogramAggregation", "opentelemetry-sdk/src/opentelemetry/sdk/metrics/_internal/exemplar/exemplar_reservoir.py:SimpleFixedSizeExemplarReservoir", "opentelemetry-sdk/src/opentelemetry/sdk/metrics/_internal/measurement_consumer.py:SynchronousMeasurementConsumer", "exporter/opentelemetry-exporter-otlp-proto-common/src/opentelemetry/exporter/otlp/proto/common/_internal/metrics_encoder/__init__.py:_encode_exemplars"]}
