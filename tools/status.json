{
 "C03": {
  "status": "partial",
  "note": "The property is false of the code: C03_update_at_limit_refuted gives a reachable state whose update returns the empty trace state, and C03_update_at_limit_always_empties shows this happens for every full state and every new valid pair."
 },
 "C06": {
  "status": "proved",
  "note": "For carriers without a tracestate entry; C06_reused_carrier_refuted shows why that is needed."
 },
 "C10": {
  "status": "partial",
  "note": "False of the code for all-zero ids (C10_b3_all_zero_refuted); C10_b3_validity_partial proves it for non-zero ids and C10_b3_all_or_nothing characterises extraction completely."
 },
 "C11": {
  "status": "partial",
  "note": "The round trip is proved. Validity is false: int(_, 16) accepts signs, so -1 is installed (C11_jaeger_validity_refuted); C11_jaeger_extract_cases_partial says what can be installed. An empty uberctx- value list makes extract raise."
 },
 "C12": {
  "status": "proved",
  "note": "For an explicit context. With context=None the order matters (C12_implicit_context_refuted)."
 },
 "C58": {
  "status": "partial",
  "note": "Proved for names that do not contain uberctx-; false for the others (C58_jaeger_baggage_name_refuted)."
 },
 "C59": {
  "status": "partial",
  "note": "Proved for trace context, baggage, their composites and B3; false for Jaeger, whose fields omit the baggage headers."
 },
 "C17": {
  "status": "proved",
  "note": "For every body that does not itself detach the token of the block (the token is not handed to the body)."
 },
 "C18": {
  "status": "proved",
  "note": "str.lower is a parameter; the warnings are not modelled."
 },
 "C21": {
  "status": "proved",
  "note": "For non-negative limits; C21_negative_limit_refuted shows that cleaning with a negative limit is not idempotent."
 },
 "C26": {
  "status": "partial",
  "note": "Proved for links that are not shared between spans. A Link object given to two spans has its attributes re-wrapped in place, and its dropped counter is reset (C26_shared_link_refuted)."
 },
 "C27": {
  "status": "partial",
  "note": "The precedence is proved as the code has it (C27_precedence_partial). UNSET does not remove the global attribute count limit: the default 128 applies (C27_unset_global_refuted)."
 },
 "C62": {
  "status": "proved",
  "note": "For SDK tracers. The no-op tracer, used when no SDK is set up, does not keep the parent's context (C62_noop_tracer_refuted)."
 },
 "C31": {
  "status": "proved",
  "note": "The loop is modelled with a draw counter; it ends at the first non-zero draw (C31_terminates)."
 },
 "C28": {
  "status": "proved",
  "note": "A double is given as m*2^e; that rate * 2**64 is exact in floating point is part of the model (comment of ratio_bound)."
 },
 "C32": {
  "status": "partial",
  "note": "Proved for processors that do not raise; a processor that raises keeps the event from those after it (C32_raising_processor_refuted). The concurrent multi processor does not have this problem."
 },
 "C33": {
  "status": "partial",
  "note": "Proved for exporters that raise only Exceptions and do not detach the processor's token; a BaseException leaves suppression on (C33_base_exception_refuted)."
 },
 "C36": {
  "status": "partial",
  "note": "Proved for calls that do not find the processor shut down; false for a call during shutdown (C36_after_shutdown_refuted)."
 },
 "C37": {
  "status": "partial",
  "note": "Proved for a shutdown called on a processor not yet shut down, and for every item appended before it; an on_end racing with shutdown can lose its item for good (C37_late_span_refuted)."
 },
 "C42": {
  "status": "proved",
  "note": "Scales -10..0. At the scales 1..20 the index is floor(log(v)*factor): proved for an exact logarithm, the rounding of math.log is not modelled. A mapping for a scale out of range is half-built when asked for twice (C42_cache_refuted)."
 },
 "C44": {
  "status": "proved",
  "note": "Assumes of the floating-point logarithm at scales 1..20 only that lowering the scale by one halves the index (log_consistent, true of the exact logarithm). Values are exact; sums are not rounded."
 },
 "C45": {
  "status": "partial",
  "note": "Every point is right as long as no collection raised (C45_cumulative_partial), and none raises if no later interval has the first positive or first negative measurement. Otherwise collect can raise and lose the interval (C45_never_raises_refuted, C45_early_collect_refuted)."
 },
 "C64": {
  "status": "partial",
  "note": "Proved for size 1 (the default) and the exact share for every size. Uniformity and 'kept while there is room' are refuted for larger sizes: the code compares seen < size."
 },
 "C65": {
  "status": "partial",
  "note": "Proved with the default trace based filter, and whenever the measurement was made in a span. Refuted otherwise: a measurement outside spans inherits the ids of the measurement it replaces."
 },
 "C49": {
  "status": "partial",
  "note": "Proved for all interleavings when units have no comma. Refuted otherwise (unit and description are joined with commas); two threads creating the same instrument can get a KeyError; a second creation with an invalid name raises KeyError. Names are compared with ASCII lower-casing."
 },
 "C66": {
  "status": "partial",
  "note": "Proved for attribute values that can be hashed; C66_unhashable_refuted shows that a list as attribute value makes the call raise after some views have counted it. fnmatch is a parameter; the exemplar decision is left out here (C65)."
 },
 "C50": {
  "status": "proved",
  "note": "Values are compared as they are (finer than Python's equality). With conflicting schema urls merging is not associative (C50_assoc_refuted)."
 },
 "C51": {
  "status": "partial",
  "note": "False in general: C51_schema_refuted (a schema url of a detector that differs from the user's loses the user's attributes and the service name) and C51_executable_refuted (TypeError). C51_create_partial proves it without these two cases and without detectors that ask for their errors to be raised."
 },
 "C52": {
  "status": "proved",
  "note": "Resources and scopes are compared as dict keys (hash and ==). Scopes that are equal in Python but differ in the type of a value share a group (C52_lookalike_scopes_refuted)."
 },
 "C53": {
  "status": "partial",
  "note": "Proved for all values OTLP can carry. Refuted for three kinds of values that BoundedAttributes keeps (C53_values_refuted): their attributes are dropped."
 },
 "C67": {
  "status": "partial",
  "note": "Every field but two: the W3C trace flags and the trace state of links are not sent (C67_flags_and_link_state_refuted)."
 },
 "C68": {
  "status": "proved",
  "note": "A record without ids, flags or severity makes the whole call raise (C68_incomplete_record_refuted)."
 },
 "C69": {
  "status": "partial",
  "note": "Proved for data where no resource and no scope of a resource occurs twice; otherwise the first metrics are lost (C69_repeated_refuted). A metric without points loses its kind (C69_empty_refuted). float() of an int is a parameter."
 },
 "C54": {
  "status": "partial",
  "note": "HTTP and gRPC loops for every answer sequence and, for gRPC, every schedule of exporting and shutting-down threads; refuted: the HTTP metric exporter ignores shutdown, a gRPC request can follow the return of shutdown, and a timed-out shutdown makes a successful export raise."
 },
 "C55": {
  "status": "proved",
  "note": "every histogram point with one more bucket than bounds"
 },
 "C56": {
  "status": "partial",
  "note": "Every non-empty string, with the exact result for every string; the empty label name is refuted."
 },
 "C70": {
  "status": "proved",
  "note": "every unit: legal, annotations left out, exact names; refuted beyond the claim: ratios use other names than the units alone"
 },
 "C71": {
  "status": "partial",
  "note": "families proved for every list of metrics, target labels for every resource; refuted: scrape after force_flush shows families twice, names sanitised to the same, exponential histograms"
 },
 "C57": {
  "status": "partial",
  "note": "Exact for positive limits and no limit; refuted for limit 0 (0 reported)."
 },
 "C72": {
  "status": "proved",
  "note": "Closed form, monotone, range."
 },
 "C73": {
  "status": "partial",
  "note": "Full translation for SDK loggers; refuted for a handler created before a provider is set (AttributeError). getMessage and format are parameters; they may not raise."
 },
 "C74": {
  "status": "proved",
  "note": ""
 },
 "C75": {
  "status": "proved",
  "note": ""
 },
 "C76": {
  "status": "partial",
  "note": "Zero ids or flags given explicitly are replaced by the current span's (refuted)."
 },
 "C77": {
  "status": "proved",
  "note": "Tracers, loggers and event loggers share the code shape; set is atomic by C19."
 },
 "C78": {
  "status": "partial",
  "note": "Meter attributes are dropped by the proxy provider (refuted), and one badly named instrument makes set_meter_provider raise and leaves later meters unconnected (refuted); otherwise proved for every interleaving."
 },
 "C79": {
  "status": "partial",
  "note": "Refuted: escapes are counted as one character, so a sequence tag can be cut inside its JSON; the error, scope and count tags are not cut. Otherwise proved for all inputs."
 },
 "C80": {
  "status": "partial",
  "note": "Refuted: v1 raises TypeError for every span with a scope unless max_tag_value_length is given; the protobuf encoder raises when a scope has no version. v2 proved in full; for the documents that json.dumps makes of it see C132."
 },
 "C81": {
  "status": "partial",
  "note": "Refuted: all spans of a batch are sent under the service name of the first. Otherwise proved for every history."
 },
 "C82": {
  "status": "partial",
  "note": "No overlap, at most once, order under the ticker alone, suppression and ticker progress proved for all schedules. Refuted: force_flush returns while another thread still holds a batch; concurrent collections can reach the exporter in reverse order; a collection that raises ends the ticker for good."
 },
 "C83": {
  "status": "partial",
  "note": "Proved for readers with a ticker when nothing fails or times out and no collect or flush call is pending. Refuted: a reader with infinite interval exports nothing at shutdown; a second shutdown returns before the first finished; collect and force_flush still export after shutdown."
 },
 "C84": {
  "status": "partial",
  "note": "Proved for readers that raise only Exceptions; refuted: a reader that missed its turn, or behind a BaseException, is never shut down although later shutdown calls return normally."
 },
 "C85": {
  "status": "partial",
  "note": "Identity proved up to Python equality of scopes; refuted for attributes: values 1 and True share a meter, which keeps the first call's attributes."
 },
 "C86": {
  "status": "partial",
  "note": "Exclusive ownership and creation with fresh readers proved; refuted: readers of a constructor that failed stay claimed forever."
 },
 "C87": {
  "status": "proved",
  "note": "Reader acceptance and lookup, and the OTLP tables with user overrides."
 },
 "C91": {
  "status": "proved",
  "note": "For exporters with a session of their own. Sharing a session breaks it (C91_shared_session_refuted): headers of one exporter, including Content-Encoding, are sent by the other."
 },
 "C92": {
  "status": "partial",
  "note": "An empty certificate variable switches the check of the server off (C92_http_checked_refuted); with insecure=True, which https overrides, and for a missing file, the named certificate is not used and the default roots are trusted (C92_credentials_refuted, C92_missing_file_refuted)."
 },
 "C93": {
  "status": "partial",
  "note": "False for the documented compression value deflate (C93_compression_values_refuted); everything else is proved."
 },
 "C94": {
  "status": "proved",
  "note": "initialize modelled from arguments, entry points and environment to the list of what is installed; not all or nothing when a constructor raises (refuted)"
 },
 "C95": {
  "status": "partial",
  "note": "argument, plugin and SDK samplers proved; refuted for a name with spaces around it and for a rate out of range"
 },
 "C96": {
  "status": "proved",
  "note": "members, order and repetition, and two processes; 'none' and the empty value refuted"
 },
 "C97": {
  "status": "proved",
  "note": "Others act between the statements of the program and before a block is left, not within the few calls use_span makes at the end; generators, coroutines and the decorator are in C121."
 },
 "C98": {
  "status": "proved",
  "note": "Given to the exporter is not the same as sent: C98_force_flush_sends_refuted (an unencodable record loses its batch); C98_encodable shows when every batch has a request."
 },
 "C99": {
  "status": "proved",
  "note": "The rule found wanting in two cases is stated as it is; the refuted theorems show what users might expect instead."
 },
 "C101": {
  "status": "partial",
  "note": "Missing: ignore_active_span=True inside an active scope, which is refuted."
 },
 "C102": {
  "status": "proved",
  "note": "For the default propagators; another order is refuted."
 },
 "C103": {
  "status": "partial",
  "note": "Missing: items go along with the span to children, scopes and other processes, which is refuted."
 },
 "C104": {
  "status": "proved",
  "note": "Synchronous instruments with any view, and gauges; exponential histograms are C36-C38."
 },
 "C105": {
  "status": "partial",
  "note": "After a collection that timed out, what was observed then is added to what is observed later (refuted)."
 },
 "C106": {
  "status": "partial",
  "note": "Refuted: callbacks given with a second creation are never called; readers share a generator; a generator that ends at once makes creation fail for good."
 },
 "C107": {
  "status": "proved",
  "note": "Streams, sums and counters under every schedule, what collections return, absence of deadlock; refuted: snapshot across streams, point times, callbacks that create observable instruments."
 },
 "C108": {
  "status": "partial",
  "note": "Proved for forks while no call is under way; refuted otherwise (locks are inherited)."
 },
 "C109": {
  "status": "partial",
  "note": "Accuracy, deltas, histograms, last values and exactness for ints proved. Missing: 'never goes down' needs the ints to add up to at most 2^53, 'no call raises' at most 2^1023, histograms increasing boundaries; without them refuted. NaN is accepted and sticks. The theorems use the standard library's axioms for the real numbers."
 },
 "C110": {
  "status": "partial",
  "note": "Proved: the index is right up to 2^-39 for every accurate log; indexes halve between positive scales; delta and cumulative points are right when no value is within 2^-38 of (but not equal to) a power of two, or when the scale asked for is at most 0. False otherwise: C110_delta_refuted and C110_raises_refuted, with the correctly rounded log and default parameters."
 },
 "C111": {
  "status": "partial",
  "note": "Proved: C111_threads and C111_order (any handlers and processors for the former); no deadlock and a bound on the steps if logging handlers do not use the span. False otherwise: C111_logging_refuted; reads without the lock: C111_read_refuted."
 },
 "C112": {
  "status": "partial",
  "note": "Proved for the batch processors of any tree of processes: C112_once, C112_settled, C112_child; for an open span if its lock is free at the fork: C112_span_partial. False: C112_open_span_refuted, C112_span_lock_refuted. At-fork hooks are taken to run (os.register_at_fork); events of flush requests are not modelled down to their locks."
 },
 "C113": {
  "status": "partial",
  "note": "C113_spans, C113_current. False parts: C113_other_task_refuted, C113_finish_refuted, C113_execution_context_refuted. How times of message events are read is C114 (a parameter here)."
 },
 "C114": {
  "status": "partial",
  "note": "C114_printed, C114_order, C114_created, C114_created_order, C114_seconds. Message events only if local time is UTC (C114_message_partial); False parts: C114_message_refuted, C114_nearest_refuted, C114_far_refuted, C114_exact_refuted, C114_no_timestamp_refuted. datetime, int and round of floats are modelled after CPython."
 },
 "C115": {
  "status": "partial",
  "note": "C115_spans, C115_export, C115_sent. False parts: C115_status_refuted, C115_root_refuted, C115_batch_refuted, C115_service_refuted. The node's host, process and versions and the gRPC channel are not modelled."
 },
 "C116": {
  "status": "partial",
  "note": "Python's json module as the SDK calls it: dumps with and without indentation against the grammar of RFC 8259 with denotation (C116_written, C116_round_trip), loads of every text of the grammar (C116_read, C116_one_value). Refuted: a NaN or an infinity anywhere makes the text invalid JSON (C116_not_a_number_refuted); a string with two surrogates is written like the character they encode (C116_surrogates_refuted). Assumed: the repr of a finite float is a number that is read as that float. Missing: recursion and digit limits, keys that are not strings."
 },
 "C117": {
  "status": "partial",
  "note": "Proved: the document is JSON that says member by member what the span is, the stream of a batch can be read in one way only, and all kept attributes can be printed. Refuted: scope, trace flags, remoteness and dropped counts are not in it, time 0 is left out, a float that is not a number makes it invalid JSON, and a time after 9999 loses the rest of the batch."
 },
 "C118": {
  "status": "partial",
  "note": "Proved: the document is JSON that says member by member what the record is. Refuted: a record without a time, which is the default, or with a body of bytes raises and loses the rest of the batch; the number of dropped attributes is said to be 0 if none was kept."
 },
 "C119": {
  "status": "partial",
  "note": "Proved: the document is JSON that says member by member what the metrics are. Refuted: with record_min_max=False it is not JSON, and an attribute of bytes loses the whole collection."
 },
 "C120": {
  "status": "partial",
  "note": "use_span(tracer.start_span()) does not pass traces on (C120_use_span_refuted); the rest is proved"
 },
 "C121": {
  "status": "partial",
  "note": "Proved if blocks are nested in each task (always so if every frame has its own task), and for decorated functions and coroutine functions. Refuted: generators suspended inside a block, blocks left in another task, decorated generator functions."
 },
 "C122": {
  "status": "partial",
  "note": "The exporters are proved; the memory can grow after shutdown (refuted). The reader: at most once always, exactly once if nothing else collects; refuted with collect or force_flush."
 },
 "C123": {
  "status": "partial",
  "note": "default multi processor, exporters whose shutdown does not raise, callbacks registered after the provider was made; the rest is refuted"
 },
 "C124": {
  "status": "partial",
  "note": "Proved but for meter providers whose get_meter raises when proxies are connected, with which the provider can change (refuted); the class named by the environment can be instantiated more than once (refuted)"
 },
 "C125": {
  "status": "proved",
  "note": "Proved; refuted: handlers take exceptions of derived classes, interrupts pass"
 },
 "C126": {
  "status": "partial",
  "note": "The order of the detectors is refuted: a value of OTEL_RESOURCE_ATTRIBUTES may be replaced by a detected one, depending on the order of a set. os.path.dirname is modelled for POSIX."
 },
 "C127": {
  "status": "partial",
  "note": "Refuted: a tracer made while the shim was installed has no tracer after uninstalling; after 128 other contexts a context gets another shim tracer."
 },
 "C128": {
  "status": "proved",
  "note": "A size that is not positive counts as one. The encoding is C69, under its hypothesis that no resource and no scope of a resource occurs twice; the retry loop of one request is a parameter (C54)."
 },
 "C129": {
  "status": "proved",
  "note": "C129_int, C129_batch, C129_bounds, C129_interval, C129_filter, C129_aggregation, C129_otlp_aggregation; float texts are an argument of the model; C129_small_queue_refuted is a finding"
 },
 "C130": {
  "status": "partial",
  "note": "Missing: exponential histograms, bucket aggregations without boundaries (C138) or with boundaries that do not increase (C130_boundaries_refuted), amounts that are floats; attributes with an empty key (C130_empty_key_refuted); collections of the reader other than scrapes (C71_after_flush_refuted, C130_flush_refuted)."
 },
 "C131": {
  "status": "proved",
  "note": "The service name of the resource is a non-empty text and the kinds are members of SpanKind; the local endpoint's addresses are outside"
 },
 "C132": {
  "status": "partial",
  "note": "version 2 in full (C132_v2); version 1 with a maximal tag length, since without one its encoder raises (C80_v1_default_refuted); a NaN or an infinity in an event's attribute makes the annotation's value no JSON (refuted)"
 },
 "C133": {
  "status": "partial",
  "note": "Proved for version 2 documents (JSON) and for the protobuf messages of every history of batches. Refuted parts: integers below 2**32 are not accepted as IPv6 addresses (C133_small_ipv6_refuted); a global provider whose resource has no service.name makes the constructor raise KeyError (C133_no_service_refuted); a batch whose first span has no service.name is sent for the service of an earlier batch (C133_service_refuted); the zone of an address is not in the protobuf message (C133_zone_refuted). Addresses given as bytes are not modelled."
 },
 "C134": {
  "status": "partial",
  "note": "Proved: with batch processors, and simple processors whose exporters neither log nor raise, each logging call returns with exactly the records queued and exported (C134_call); with exporters that fail finitely often it returns (C134_recovers); flush and drain end and export what was queued (C134_flush, C134_flushed, C134_drain); rest (C134_rest). Refuted otherwise: RecursionError after shutdown or with a raising exporter, endless exports, records pushed out. One thread at a time."
 },
 "C135": {
  "status": "partial",
  "note": "Proved for batch processors, if the program does not reset logging (logging.shutdown, logging.config) or the workers and exporters do not log; with both refuted: they wait for each other until the time-out (C135_reset_refuted)."
 },
 "C136": {
  "status": "partial",
  "note": "Proved in full for what calls reach, their order and that all runs end; that no call waits for ever is proved if processors make no calls themselves, or do not log and do not fill the pool; otherwise refuted (C136_nested_refuted, C136_logging_refuted).  force_flush of these processors is in C32."
 },
 "C137": {
  "status": "partial",
  "note": "Delta readers in full, and no exception under the stated conditions. Cumulative readers if with each attribute set the first amount is not zero and no other has the opposite sign: with a zero (or the first amount of a sign) in a later interval a collection can raise (C137_raises_refuted), and an observable instrument with an exponential histogram is never reported (C137_observable_refuted)."
 },
 "C138": {
  "status": "partial",
  "note": "The full statement is C138_boundaries_partial without its hypotheses only_histograms and agrees_with_others; it is false in both cases (C138_shared_refuted: with the OTLP exporters' defaults; C138_counter_refuted).  Exponential histograms are in C137."
 },
 "C139": {
  "status": "partial",
  "note": "Proved end to end, from the calls to the OTLP request, for sums, last values and histograms, for all filters, views and readers; C139_points: the rest of the points does not depend on exemplars; exponential histograms are in C140.  Missing: empty contexts given inside of a span (refuted), exemplars of measurements outside of any span (C65_span_refuted), reservoirs of the user"
 },
 "C140": {
  "status": "partial",
  "note": "Delta readers for all doubles (C140_delta_partial), cumulative readers if no later interval has the first amount of a sign (C140_cumulative_partial), and all histories without exceptions; end to end, from the calls through views and readers to what is delivered (C140_pipeline_partial, with the start times) and to the OTLP request (C140_request_partial); C140_points and C140_pipeline_points: the rest of what is delivered does not depend on exemplars. Missing: zeros are counted but never become exemplars (C140_zero_refuted), empty contexts given inside of a span (C139_context_refuted), reservoirs of the user; end to end cumulative readers only if with each attribute set the first amount is not zero and no other has the opposite sign"
 }
}