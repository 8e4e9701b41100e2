{
 "claims": [
  {
   "property": "C01",
   "status": "proved",
   "theorems": [
    "C01_tracestate_well_formed",
    "C01_constructor_keeps_valid"
   ],
   "note": ""
  },
  {
   "property": "C02",
   "status": "proved",
   "theorems": [
    "C02_add_new",
    "C02_add_rejected",
    "C02_update",
    "C02_update_invalid",
    "C02_delete"
   ],
   "note": ""
  },
  {
   "property": "C03",
   "status": "partial",
   "theorems": [
    "C03_update_at_limit_refuted",
    "C03_update_at_limit_always_empties"
   ],
   "note": "The property is false of the code: C03_update_at_limit_refuted gives a reachable state whose update returns the empty trace state, and C03_update_at_limit_always_empties shows this happens for every full state and every new valid pair."
  },
  {
   "property": "C04",
   "status": "proved",
   "theorems": [
    "C04_header_round_trip"
   ],
   "note": ""
  },
  {
   "property": "C05",
   "status": "proved",
   "theorems": [
    "C05_members_exist_unique",
    "C05_from_header_well_formed",
    "C05_from_header_all_or_nothing"
   ],
   "note": ""
  },
  {
   "property": "C06",
   "status": "proved",
   "theorems": [
    "C06_trace_context_round_trip",
    "C06_valid",
    "C06_reused_carrier_refuted"
   ],
   "note": "For carriers without a tracestate entry; C06_reused_carrier_refuted shows why that is needed."
  },
  {
   "property": "C07",
   "status": "proved",
   "theorems": [
    "C07_extract_all_or_nothing",
    "C07_fields_unique",
    "C07_rejected_headers",
    "C07_malformed_headers"
   ],
   "note": ""
  },
  {
   "property": "C08",
   "status": "proved",
   "theorems": [
    "C08_trace_id_format",
    "C08_span_id_format",
    "C08_ids_injective"
   ],
   "note": ""
  },
  {
   "property": "C09",
   "status": "proved",
   "theorems": [
    "C09_b3_multi_round_trip",
    "C09_b3_single_round_trip",
    "C09_b3_accepts"
   ],
   "note": ""
  },
  {
   "property": "C10",
   "status": "partial",
   "theorems": [
    "C10_b3_all_zero_refuted",
    "C10_b3_validity_partial",
    "C10_b3_all_or_nothing"
   ],
   "note": "False of the code for all-zero ids (C10_b3_all_zero_refuted); C10_b3_validity_partial proves it for non-zero ids and C10_b3_all_or_nothing characterises extraction completely."
  },
  {
   "property": "C11",
   "status": "partial",
   "theorems": [
    "C11_jaeger_round_trip",
    "C11_jaeger_validity_refuted",
    "C11_jaeger_extract_cases_partial",
    "C11_jaeger_extract_raises_refuted"
   ],
   "note": "The round trip is proved. Validity is false: int(_, 16) accepts signs, so -1 is installed (C11_jaeger_validity_refuted); C11_jaeger_extract_cases_partial says what can be installed. An empty uberctx- value list makes extract raise."
  },
  {
   "property": "C12",
   "status": "proved",
   "theorems": [
    "C12_members_do_not_interfere",
    "C12_order_irrelevant",
    "C12_tracecontext_is_local",
    "C12_baggage_is_local",
    "C12_sequential",
    "C12_inject_concatenates",
    "C12_inject_raises",
    "C12_fields_union",
    "C12_default_round_trip",
    "C12_implicit_context_refuted"
   ],
   "note": "For an explicit context. With context=None the order matters (C12_implicit_context_refuted)."
  },
  {
   "property": "C13",
   "status": "proved",
   "theorems": [
    "C13_contexts_never_change",
    "C13_calls_return_new_contexts",
    "C13_laws"
   ],
   "note": ""
  },
  {
   "property": "C14",
   "status": "proved",
   "theorems": [
    "C14_header",
    "C14_baggage_round_trip"
   ],
   "note": ""
  },
  {
   "property": "C15",
   "status": "proved",
   "theorems": [
    "C15_ignored_headers",
    "C15_accepted_members",
    "C15_reading_exists",
    "C15_bounded_and_framed",
    "C15_decoded_members",
    "C15_one_reading"
   ],
   "note": ""
  },
  {
   "property": "C16",
   "status": "proved",
   "theorems": [
    "C16_nesting_restores",
    "C16_attach_detach",
    "C16_second_detach",
    "C16_units_isolated"
   ],
   "note": ""
  },
  {
   "property": "C17",
   "status": "proved",
   "theorems": [
    "C17_use_span"
   ],
   "note": "For every body that does not itself detach the token of the block (the token is not handed to the body)."
  },
  {
   "property": "C18",
   "status": "proved",
   "theorems": [
    "C18_exactly_the_valid_members",
    "C18_every_string_has_members",
    "C18_malformed_members_have_no_effect",
    "C18_quoted_values_round_trip"
   ],
   "note": "str.lower is a parameter; the warnings are not modelled."
  },
  {
   "property": "C19",
   "status": "proved",
   "theorems": [
    "C19_at_most_once",
    "C19_first_value_stays",
    "C19_no_deadlock"
   ],
   "note": ""
  },
  {
   "property": "C20",
   "status": "proved",
   "theorems": [
    "C20_capacity",
    "C20_accounting",
    "C20_zero_capacity",
    "C20_assignment",
    "C20_constructor_window",
    "C20_immutable"
   ],
   "note": ""
  },
  {
   "property": "C21",
   "status": "proved",
   "theorems": [
    "C21_cleaning",
    "C21_idempotent",
    "C21_stored_values",
    "C21_strings_are_cut",
    "C21_negative_limit_refuted"
   ],
   "note": "For non-negative limits; C21_negative_limit_refuted shows that cleaning with a negative limit is not idempotent."
  },
  {
   "property": "C22",
   "status": "proved",
   "theorems": [
    "C22_bounded_list",
    "C22_bounded_dict",
    "C22_bounded_dict_window",
    "C22_bounded_dict_dropped"
   ],
   "note": ""
  },
  {
   "property": "C23",
   "status": "proved",
   "theorems": [
    "C23_ended_span_never_changes"
   ],
   "note": ""
  },
  {
   "property": "C24",
   "status": "proved",
   "theorems": [
    "C24_processor_sees_the_span_once",
    "C24_exception_event",
    "C24_exception_attributes"
   ],
   "note": ""
  },
  {
   "property": "C25",
   "status": "proved",
   "theorems": [
    "C25_status_of_history",
    "C25_status_transitions",
    "C25_description_only_with_error"
   ],
   "note": ""
  },
  {
   "property": "C26",
   "status": "partial",
   "theorems": [
    "C26_limits_hold",
    "C26_dropped_counters_partial",
    "C26_shared_link_refuted"
   ],
   "note": "Proved for links that are not shared between spans. A Link object given to two spans has its attributes re-wrapped in place, and its dropped counter is reset (C26_shared_link_refuted)."
  },
  {
   "property": "C27",
   "status": "partial",
   "theorems": [
    "C27_precedence_partial",
    "C27_never_negative",
    "C27_unset_global_refuted"
   ],
   "note": "The precedence is proved as the code has it (C27_precedence_partial). UNSET does not remove the global attribute count limit: the default 128 applies (C27_unset_global_refuted)."
  },
  {
   "property": "C28",
   "status": "proved",
   "theorems": [
    "C28_rate_accepted",
    "C28_exactly_the_bound",
    "C28_monotone",
    "C28_extremes"
   ],
   "note": "A double is given as m*2^e; that rate * 2**64 is exact in floating point is part of the model (comment of ratio_bound)."
  },
  {
   "property": "C29",
   "status": "proved",
   "theorems": [
    "C29_delegate",
    "C29_defaults_follow_the_parent"
   ],
   "note": ""
  },
  {
   "property": "C30",
   "status": "proved",
   "theorems": [
    "C30_start_span",
    "C30_valid",
    "C30_descendants"
   ],
   "note": ""
  },
  {
   "property": "C31",
   "status": "proved",
   "theorems": [
    "C31_never_invalid",
    "C31_terminates"
   ],
   "note": "The loop is modelled with a draw counter; it ends at the first non-zero draw (C31_terminates)."
  },
  {
   "property": "C32",
   "status": "partial",
   "theorems": [
    "C32_fan_out_partial",
    "C32_raising_processor_refuted",
    "C32_force_flush",
    "C32_concurrent_fan_out",
    "C32_concurrent_force_flush"
   ],
   "note": "Proved for processors that do not raise; a processor that raises keeps the event from those after it (C32_raising_processor_refuted). The concurrent multi processor does not have this problem."
  },
  {
   "property": "C33",
   "status": "partial",
   "theorems": [
    "C33_simple_unsampled",
    "C33_simple_sampled",
    "C33_simple_sequence_partial",
    "C33_base_exception_refuted"
   ],
   "note": "Proved for exporters that raise only Exceptions and do not detach the processor's token; a BaseException leaves suppression on (C33_base_exception_refuted)."
  },
  {
   "property": "C34",
   "status": "proved",
   "theorems": [
    "C34_conservation"
   ],
   "note": ""
  },
  {
   "property": "C35",
   "status": "proved",
   "theorems": [
    "C35_steps",
    "C35_bounds"
   ],
   "note": ""
  },
  {
   "property": "C36",
   "status": "partial",
   "theorems": [
    "C36_force_flush_partial",
    "C36_flush_is_served",
    "C36_after_shutdown_refuted"
   ],
   "note": "Proved for calls that do not find the processor shut down; false for a call during shutdown (C36_after_shutdown_refuted)."
  },
  {
   "property": "C37",
   "status": "partial",
   "theorems": [
    "C37_shutdown_drains_partial",
    "C37_exporter_calls",
    "C37_worker_ends",
    "C37_late_span_refuted"
   ],
   "note": "Proved for a shutdown called on a processor not yet shut down, and for every item appended before it; an on_end racing with shutdown can lose its item for good (C37_late_span_refuted)."
  },
  {
   "property": "C38",
   "status": "proved",
   "theorems": [
    "C38_delta",
    "C38_cumulative",
    "C38_contiguous",
    "C38_conservation"
   ],
   "note": ""
  },
  {
   "property": "C39",
   "status": "proved",
   "theorems": [
    "C39_cumulative",
    "C39_delta",
    "C39_telescope"
   ],
   "note": ""
  },
  {
   "property": "C40",
   "status": "proved",
   "theorems": [
    "C40_last_value"
   ],
   "note": ""
  },
  {
   "property": "C41",
   "status": "proved",
   "theorems": [
    "C41_delta",
    "C41_cumulative",
    "C41_unsorted_boundaries"
   ],
   "note": ""
  },
  {
   "property": "C42",
   "status": "proved",
   "theorems": [
    "C42_bucket",
    "C42_subnormal",
    "C42_scale_change",
    "C42_lower_boundary",
    "C42_exact_logarithm",
    "C42_cache_refuted"
   ],
   "note": "Scales -10..0. At the scales 1..20 the index is floor(log(v)*factor): proved for an exact logarithm, the rounding of math.log is not modelled. A mapping for a scale out of range is half-built when asked for twice (C42_cache_refuted)."
  },
  {
   "property": "C43",
   "status": "proved",
   "theorems": [
    "C43_buckets",
    "C43_count"
   ],
   "note": ""
  },
  {
   "property": "C44",
   "status": "proved",
   "theorems": [
    "C44_delta",
    "C44_count",
    "C44_best_scale",
    "C44_max_scale"
   ],
   "note": "Assumes of the floating-point logarithm at scales 1..20 only that lowering the scale by one halves the index (log_consistent, true of the exact logarithm). Values are exact; sums are not rounded."
  },
  {
   "property": "C45",
   "status": "partial",
   "theorems": [
    "C45_cumulative_partial",
    "C45_never_raises_partial",
    "C45_never_raises_refuted",
    "C45_early_collect_refuted"
   ],
   "note": "Every point is right as long as no collection raised (C45_cumulative_partial), and none raises if no later interval has the first positive or first negative measurement. Otherwise collect can raise and lose the interval (C45_never_raises_refuted, C45_early_collect_refuted)."
  },
  {
   "property": "C46",
   "status": "proved",
   "theorems": [
    "C46_reported_attributes",
    "C46_streams",
    "C46_concurrent",
    "C46_key",
    "C46_progress",
    "C46_concurrent_sum",
    "C46_unhashable_refuted"
   ],
   "note": ""
  },
  {
   "property": "C47",
   "status": "proved",
   "theorems": [
    "C47_counter",
    "C47_counter_delta",
    "C47_exact",
    "C47_histogram",
    "C47_observable_refuted"
   ],
   "note": ""
  },
  {
   "property": "C48",
   "status": "proved",
   "theorems": [
    "C48_fixed_size",
    "C48_aligned"
   ],
   "note": ""
  },
  {
   "property": "C49",
   "status": "partial",
   "theorems": [
    "C49_identity_partial",
    "C49_as_asked_partial",
    "C49_sequential",
    "C49_observed_once",
    "C49_comma_refuted",
    "C49_race_refuted",
    "C49_invalid_refuted"
   ],
   "note": "Proved for all interleavings when units have no comma. Refuted otherwise (unit and description are joined with commas); two threads creating the same instrument can get a KeyError; a second creation with an invalid name raises KeyError. Names are compared with ASCII lower-casing."
  },
  {
   "property": "C50",
   "status": "proved",
   "theorems": [
    "C50_merge",
    "C50_conflict",
    "C50_empty",
    "C50_assoc",
    "C50_attributes",
    "C50_assoc_refuted"
   ],
   "note": "Values are compared as they are (finer than Python's equality). With conflicting schema urls merging is not associative (C50_assoc_refuted)."
  },
  {
   "property": "C51",
   "status": "partial",
   "theorems": [
    "C51_any_environment",
    "C51_environment_total",
    "C51_create_partial",
    "C51_detectors",
    "C51_environment",
    "C51_schema_refuted",
    "C51_executable_refuted"
   ],
   "note": "False in general: C51_schema_refuted (a schema url of a detector that differs from the user's loses the user's attributes and the service name) and C51_executable_refuted (TypeError). C51_create_partial proves it without these two cases and without detectors that ask for their errors to be raised."
  },
  {
   "property": "C52",
   "status": "proved",
   "theorems": [
    "C52_hypothesis",
    "C52_request",
    "C52_keys",
    "C52_each_span",
    "C52_no_duplicates",
    "C52_succeeds",
    "C52_lookalike_scopes_refuted"
   ],
   "note": "Resources and scopes are compared as dict keys (hash and ==). Scopes that are equal in Python but differ in the type of a value share a group (C52_lookalike_scopes_refuted)."
  },
  {
   "property": "C53",
   "status": "partial",
   "theorems": [
    "C53_ids",
    "C53_attributes_partial",
    "C53_values",
    "C53_values_refuted"
   ],
   "note": "Proved for all values OTLP can carry. Refuted for three kinds of values that BoundedAttributes keeps (C53_values_refuted): their attributes are dropped."
  },
  {
   "property": "C54",
   "status": "partial",
   "theorems": [
    "C54_http",
    "C54_http_shutdown_partial",
    "C54_http_metric_shutdown_refuted",
    "C54_grpc",
    "C54_grpc_result_partial",
    "C54_grpc_hint_refuted",
    "C54_grpc_shutdown_partial",
    "C54_grpc_late_request_refuted",
    "C54_grpc_timeout_refuted"
   ],
   "note": "HTTP and gRPC loops for every answer sequence and, for gRPC, every schedule of exporting and shutting-down threads; refuted: the HTTP metric exporter ignores shutdown, a gRPC request can follow the return of shutdown, and a timed-out shutdown makes a successful export raise."
  },
  {
   "property": "C55",
   "status": "proved",
   "theorems": [
    "C55_buckets"
   ],
   "note": "every histogram point with one more bucket than bounds"
  },
  {
   "property": "C56",
   "status": "partial",
   "theorems": [
    "C56_exact",
    "C56_names_partial",
    "C56_labels_partial",
    "C56_empty_refuted"
   ],
   "note": "Every non-empty string, with the exact result for every string; the empty label name is refuted."
  },
  {
   "property": "C57",
   "status": "partial",
   "theorems": [
    "C57_dropped_attributes_partial",
    "C57_fields",
    "C57_limit_zero_refuted",
    "C57_limits"
   ],
   "note": "Exact for positive limits and no limit; refuted for limit 0 (0 reported)."
  },
  {
   "property": "C58",
   "status": "partial",
   "theorems": [
    "C58_headers",
    "C58_extracted_entries",
    "C58_jaeger_baggage_name_refuted",
    "C58_jaeger_baggage_round_trip_partial"
   ],
   "note": "Proved for names that do not contain uberctx-; false for the others (C58_jaeger_baggage_name_refuted)."
  },
  {
   "property": "C59",
   "status": "partial",
   "theorems": [
    "C59_standard_fields_partial",
    "C59_b3_fields",
    "C59_jaeger_fields_refuted"
   ],
   "note": "Proved for trace context, baggage, their composites and B3; false for Jaeger, whose fields omit the baggage headers."
  },
  {
   "property": "C60",
   "status": "proved",
   "theorems": [
    "C60_with_block_exception",
    "C60_with_block_ends"
   ],
   "note": ""
  },
  {
   "property": "C61",
   "status": "proved",
   "theorems": [
    "C61_environment_sampler"
   ],
   "note": ""
  },
  {
   "property": "C62",
   "status": "proved",
   "theorems": [
    "C62_b3",
    "C62_jaeger",
    "C62_jaeger_header",
    "C62_trace_across_processes",
    "C62_noop_tracer_refuted"
   ],
   "note": "For SDK tracers. The no-op tracer, used when no SDK is set up, does not keep the parent's context (C62_noop_tracer_refuted)."
  },
  {
   "property": "C63",
   "status": "proved",
   "theorems": [
    "C63_no_deadlock"
   ],
   "note": ""
  },
  {
   "property": "C64",
   "status": "partial",
   "theorems": [
    "C64_all_kept_partial",
    "C64_share_partial",
    "C64_uniform_default",
    "C64_room_refuted",
    "C64_uniform_refuted"
   ],
   "note": "Proved for size 1 (the default) and the exact share for every size. Uniformity and 'kept while there is room' are refuted for larger sizes: the code compares seen < size."
  },
  {
   "property": "C65",
   "status": "partial",
   "theorems": [
    "C65_span_partial",
    "C65_aligned_span_partial",
    "C65_trace_based",
    "C65_off",
    "C65_span_refuted"
   ],
   "note": "Proved with the default trace based filter, and whenever the measurement was made in a span. Refuted otherwise: a measurement outside spans inherits the ids of the measurement it replaces."
  },
  {
   "property": "C66",
   "status": "partial",
   "theorems": [
    "C66_reported_partial",
    "C66_independent_partial",
    "C66_no_error_partial",
    "C66_unhashable_refuted"
   ],
   "note": "Proved for attribute values that can be hashed; C66_unhashable_refuted shows that a list as attribute value makes the call raise after some views have counted it. fnmatch is a parameter; the exemplar decision is left out here (C65)."
  },
  {
   "property": "C67",
   "status": "partial",
   "theorems": [
    "C67_span_fields_partial",
    "C67_flags_and_link_state_refuted",
    "C67_one_bad_span"
   ],
   "note": "Every field but two: the W3C trace flags and the trace state of links are not sent (C67_flags_and_link_state_refuted)."
  },
  {
   "property": "C68",
   "status": "proved",
   "theorems": [
    "C68_log_fields",
    "C68_request",
    "C68_succeeds",
    "C68_incomplete_record_refuted"
   ],
   "note": "A record without ids, flags or severity makes the whole call raise (C68_incomplete_record_refuted)."
  },
  {
   "property": "C69",
   "status": "partial",
   "theorems": [
    "C69_metrics_partial",
    "C69_succeeds",
    "C69_empty_refuted",
    "C69_repeated_refuted"
   ],
   "note": "Proved for data where no resource and no scope of a resource occurs twice; otherwise the first metrics are lost (C69_repeated_refuted). A metric without points loses its kind (C69_empty_refuted). float() of an int is a parameter."
  },
  {
   "property": "C70",
   "status": "proved",
   "theorems": [
    "C70_names",
    "C70_known",
    "C70_ratios_refuted",
    "C70_units"
   ],
   "note": "every unit: legal, annotations left out, exact names; refuted beyond the claim: ratios use other names than the units alone"
  },
  {
   "property": "C71",
   "status": "partial",
   "theorems": [
    "C71_target",
    "C71_labels",
    "C71_families_partial",
    "C71_scrape_partial",
    "C71_after_flush_refuted",
    "C71_same_names_refuted",
    "C71_exponential_refuted"
   ],
   "note": "families proved for every list of metrics, target labels for every resource; refuted: scrape after force_flush shows families twice, names sanitised to the same, exponential histograms"
  },
  {
   "property": "C72",
   "status": "proved",
   "theorems": [
    "C72_severity"
   ],
   "note": "Closed form, monotone, range."
  },
  {
   "property": "C73",
   "status": "partial",
   "theorems": [
    "C73_handler_partial",
    "C73_disabled",
    "C73_no_provider_refuted"
   ],
   "note": "Full translation for SDK loggers; refuted for a handler created before a provider is set (AttributeError). getMessage and format are parameters; they may not raise."
  },
  {
   "property": "C74",
   "status": "proved",
   "theorems": [
    "C74_scopes",
    "C74_identity",
    "C74_disabled"
   ],
   "note": ""
  },
  {
   "property": "C75",
   "status": "proved",
   "theorems": [
    "C75_simple_log_processor"
   ],
   "note": ""
  },
  {
   "property": "C76",
   "status": "partial",
   "theorems": [
    "C76_events_partial",
    "C76_disabled",
    "C76_unsampled_flags_refuted"
   ],
   "note": "Zero ids or flags given explicitly are replaced by the current span's (refuted)."
  },
  {
   "property": "C77",
   "status": "proved",
   "theorems": [
    "C77_tracer_calls",
    "C77_tracer_progress"
   ],
   "note": "Tracers, loggers and event loggers share the code shape; set is atomic by C19."
  },
  {
   "property": "C78",
   "status": "partial",
   "theorems": [
    "C78_measurements_partial",
    "C78_created_once",
    "C78_set_returns",
    "C78_attributes_refuted",
    "C78_bad_name_refuted"
   ],
   "note": "Meter attributes are dropped by the proxy provider (refuted), and one badly named instrument makes set_meter_provider raise and leaves later meters unconnected (refuted); otherwise proved for every interleaving."
  },
  {
   "property": "C79",
   "status": "partial",
   "theorems": [
    "C79_tags",
    "C79_sequence_bounded_partial",
    "C79_attribute_length_partial",
    "C79_escapes_refuted",
    "C79_error_length_refuted"
   ],
   "note": "Refuted: escapes are counted as one character, so a sequence tag can be cut inside its JSON; the error, scope and count tags are not cut. Otherwise proved for all inputs."
  },
  {
   "property": "C80",
   "status": "partial",
   "theorems": [
    "C80_v2_span",
    "C80_v2_total",
    "C80_v1_span_partial",
    "C80_v1_default_refuted",
    "C80_proto_span_partial",
    "C80_proto_total",
    "C80_proto_version_refuted"
   ],
   "note": "Refuted: v1 raises TypeError for every span with a scope unless max_tag_value_length is given; the protobuf encoder raises when a scope has no version. v2 proved in full; for the documents that json.dumps makes of it see C132."
  },
  {
   "property": "C81",
   "status": "partial",
   "theorems": [
    "C81_export_partial",
    "C81_shutdown",
    "C81_service_refuted"
   ],
   "note": "Refuted: all spans of a batch are sent under the service name of the first. Otherwise proved for every history."
  },
  {
   "property": "C82",
   "status": "partial",
   "theorems": [
    "C82_serial",
    "C82_at_most_once",
    "C82_flush_partial",
    "C82_flush_refuted",
    "C82_order_partial",
    "C82_order_refuted",
    "C82_periodic_partial",
    "C82_periodic_refuted",
    "C82_suppressed",
    "C82_context"
   ],
   "note": "No overlap, at most once, order under the ticker alone, suppression and ticker progress proved for all schedules. Refuted: force_flush returns while another thread still holds a batch; concurrent collections can reach the exporter in reverse order; a collection that raises ends the ticker for good."
  },
  {
   "property": "C83",
   "status": "partial",
   "theorems": [
    "C83_once",
    "C83_shutdown_partial",
    "C83_shutdown_order_partial",
    "C83_no_ticker_refuted",
    "C83_interval",
    "C83_second_refuted",
    "C83_after_refuted"
   ],
   "note": "Proved for readers with a ticker when nothing fails or times out and no collect or flush call is pending. Refuted: a reader with infinite interval exports nothing at shutdown; a second shutdown returns before the first finished; collect and force_flush still export after shutdown."
  },
  {
   "property": "C84",
   "status": "partial",
   "theorems": [
    "C84_flush_partial",
    "C84_each_reader_partial",
    "C84_shutdown_partial",
    "C84_missed_refuted",
    "C84_base_refuted"
   ],
   "note": "Proved for readers that raise only Exceptions; refuted: a reader that missed its turn, or behind a BaseException, is never shut down although later shutdown calls return normally."
  },
  {
   "property": "C85",
   "status": "partial",
   "theorems": [
    "C85_same_meter_partial",
    "C85_noop",
    "C85_attributes_refuted"
   ],
   "note": "Identity proved up to Python equality of scopes; refuted for attributes: values 1 and True share a meter, which keeps the first call's attributes."
  },
  {
   "property": "C86",
   "status": "partial",
   "theorems": [
    "C86_exclusive",
    "C86_fresh_partial",
    "C86_claimed_refuted"
   ],
   "note": "Exclusive ownership and creation with fresh readers proved; refuted: readers of a constructor that failed stay claimed forever."
  },
  {
   "property": "C87",
   "status": "proved",
   "theorems": [
    "C87_reader",
    "C87_default",
    "C87_otlp"
   ],
   "note": "Reader acceptance and lookup, and the OTLP tables with user overrides."
  },
  {
   "property": "C88",
   "status": "proved",
   "theorems": [
    "C88_built_in_samplers"
   ],
   "note": ""
  },
  {
   "property": "C89",
   "status": "proved",
   "theorems": [
    "C89_counters",
    "C89_gauges",
    "C89_histograms"
   ],
   "note": ""
  },
  {
   "property": "C90",
   "status": "proved",
   "theorems": [
    "C90_exported",
    "C90_request",
    "C90_family",
    "C90_tree",
    "C90_force_flush",
    "C90_shutdown"
   ],
   "note": ""
  },
  {
   "property": "C91",
   "status": "proved",
   "theorems": [
    "C91_http_requests",
    "C91_received",
    "C91_shared_session_refuted"
   ],
   "note": "For exporters with a session of their own. Sharing a session breaks it (C91_shared_session_refuted): headers of one exporter, including Content-Encoding, are sent by the other."
  },
  {
   "property": "C92",
   "status": "partial",
   "theorems": [
    "C92_http_checked_partial",
    "C92_http_checked_refuted",
    "C92_https_is_encrypted",
    "C92_insecure_false",
    "C92_credentials_partial",
    "C92_credentials_refuted",
    "C92_missing_file_refuted"
   ],
   "note": "An empty certificate variable switches the check of the server off (C92_http_checked_refuted); with insecure=True, which https overrides, and for a missing file, the named certificate is not used and the default roots are trusted (C92_credentials_refuted, C92_missing_file_refuted)."
  },
  {
   "property": "C93",
   "status": "partial",
   "theorems": [
    "C93_grpc_settings",
    "C93_grpc_made",
    "C93_compression_values_refuted"
   ],
   "note": "False for the documented compression value deflate (C93_compression_values_refuted); everything else is proved."
  },
  {
   "property": "C94",
   "status": "proved",
   "theorems": [
    "C94_installed",
    "C94_succeeds",
    "C94_asked_once",
    "C94_all_or_nothing_refuted"
   ],
   "note": "initialize modelled from arguments, entry points and environment to the list of what is installed; not all or nothing when a constructor raises (refuted)"
  },
  {
   "property": "C95",
   "status": "partial",
   "theorems": [
    "C95_argument",
    "C95_plugin",
    "C95_environment_partial",
    "C95_spaces_refuted",
    "C95_rate_fallback_refuted"
   ],
   "note": "argument, plugin and SDK samplers proved; refuted for a name with spaces around it and for a rate out of range"
  },
  {
   "property": "C96",
   "status": "proved",
   "theorems": [
    "C96_members",
    "C96_order_and_repetition",
    "C96_standard_settle",
    "C96_two_processes",
    "C96_none_refuted"
   ],
   "note": "members, order and repetition, and two processes; 'none' and the empty value refuted"
  },
  {
   "property": "C97",
   "status": "proved",
   "theorems": [
    "C97_transparent",
    "C97_spans",
    "C97_left",
    "C97_intervals"
   ],
   "note": "Others act between the statements of the program and before a block is left, not within the few calls use_span makes at the end; generators, coroutines and the decorator are in C121."
  },
  {
   "property": "C98",
   "status": "proved",
   "theorems": [
    "C98_exported",
    "C98_request",
    "C98_correlated",
    "C98_force_flush",
    "C98_shutdown",
    "C98_tracing",
    "C98_encodable",
    "C98_force_flush_sends_refuted"
   ],
   "note": "Given to the exporter is not the same as sent: C98_force_flush_sends_refuted (an unencodable record loses its batch); C98_encodable shows when every batch has a request."
  },
  {
   "property": "C99",
   "status": "proved",
   "theorems": [
    "C99_start_span",
    "C99_otel_current_refuted",
    "C99_reference_refuted"
   ],
   "note": "The rule found wanting in two cases is stated as it is; the refuted theorems show what users might expect instead."
  },
  {
   "property": "C100",
   "status": "proved",
   "theorems": [
    "C100_active",
    "C100_order_refuted",
    "C100_other_thread_refuted"
   ],
   "note": ""
  },
  {
   "property": "C101",
   "status": "partial",
   "theorems": [
    "C101_start_active_span_partial",
    "C101_ignore_active_refuted"
   ],
   "note": "Missing: ignore_active_span=True inside an active scope, which is refuted."
  },
  {
   "property": "C102",
   "status": "proved",
   "theorems": [
    "C102_round_trip",
    "C102_extract",
    "C102_formats",
    "C102_order_refuted"
   ],
   "note": "For the default propagators; another order is refuted."
  },
  {
   "property": "C103",
   "status": "partial",
   "theorems": [
    "C103_baggage_items_partial",
    "C103_baggage_refuted"
   ],
   "note": "Missing: items go along with the span to children, scopes and other processes, which is refuted."
  },
  {
   "property": "C104",
   "status": "proved",
   "theorems": [
    "C104_sums",
    "C104_histograms",
    "C104_gauges"
   ],
   "note": "Synchronous instruments with any view, and gauges; exponential histograms are C36-C38."
  },
  {
   "property": "C105",
   "status": "partial",
   "theorems": [
    "C105_cumulative",
    "C105_delta",
    "C105_this_collection_partial",
    "C105_timed_out_refuted"
   ],
   "note": "After a collection that timed out, what was observed then is added to what is observed later (refuted)."
  },
  {
   "property": "C106",
   "status": "partial",
   "theorems": [
    "C106_collection",
    "C106_failures_apart",
    "C106_second_creation_refuted",
    "C106_each_reader_refuted",
    "C106_creation_refuted"
   ],
   "note": "Refuted: callbacks given with a second creation are never called; readers share a generator; a generator that ends at once makes creation fail for good."
  },
  {
   "property": "C107",
   "status": "proved",
   "theorems": [
    "C107_streams",
    "C107_apart",
    "C107_collections",
    "C107_settles",
    "C107_aggregations",
    "C107_sums",
    "C107_counter",
    "C107_snapshot_refuted",
    "C107_times_refuted",
    "C107_reentrant_refuted"
   ],
   "note": "Streams, sums and counters under every schedule, what collections return, absence of deadlock; refuted: snapshot across streams, point times, callbacks that create observable instruments."
  },
  {
   "property": "C108",
   "status": "partial",
   "theorems": [
    "C108_fork_partial",
    "C108_fork_refuted"
   ],
   "note": "Proved for forks while no call is under way; refuted otherwise (locks are inherited)."
  },
  {
   "property": "C109",
   "status": "partial",
   "theorems": [
    "C109_accuracy",
    "C109_accuracy_linear",
    "C109_never_down",
    "C109_never_down_refuted",
    "C109_no_overflow",
    "C109_no_overflow_histogram",
    "C109_no_overflow_refuted",
    "C109_nan_sticks",
    "C109_deltas",
    "C109_histogram",
    "C109_histogram_refuted",
    "C109_last_value",
    "C109_integers"
   ],
   "note": "Accuracy, deltas, histograms, last values and exactness for ints proved. Missing: 'never goes down' needs the ints to add up to at most 2^53, 'no call raises' at most 2^1023, histograms increasing boundaries; without them refuted. NaN is accepted and sticks. The theorems use the standard library's axioms for the real numbers."
  },
  {
   "property": "C110",
   "status": "partial",
   "theorems": [
    "C110_accurate",
    "C110_finite",
    "C110_bucket",
    "C110_scales",
    "C110_consistent_partial",
    "C110_consistent_refuted",
    "C110_delta_partial",
    "C110_best_scale_partial",
    "C110_cumulative_partial",
    "C110_delta_refuted",
    "C110_raises_refuted"
   ],
   "note": "Proved: the index is right up to 2^-39 for every accurate log; indexes halve between positive scales; delta and cumulative points are right when no value is within 2^-38 of (but not equal to) a power of two, or when the scale asked for is at most 0. False otherwise: C110_delta_refuted and C110_raises_refuted, with the correctly rounded log and default parameters."
  },
  {
   "property": "C111",
   "status": "partial",
   "theorems": [
    "C111_threads",
    "C111_order",
    "C111_no_deadlock_partial",
    "C111_logging_refuted",
    "C111_read_refuted"
   ],
   "note": "Proved: C111_threads and C111_order (any handlers and processors for the former); no deadlock and a bound on the steps if logging handlers do not use the span. False otherwise: C111_logging_refuted; reads without the lock: C111_read_refuted."
  },
  {
   "property": "C112",
   "status": "partial",
   "theorems": [
    "C112_once",
    "C112_settled",
    "C112_child",
    "C112_open_span_refuted",
    "C112_span_partial",
    "C112_span_lock_refuted"
   ],
   "note": "Proved for the batch processors of any tree of processes: C112_once, C112_settled, C112_child; for an open span if its lock is free at the fork: C112_span_partial. False: C112_open_span_refuted, C112_span_lock_refuted. At-fork hooks are taken to run (os.register_at_fork); events of flush requests are not modelled down to their locks."
  },
  {
   "property": "C113",
   "status": "partial",
   "theorems": [
    "C113_spans",
    "C113_current",
    "C113_malformed",
    "C113_other_task_refuted",
    "C113_finish_refuted",
    "C113_execution_context_refuted"
   ],
   "note": "C113_spans, C113_current. False parts: C113_other_task_refuted, C113_finish_refuted, C113_execution_context_refuted. How times of message events are read is C114 (a parameter here)."
  },
  {
   "property": "C114",
   "status": "partial",
   "theorems": [
    "C114_printed",
    "C114_order",
    "C114_created",
    "C114_created_order",
    "C114_seconds",
    "C114_message_partial",
    "C114_message_refuted",
    "C114_nearest_refuted",
    "C114_far_refuted",
    "C114_exact_refuted",
    "C114_no_timestamp_refuted"
   ],
   "note": "C114_printed, C114_order, C114_created, C114_created_order, C114_seconds. Message events only if local time is UTC (C114_message_partial); False parts: C114_message_refuted, C114_nearest_refuted, C114_far_refuted, C114_exact_refuted, C114_no_timestamp_refuted. datetime, int and round of floats are modelled after CPython."
  },
  {
   "property": "C115",
   "status": "partial",
   "theorems": [
    "C115_spans",
    "C115_export",
    "C115_sent",
    "C115_status_refuted",
    "C115_root_refuted",
    "C115_batch_refuted",
    "C115_service_refuted"
   ],
   "note": "C115_spans, C115_export, C115_sent. False parts: C115_status_refuted, C115_root_refuted, C115_batch_refuted, C115_service_refuted. The node's host, process and versions and the gRPC channel are not modelled."
  },
  {
   "property": "C116",
   "status": "partial",
   "theorems": [
    "C116_written",
    "C116_read",
    "C116_one_value",
    "C116_round_trip",
    "C116_not_a_number_refuted",
    "C116_surrogates_refuted"
   ],
   "note": "Python's json module as the SDK calls it: dumps with and without indentation against the grammar of RFC 8259 with denotation (C116_written, C116_round_trip), loads of every text of the grammar (C116_read, C116_one_value). Refuted: a NaN or an infinity anywhere makes the text invalid JSON (C116_not_a_number_refuted); a string with two surrogates is written like the character they encode (C116_surrogates_refuted). Assumed: the repr of a finite float is a number that is read as that float. Missing: recursion and digit limits, keys that are not strings."
  },
  {
   "property": "C117",
   "status": "partial",
   "theorems": [
    "C117_span",
    "C117_any_float",
    "C117_not_a_number_refuted",
    "C117_console",
    "C117_stream",
    "C117_attributes",
    "C117_epoch_refuted",
    "C117_hidden_refuted",
    "C117_far_time_refuted"
   ],
   "note": "Proved: the document is JSON that says member by member what the span is, the stream of a batch can be read in one way only, and all kept attributes can be printed. Refuted: scope, trace flags, remoteness and dropped counts are not in it, time 0 is left out, a float that is not a number makes it invalid JSON, and a time after 9999 loses the rest of the batch."
  },
  {
   "property": "C118",
   "status": "partial",
   "theorems": [
    "C118_log",
    "C118_console",
    "C118_no_time_refuted",
    "C118_bytes_refuted",
    "C118_dropped_refuted"
   ],
   "note": "Proved: the document is JSON that says member by member what the record is. Refuted: a record without a time, which is the default, or with a body of bytes raises and loses the rest of the batch; the number of dropped attributes is said to be 0 if none was kept."
  },
  {
   "property": "C119",
   "status": "partial",
   "theorems": [
    "C119_metrics",
    "C119_any_float",
    "C119_console",
    "C119_min_max_refuted",
    "C119_bytes_refuted"
   ],
   "note": "Proved: the document is JSON that says member by member what the metrics are. Refuted: with record_min_max=False it is not JSON, and an attribute of bytes loses the whole collection."
  },
  {
   "property": "C120",
   "status": "partial",
   "theorems": [
    "C120_lexical",
    "C120_transparent",
    "C120_never_records",
    "C120_never_records_w3c",
    "C120_passes_on",
    "C120_use_span_refuted"
   ],
   "note": "use_span(tracer.start_span()) does not pass traces on (C120_use_span_refuted); the rest is proved"
  },
  {
   "property": "C121",
   "status": "partial",
   "theorems": [
    "C121_nested_partial",
    "C121_tasks",
    "C121_leave",
    "C121_decorated",
    "C121_generators_refuted",
    "C121_suspended_refuted",
    "C121_stale_refuted",
    "C121_other_task_refuted"
   ],
   "note": "Proved if blocks are nested in each task (always so if every frame has its own task), and for decorated functions and coroutine functions. Refuted: generators suspended inside a block, blocks left in another task, decorated generator functions."
  },
  {
   "property": "C122",
   "status": "partial",
   "theorems": [
    "C122_reads",
    "C122_exports",
    "C122_shutdown_refuted",
    "C122_reader_at_most_once",
    "C122_reader_partial",
    "C122_reader_refuted"
   ],
   "note": "The exporters are proved; the memory can grow after shutdown (refuted). The reader: at most once always, exactly once if nothing else collects; refuted with collect or force_flush."
  },
  {
   "property": "C123",
   "status": "partial",
   "theorems": [
    "C123_exit_partial",
    "C123_shutdown",
    "C123_concurrent_refuted",
    "C123_raising_refuted",
    "C123_early_callback_refuted"
   ],
   "note": "default multi processor, exporters whose shutdown does not raise, callbacks registered after the provider was made; the rest is refuted"
  },
  {
   "property": "C124",
   "status": "partial",
   "theorems": [
    "C124_one_provider_partial",
    "C124_calls_partial",
    "C124_environment_partial",
    "C124_progress",
    "C124_loaded_once_refuted",
    "C124_raising_hook_refuted"
   ],
   "note": "Proved but for meter providers whose get_meter raises when proxies are connected, with which the provider can change (refuted); the class named by the environment can be instantiated more than once (refuted)"
  },
  {
   "property": "C125",
   "status": "proved",
   "theorems": [
    "C125_handled",
    "C125_raises",
    "C125_derived_refuted",
    "C125_interrupt_refuted"
   ],
   "note": "Proved; refuted: handlers take exceptions of derived classes, interrupts pass"
  },
  {
   "property": "C126",
   "status": "partial",
   "theorems": [
    "C126_process",
    "C126_raises",
    "C126_skipped",
    "C126_created",
    "C126_os",
    "C126_host",
    "C126_order_refuted"
   ],
   "note": "The order of the detectors is refuted: a value of OTEL_RESOURCE_ATTRIBUTES may be replaced by a detected one, depending on the order of a set. os.path.dirname is modelled for POSIX."
  },
  {
   "property": "C127",
   "status": "partial",
   "theorems": [
    "C127_reads",
    "C127_assigned_once",
    "C127_same_partial",
    "C127_one_context",
    "C127_uninstall_refuted",
    "C127_same_refuted"
   ],
   "note": "Refuted: a tracer made while the shim was installed has no tracer after uninstalling; after 128 other contexts a context gets another shim tracer."
  },
  {
   "property": "C128",
   "status": "proved",
   "theorems": [
    "C128_points",
    "C128_sizes",
    "C128_parts",
    "C128_requests",
    "C128_export"
   ],
   "note": "A size that is not positive counts as one. The encoding is C69, under its hypothesis that no resource and no scope of a resource occurs twice; the retry loop of one request is a parameter (C54)."
  },
  {
   "property": "C129",
   "status": "proved",
   "theorems": [
    "C129_int",
    "C129_batch",
    "C129_bounds",
    "C129_small_queue_refuted",
    "C129_interval",
    "C129_filter",
    "C129_aggregation",
    "C129_otlp_aggregation"
   ],
   "note": "C129_int, C129_batch, C129_bounds, C129_interval, C129_filter, C129_aggregation, C129_otlp_aggregation; float texts are an argument of the model; C129_small_queue_refuted is a finding"
  },
  {
   "property": "C130",
   "status": "partial",
   "theorems": [
    "C130_scrape_partial",
    "C130_flush_refuted",
    "C130_empty_key_refuted",
    "C130_boundaries_refuted"
   ],
   "note": "Missing: exponential histograms, bucket aggregations without boundaries (C138) or with boundaries that do not increase (C130_boundaries_refuted), amounts that are floats; attributes with an empty key (C130_empty_key_refuted); collections of the reader other than scrapes (C71_after_flush_refuted, C130_flush_refuted)."
  },
  {
   "property": "C131",
   "status": "proved",
   "theorems": [
    "C131_posts",
    "C131_tree"
   ],
   "note": "The service name of the resource is a non-empty text and the kinds are members of SpanKind; the local endpoint's addresses are outside"
  },
  {
   "property": "C132",
   "status": "partial",
   "theorems": [
    "C132_v2",
    "C132_v1_partial",
    "C132_not_a_number_refuted"
   ],
   "note": "version 2 in full (C132_v2); version 1 with a maximal tag length, since without one its encoder raises (C80_v1_default_refuted); a NaN or an infinity in an event's attribute makes the annotation's value no JSON (refuted)"
  },
  {
   "property": "C133",
   "status": "partial",
   "theorems": [
    "C133_accepts",
    "C133_one_address",
    "C133_document",
    "C133_service",
    "C133_protobuf",
    "C133_zone_refuted",
    "C133_small_ipv6_refuted",
    "C133_no_service_refuted",
    "C133_service_refuted"
   ],
   "note": "Proved for version 2 documents (JSON) and for the protobuf messages of every history of batches. Refuted parts: integers below 2**32 are not accepted as IPv6 addresses (C133_small_ipv6_refuted); a global provider whose resource has no service.name makes the constructor raise KeyError (C133_no_service_refuted); a batch whose first span has no service.name is sent for the service of an earlier batch (C133_service_refuted); the zone of an address is not in the protobuf message (C133_zone_refuted). Addresses given as bytes are not modelled."
  },
  {
   "property": "C134",
   "status": "partial",
   "theorems": [
    "C134_call",
    "C134_recovers",
    "C134_shutdown_refuted",
    "C134_failing_refuted",
    "C134_flush",
    "C134_flushed",
    "C134_flushed_refuted",
    "C134_drain",
    "C134_rest",
    "C134_rest_refuted"
   ],
   "note": "Proved: with batch processors, and simple processors whose exporters neither log nor raise, each logging call returns with exactly the records queued and exported (C134_call); with exporters that fail finitely often it returns (C134_recovers); flush and drain end and export what was queued (C134_flush, C134_flushed, C134_drain); rest (C134_rest). Refuted otherwise: RecursionError after shutdown or with a raising exporter, endless exports, records pushed out. One thread at a time."
  },
  {
   "property": "C135",
   "status": "partial",
   "theorems": [
    "C135_no_deadlock",
    "C135_no_circle",
    "C135_released",
    "C135_reset_refuted"
   ],
   "note": "Proved for batch processors, if the program does not reset logging (logging.shutdown, logging.config) or the workers and exporters do not log; with both refuted: they wait for each other until the time-out (C135_reset_refuted)."
  },
  {
   "property": "C136",
   "status": "partial",
   "theorems": [
    "C136_calls",
    "C136_order",
    "C136_ends",
    "C136_no_deadlock",
    "C136_nested_partial",
    "C136_nested_refuted",
    "C136_logging_refuted"
   ],
   "note": "Proved in full for what calls reach, their order and that all runs end; that no call waits for ever is proved if processors make no calls themselves, or do not log and do not fill the pool; otherwise refuted (C136_nested_refuted, C136_logging_refuted).  force_flush of these processors is in C32."
  },
  {
   "property": "C137",
   "status": "partial",
   "theorems": [
    "C137_delta",
    "C137_cumulative_partial",
    "C137_request_partial",
    "C137_no_raise",
    "C137_raises_refuted",
    "C137_observable_refuted"
   ],
   "note": "Delta readers in full, and no exception under the stated conditions. Cumulative readers if with each attribute set the first amount is not zero and no other has the opposite sign: with a zero (or the first amount of a sign) in a later interval a collection can raise (C137_raises_refuted), and an observable instrument with an exponential histogram is never reported (C137_observable_refuted)."
  },
  {
   "property": "C138",
   "status": "partial",
   "theorems": [
    "C138_boundaries_partial",
    "C138_shared_refuted",
    "C138_counter_refuted"
   ],
   "note": "The full statement is C138_boundaries_partial without its hypotheses only_histograms and agrees_with_others; it is false in both cases (C138_shared_refuted: with the OTLP exporters' defaults; C138_counter_refuted).  Exponential histograms are in C137."
  },
  {
   "property": "C139",
   "status": "partial",
   "theorems": [
    "C139_exemplars_partial",
    "C139_trace_based_partial",
    "C139_request_partial",
    "C139_points",
    "C139_context_refuted"
   ],
   "note": "Proved end to end, from the calls to the OTLP request, for sums, last values and histograms, for all filters, views and readers; C139_points: the rest of the points does not depend on exemplars; exponential histograms are in C140.  Missing: empty contexts given inside of a span (refuted), exemplars of measurements outside of any span (C65_span_refuted), reservoirs of the user"
  },
  {
   "property": "C140",
   "status": "partial",
   "theorems": [
    "C140_exemplars_partial",
    "C140_points",
    "C140_delta_partial",
    "C140_cumulative_partial",
    "C140_zero_refuted",
    "C140_pipeline_partial",
    "C140_request_partial",
    "C140_pipeline_points"
   ],
   "note": "Delta readers for all doubles (C140_delta_partial), cumulative readers if no later interval has the first amount of a sign (C140_cumulative_partial), and all histories without exceptions; end to end, from the calls through views and readers to what is delivered (C140_pipeline_partial, with the start times) and to the OTLP request (C140_request_partial); C140_points and C140_pipeline_points: the rest of what is delivered does not depend on exemplars. Missing: zeros are counted but never become exemplars (C140_zero_refuted), empty contexts given inside of a span (C139_context_refuted), reservoirs of the user; end to end cumulative readers only if with each attribute set the first amount is not zero and no other has the opposite sign"
  }
 ]
}