{
 "claims": [
  {
   "property": "C01",
   "status": "proved",
   "theorems": [
    "C01_current_follows_live_guards"
   ],
   "note": ""
  },
  {
   "property": "C02",
   "status": "proved",
   "theorems": [
    "C02_refines_limited_stack",
    "C02_overflow_guard_is_inert",
    "C02_live_positions_distinct"
   ],
   "note": ""
  },
  {
   "property": "C03",
   "status": "proved",
   "theorems": [
    "C03_poll_restores_current",
    "C03_poll_is_attach_inner_drop"
   ],
   "note": ""
  },
  {
   "property": "C04",
   "status": "proved",
   "theorems": [
    "C04_value_is_last_stored",
    "C04_span_is_last_set",
    "C04_suppression_is_sticky",
    "C04_new_is_empty"
   ],
   "note": ""
  },
  {
   "property": "C05",
   "status": "proved",
   "theorems": [
    "C05_limits",
    "C05_from_iter_is_inserts",
    "C05_extract_limits"
   ],
   "note": ""
  },
  {
   "property": "C06",
   "status": "proved",
   "theorems": [
    "C06_insert_semantics",
    "C06_insert_acceptance",
    "C06_no_removal_no_leak",
    "C06_remove_semantics"
   ],
   "note": "The exact acceptance rule (including after removals) is C06_insert_acceptance; the space of removed entries is property C89."
  },
  {
   "property": "C07",
   "status": "partial",
   "theorems": [
    "C07_with_baggage",
    "C07_clear_never_clears",
    "C07_clear_refuted"
   ],
   "note": "False of the code: with_cleared_baggage stores a value of another type, so baggage() is unchanged for every context. Refuted by a witness; the reading back of stored baggage is proved."
  },
  {
   "property": "C08",
   "status": "proved",
   "theorems": [
    "C08_inject_extract"
   ],
   "note": "Proved on the exact domain (BaggageSpec.representable); values with %XX are property C90."
  },
  {
   "property": "C09",
   "status": "proved",
   "theorems": [
    "C09_members_always_valid",
    "C09_from_key_value_ok",
    "C09_from_key_value_err",
    "C09_from_str_ok",
    "C09_insert_ok",
    "C09_delete_ok",
    "C09_w3c_key_accepted",
    "C09_w3c_value_accepted"
   ],
   "note": "lib_key and lib_value state the grammar separately; the documented grammar is property C91."
  },
  {
   "property": "C10",
   "status": "proved",
   "theorems": [
    "C10_insert_front",
    "C10_delete_removes",
    "C10_insert_general",
    "C10_delete_general",
    "C10_get_first",
    "C10_get_none"
   ],
   "note": "States with repeated keys: property C92."
  },
  {
   "property": "C11",
   "status": "proved",
   "theorems": [
    "C11_header_roundtrip",
    "C11_header_text"
   ],
   "note": ""
  },
  {
   "property": "C12",
   "status": "proved",
   "theorems": [
    "C12_trace_id_roundtrip",
    "C12_span_id_roundtrip",
    "C12_bytes_roundtrip",
    "C12_display_value",
    "C12_display_injective",
    "C12_from_hex_exact",
    "C12_flags"
   ],
   "note": ""
  },
  {
   "property": "C13",
   "status": "proved",
   "theorems": [
    "C13_roundtrip"
   ],
   "note": ""
  },
  {
   "property": "C14",
   "status": "proved",
   "theorems": [
    "C14_extract_safe",
    "C14_extract_keeps_rest"
   ],
   "note": ""
  },
  {
   "property": "C15",
   "status": "proved",
   "theorems": [
    "C15_inject_invalid_writes_nothing",
    "C15_inject_wellformed"
   ],
   "note": ""
  },
  {
   "property": "C16",
   "status": "proved",
   "theorems": [
    "C16_accepted_exactly",
    "C16_strict_accepted"
   ],
   "note": "C16_accepted_exactly gives the language; strictness is property C93."
  },
  {
   "property": "C17",
   "status": "proved",
   "theorems": [
    "C17_single_roundtrip",
    "C17_multi_roundtrip",
    "C17_states_preserved",
    "C17_single_language",
    "C17_multi_language",
    "C17_single_first",
    "C17_C18_C68_wire_names"
   ],
   "note": "The sampled bit next to debug, and stale flags headers, are property C94."
  },
  {
   "property": "C18",
   "status": "proved",
   "theorems": [
    "C18_written_headers",
    "C18_multi_only_multi",
    "C18_both",
    "C17_C18_C68_wire_names"
   ],
   "note": "The single-header encoding is property C95."
  },
  {
   "property": "C19",
   "status": "proved",
   "theorems": [
    "C19_roundtrip",
    "C19_roundtrip_plain",
    "C19_flags_preserved",
    "C19_language",
    "C19_state_headers",
    "C19_decoding",
    "C19_injection",
    "C19_custom_names"
   ],
   "note": "Foreign prefixed headers are property C96."
  },
  {
   "property": "C20",
   "status": "proved",
   "theorems": [
    "C20_b3_safe",
    "C20_w3c_safe",
    "C20_composite_safe"
   ],
   "note": "Jaeger is property C97."
  },
  {
   "property": "C21",
   "status": "proved",
   "theorems": [
    "C21_inject_in_order",
    "C21_extract_in_order",
    "C21_nesting",
    "C21_fields_union",
    "C21_inject_commutes",
    "C21_extract_commutes",
    "C21_last_wins",
    "C21_provided_propagators",
    "C21_w3c_and_baggage"
   ],
   "note": ""
  },
  {
   "property": "C22",
   "status": "proved",
   "theorems": [
    "C22_depends_only_on_parent_and_trace_id",
    "C22_parent_decides",
    "C22_root_delegates",
    "C22_nesting",
    "C22_constant_samplers",
    "C22_builtin_two_valued",
    "C22_trace_state"
   ],
   "note": "Parents with invalid span contexts are property C98."
  },
  {
   "property": "C23",
   "status": "proved",
   "theorems": [
    "C23_exact_share",
    "C23_monotone",
    "C23_extremes",
    "C23_low_word_only"
   ],
   "note": ""
  },
  {
   "property": "C24",
   "status": "proved",
   "theorems": [
    "C24_refines_tokens",
    "C24_never_too_many",
    "C24_refills_after_a_second",
    "C24_C70_remote_sampler_limits"
   ],
   "note": "For whole-number bucket sizes and rates (all the remote sampler can ask for), by refinement to an integer token bucket. Refill under frequent polls and clocks that go back are property C99."
  },
  {
   "property": "C25",
   "status": "proved",
   "theorems": [
    "C25_kept_and_dropped",
    "C25_bounds_and_totals",
    "C25_other_fields"
   ],
   "note": "u32 counters wrap as in a release build"
  },
  {
   "property": "C26",
   "status": "proved",
   "theorems": [
    "C26_delivered_once",
    "C26_not_ended_not_delivered",
    "C26_non_recording_never_delivered"
   ],
   "note": "a processor's on_start that itself ends the span is not modelled"
  },
  {
   "property": "C27",
   "status": "proved",
   "theorems": [
    "C27_strongest",
    "C27_precedence"
   ],
   "note": "Which description is kept is property C100."
  },
  {
   "property": "C28",
   "status": "proved",
   "theorems": [
    "C28_child_of_parent",
    "C28_root",
    "C28_sampling_result",
    "C28_one_trace_id_per_tree",
    "C28_parent_based_tree",
    "C28_suppressed_or_shut_down"
   ],
   "note": "any limits, sampler, id generator outputs, processors and tree depth"
  },
  {
   "property": "C29",
   "status": "proved",
   "theorems": [
    "C29_valid_below_valid_parent"
   ],
   "note": "Invalid parents are property C101."
  },
  {
   "property": "C30",
   "status": "proved",
   "theorems": [
    "C30_at_most_once_in_order",
    "C30_exactly_once_when_gone",
    "C30_handles_counted",
    "C30_shutdown_returns_after_all",
    "C30_one_winner",
    "C30_call_after_call_already",
    "C30_answer",
    "C30_nothing_delivered_after",
    "C30_delivery_in_order",
    "C30_force_flush",
    "C30_new_tracer_after_shutdown"
   ],
   "note": "Ends already past their check when shutdown returns are property C102."
  },
  {
   "property": "C31",
   "status": "proved",
   "theorems": [
    "C31_C40_each_once",
    "C31_C40_order",
    "C31_sequential"
   ],
   "note": "any interleaving of calls, and sequentially the exact list"
  },
  {
   "property": "C32",
   "status": "proved",
   "theorems": [
    "C32_C36_order",
    "C32_C36_bounds",
    "C32_C36_accounting",
    "C32_C36_room"
   ],
   "note": "any number of producers, any queue and batch size; sequentially consistent atomics; proved jointly with C36"
  },
  {
   "property": "C33",
   "status": "proved",
   "theorems": [
    "C33_C34_C37_answer_reports_last_export",
    "C33_C34_ok_means_export_succeeded",
    "C33_flush_exports_a_batch",
    "C33_flush_complete_when_one_batch"
   ],
   "note": "Queues longer than one batch are property C103."
  },
  {
   "property": "C34",
   "status": "proved",
   "theorems": [
    "C33_C34_C37_answer_reports_last_export",
    "C33_C34_ok_means_export_succeeded",
    "C34_shutdown_exports_a_batch",
    "C34_C37_quiet_after_shutdown",
    "C34_late_spans_rejected",
    "C34_flag_up",
    "C34_second_call_already"
   ],
   "note": "Draining and shutting the exporter down are property C104."
  },
  {
   "property": "C35",
   "status": "proved",
   "theorems": [
    "C35_batch_given_sampled",
    "C35_recording_spans_sampled"
   ],
   "note": "Without the condition: property C105."
  },
  {
   "property": "C36",
   "status": "proved",
   "theorems": [
    "C32_C36_order",
    "C32_C36_bounds",
    "C32_C36_accounting",
    "C32_C36_room"
   ],
   "note": "any number of producers, any queue and batch size; proved jointly with C32"
  },
  {
   "property": "C37",
   "status": "proved",
   "theorems": [
    "C33_C34_C37_answer_reports_last_export",
    "C34_C37_quiet_after_shutdown",
    "C37_exports_counted",
    "C37_complete_when_settled",
    "C37_exporter_shut_down_once",
    "C37_late_records_rejected"
   ],
   "note": "The unconditional reading is property C106."
  },
  {
   "property": "C38",
   "status": "proved",
   "theorems": [
    "C38_worker_never_stuck",
    "C38_worker_finishes"
   ],
   "note": "The underflow is property C107."
  },
  {
   "property": "C39",
   "status": "proved",
   "theorems": [
    "C39_emit",
    "C39_suppressed",
    "C39_event_enabled",
    "C39_concurrent_delivery",
    "C39_no_check",
    "C39_new_logger_after_shutdown"
   ],
   "note": "all proved; the emit path makes no shutdown check, so an old logger still reaches the processors"
  },
  {
   "property": "C40",
   "status": "proved",
   "theorems": [
    "C31_C40_each_once",
    "C31_C40_order",
    "C40_nothing_after_shutdown",
    "C40_flag_after_shutdown",
    "C40_all_exported_without_shutdown",
    "C40_all_exported_before"
   ],
   "note": "Emits under way, and the concurrent processor, are property C108."
  },
  {
   "property": "C41",
   "status": "proved",
   "theorems": [
    "C41_growable_array",
    "C41_record"
   ],
   "note": "any capacity and any length"
  },
  {
   "property": "C42",
   "status": "proved",
   "theorems": [
    "C42_attribute_sets",
    "C42_C43_applied_once",
    "C42_filter",
    "C42_cumulative",
    "C42_integer_sums",
    "C42_sums_in_range",
    "C42_progress"
   ],
   "note": "Any aggregator, filter, sort, number of threads and schedule. The point's value aggregates a prefix of the applied measurements ending during the collection; with nothing in flight that prefix is everything. Integer sums are exact modulo 2^64; float sums are the ordered fold (C45 covers the atomic addition). With duplicate keys in one call the reported attribute list may still contain the duplicates: see C72."
  },
  {
   "property": "C43",
   "status": "proved",
   "theorems": [
    "C42_C43_applied_once",
    "C43_bound",
    "C43_grand_total"
   ],
   "note": "The grand total is stated for integers modulo 2^64 and for a collection that overlaps no measurement; in general C42/C44 give each point's window."
  },
  {
   "property": "C44",
   "status": "proved",
   "theorems": [
    "C44_windows_tile",
    "C44_points",
    "C44_nothing_lost",
    "C44_nothing_lost_no_attributes"
   ],
   "note": "Windows of successive collections tile the history, for the map and for the empty set separately."
  },
  {
   "property": "C45",
   "status": "proved",
   "theorems": [
    "C45_linearizable",
    "C45_real_time",
    "C45_sum_of_additions",
    "C45_lock_free",
    "C45_f64_bits"
   ],
   "note": "Linearizability of add/store/get/reset for any number type and any schedule, real-time order, lock-freedom; f64 satisfies the bit round-trip premise."
  },
  {
   "property": "C46",
   "status": "proved",
   "theorems": [
    "C46_attributed_points_are_recorded",
    "C46_only_recorded_points"
   ],
   "note": "Without the condition: property C109."
  },
  {
   "property": "C47",
   "status": "proved",
   "theorems": [
    "C47_validated_boundaries",
    "C47_view_boundaries",
    "C47_bucket",
    "C47_index_in_range",
    "C47_counts",
    "C47_min_max",
    "C47_number_types",
    "C47_stream"
   ],
   "note": "A NaN measurement is counted in the first bucket. Infinite floats are property C110."
  },
  {
   "property": "C48",
   "status": "proved",
   "theorems": [
    "C48_counts_conserved",
    "C48_two_buckets_suffice_for_normal_numbers",
    "C48_limits_hold",
    "C48_scale_is_finest",
    "C48_scale_never_increases_and_totals",
    "C48_sum_min_max"
   ],
   "note": "Also proved for max_size 2 with normal numbers; limits for max_size >= 1. f64::ln enters as a parameter with the hypothesis ln_ok. Other configurations are property C111."
  },
  {
   "property": "C49",
   "status": "proved",
   "theorems": [
    "C49_buckets_exact_up_to_scale_zero",
    "C49_buckets_up_to_log_error"
   ],
   "note": "f64::ln enters as a parameter with the hypothesis ln_ok. Exactness at positive scales is property C112."
  },
  {
   "property": "C50",
   "status": "proved",
   "theorems": [
    "C50_last_value"
   ],
   "note": "Instance of the store with the assigning aggregator, for both temporalities and every schedule."
  },
  {
   "property": "C51",
   "status": "proved",
   "theorems": [
    "C51_report",
    "C51_deltas_add_up",
    "C51_differences"
   ],
   "note": "Sets skipped in a collection or given in another order are property C113."
  },
  {
   "property": "C52",
   "status": "proved",
   "theorems": [
    "C52_delta_intervals_tile",
    "C52_cumulative_intervals",
    "C52_intervals_ordered"
   ],
   "note": "Sequential collections, as the pipeline lock enforces."
  },
  {
   "property": "C53",
   "status": "proved",
   "theorems": [
    "C53_one_stream_per_identity",
    "C53_counted_once"
   ],
   "note": "Incoherent views are property C114."
  },
  {
   "property": "C54",
   "status": "proved",
   "theorems": [
    "C54_accepted_iff_grammar",
    "C54_invalid_records_nothing"
   ],
   "note": "Acceptance is characterised by the grammar; a rejected instrument is shown to leave every aggregate unchanged."
  },
  {
   "property": "C55",
   "status": "proved",
   "theorems": [
    "C55_wildcards",
    "C55_view",
    "C55_usable_aggregations"
   ],
   "note": "Other patterns and criteria of scope attributes are property C115."
  },
  {
   "property": "C56",
   "status": "proved",
   "theorems": [
    "C56_reused_buffer",
    "C56_same_as_fresh"
   ],
   "note": "Proved for every leftover buffer, with the value maps abstracted to what they report."
  },
  {
   "property": "C57",
   "status": "proved",
   "theorems": [
    "C57_worker_history",
    "C57_calls_answered_after_export",
    "C57_nothing_after_shutdown",
    "C57_no_call_stuck"
   ],
   "note": "Proved over all interleavings. A shutdown that gives up after its five seconds returns an error while the worker still carries out its final export (C57_timeout_still_exports)."
  },
  {
   "property": "C58",
   "status": "proved",
   "theorems": [
    "C58_right_biased_union",
    "C58_laws",
    "C58_schema_url",
    "C58_builder"
   ],
   "note": "Also for Resource::new, the builder and from_detectors. with_schema_url lets existing attributes win; detectors lose their schema URL. Associativity of the URL rule is property C136."
  },
  {
   "property": "C59",
   "status": "proved",
   "theorems": [
    "C59_service_name",
    "C59_sdk_detector",
    "C59_sdk_attributes"
   ],
   "note": "The documented priority is property C116."
  },
  {
   "property": "C60",
   "status": "proved",
   "theorems": [
    "C60_every_span_once",
    "C60_groups",
    "C60_one_group_per_scope"
   ],
   "note": "Proved for every batch, every iteration order of the hash map and every hasher. Scopes with NaN or minus zero attributes may be split over several groups; each span still appears once under an equal scope."
  },
  {
   "property": "C61",
   "status": "proved",
   "theorems": [
    "C61_grouping",
    "C61_single_record"
   ],
   "note": "Version and attributes of the scope are property C117."
  },
  {
   "property": "C62",
   "status": "proved",
   "theorems": [
    "C62_attribute_values",
    "C62_attribute_values_injective",
    "C62_log_values",
    "C62_times",
    "C62_times_general",
    "C62_numbers",
    "C62_spans",
    "C62_log_records",
    "C62_metrics",
    "C62_floats_identify"
   ],
   "note": "Values outside are property C118."
  },
  {
   "property": "C63",
   "status": "proved",
   "theorems": [
    "C63_name_and_type",
    "C63_unit_suffix",
    "C63_metric_names",
    "C63_accepted_names",
    "C63_labels",
    "C63_label_names",
    "C63_buckets",
    "C63_samples",
    "C63_resource_labels",
    "C63_selected_resource_labels"
   ],
   "note": "Other names and labels are property C119. Switching scope info off also drops the selected resource labels (C63_selected_resource_labels)."
  },
  {
   "property": "C64",
   "status": "proved",
   "theorems": [
    "C64_attribute_equality",
    "C64_hash",
    "C64_scope_equality",
    "C64_scope_partial_equivalence"
   ],
   "note": "NaN, signed zeros and repeated keys are property C120."
  },
  {
   "property": "C65",
   "status": "proved",
   "theorems": [
    "C65_timeout",
    "C65_variables",
    "C65_http_endpoint",
    "C65_grpc_endpoint",
    "C65_compression",
    "C65_url_decode",
    "C65_url_decode_rejects",
    "C65_header_string",
    "C65_header_members",
    "C65_bad_headers_ignored",
    "C65_given_headers",
    "C65_http_headers",
    "C65_grpc_metadata",
    "C65_with_metadata",
    "C65_request_metadata",
    "C65_http_request",
    "C65_user_agent"
   ],
   "note": "Headers given by the program, empty endpoints and %+5 are property C121."
  },
  {
   "property": "C66",
   "status": "proved",
   "theorems": [
    "C66_exported_in_order",
    "C66_batch_sizes",
    "C66_flush_complete",
    "C66_answered_flush_complete",
    "C66_failures",
    "C66_worker_history",
    "C66_nothing_after_shutdown",
    "C66_log_shutdown_waits",
    "C66_refused_only_when_full",
    "C66_calls_return"
   ],
   "note": "For every interleaving of any number of emitting and calling threads, every queue and batch size (positive batch size for the size and history theorems). max_concurrent_exports has no effect: every export is awaited before the next message is read. What answers do not mean is property C137."
  },
  {
   "property": "C67",
   "status": "proved",
   "theorems": [
    "C67_display_extract"
   ],
   "note": ""
  },
  {
   "property": "C68",
   "status": "proved",
   "theorems": [
    "C68_w3c",
    "C68_baggage",
    "C68_b3",
    "C68_jaeger",
    "C68_composite",
    "C17_C18_C68_wire_names"
   ],
   "note": "The exceptions are property C122."
  },
  {
   "property": "C69",
   "status": "proved",
   "theorems": [
    "C69_no_panic",
    "C69_panic_needs_guard_drop",
    "C69_ends_exactly_once",
    "C69_ends_with_last_owner"
   ],
   "note": "Other callbacks are property C123. The mutex around a span is not modelled."
  },
  {
   "property": "C70",
   "status": "proved",
   "theorems": [
    "C70_default_until_first_response",
    "C70_response_installed",
    "C70_rate_update_keeps_tokens",
    "C70_decisions",
    "C70_last_entry_of_operation_wins",
    "C24_C70_remote_sampler_limits"
   ],
   "note": "Responses without any strategy are property C124."
  },
  {
   "property": "C71",
   "status": "proved",
   "theorems": [
    "C71_flag_accounted_for",
    "C71_next_full_batch_triggers"
   ],
   "note": "all proved"
  },
  {
   "property": "C73",
   "status": "proved",
   "theorems": [
    "C73_aggregation_table",
    "C73_incompatible_records_nothing"
   ],
   "note": "Selection table and compatibility proved; an incompatible view aggregation makes the instrument record nothing."
  },
  {
   "property": "C74",
   "status": "proved",
   "theorems": [
    "C74_single_reader"
   ],
   "note": "Several readers are property C125."
  },
  {
   "property": "C75",
   "status": "proved",
   "theorems": [
    "C75_windows"
   ],
   "note": "Proved."
  },
  {
   "property": "C76",
   "status": "proved",
   "theorems": [
    "C76_temporality"
   ],
   "note": "Proved."
  },
  {
   "property": "C77",
   "status": "proved",
   "theorems": [
    "C77_readers_shut_down_once",
    "C77_flush",
    "C77_meters",
    "C77_manual_reader"
   ],
   "note": "Proved; the shutdown machine is that of C30 with readers in place of processors. Scope equality is assumed to be an equivalence deciding equality, which C64 examines."
  },
  {
   "property": "C78",
   "status": "proved",
   "theorems": [
    "C78_attribute_list",
    "C78_every_list"
   ],
   "note": "Values are not percent-decoded; this is a statement about the code as it is."
  },
  {
   "property": "C79",
   "status": "proved",
   "theorems": [
    "C79_spans_and_logs_get_resource_url",
    "C79_metric_scopes",
    "C79_single_span"
   ],
   "note": "Grouped spans and logs are property C126."
  },
  {
   "property": "C80",
   "status": "proved",
   "theorems": [
    "C80_one_type_and_help",
    "C80_dropped_iff_type_conflict"
   ],
   "note": "The two reserved names, and distinct series, are property C127."
  },
  {
   "property": "C81",
   "status": "proved",
   "theorems": [
    "C81_ok_means_accepted",
    "C81_nothing_after_shutdown"
   ],
   "note": "The exceptions are property C128. partial_success is never looked at."
  },
  {
   "property": "C82",
   "status": "proved",
   "theorems": [
    "C82_reads_w3c_headers",
    "C82_members_without_value_skipped"
   ],
   "note": "Values with = and keys with %XX are property C129."
  },
  {
   "property": "C83",
   "status": "proved",
   "theorems": [
    "C83_get_after_set",
    "C83_names",
    "C83_keys",
    "C83_no_header_injection",
    "C83_refused",
    "C83_reads_like_a_map",
    "C83_writes_like_a_map",
    "C83_w3c_over_http",
    "C83_b3_over_http",
    "C83_jaeger_over_http",
    "C83_baggage_over_http"
   ],
   "note": "Other characters are property C130."
  },
  {
   "property": "C84",
   "status": "proved",
   "theorems": [
    "C84_log_batch_settings",
    "C84_span_batch_settings",
    "C84_batch_fits_queue",
    "C84_span_limits",
    "C84_event_and_link_attribute_limits",
    "C84_program_sampler",
    "C84_env_sampler",
    "C84_invalid_number_ignored",
    "C84_reader_settings",
    "C84_zero_interval"
   ],
   "note": "The early limit of the batch size is property C131."
  },
  {
   "property": "C85",
   "status": "proved",
   "theorems": [
    "C85_worker_history",
    "C85_calls_answered_after_export",
    "C85_nothing_after_shutdown",
    "C85_refusals",
    "C85_nothing_accepted_after_shutdown",
    "C85_collect_after_shutdown",
    "C85_no_call_stuck"
   ],
   "note": "By refinement of the threaded reader (C57). A shutdown queued behind another gets a plain error rather than AlreadyShutdown (C85_nonvacuous); the timeout argument of shutdown is ignored and the result of the shutdown of the exporter is dropped. Readers without provider are property C132."
  },
  {
   "property": "C86",
   "status": "proved",
   "theorems": [
    "C86_values_survive",
    "C86_spans_survive",
    "C86_logs_survive",
    "C86_metrics_survive",
    "C86_exported_spans_survive",
    "C86_exported_logs_survive",
    "C86_form",
    "C86_other_forms",
    "C86_log_message",
    "C86_span_message",
    "C86_unknown_members",
    "C86_missing_members",
    "C86_bad_ids"
   ],
   "note": "Every span and log batch the SDK exports with finite floats is covered. JSON text itself (serde_json) is not modelled. Other requests are property C133."
  },
  {
   "property": "C87",
   "status": "proved",
   "theorems": [
    "C87_entries",
    "C87_kind",
    "C87_times",
    "C87_annotations",
    "C87_tags",
    "C87_result",
    "C87_not_exported",
    "C87_endpoint",
    "C87_tag_texts",
    "C87_settings"
   ],
   "note": "What is lost on the way is property C134."
  },
  {
   "property": "C88",
   "status": "proved",
   "theorems": [
    "C88_integers",
    "C88_plain_values",
    "C88_broken",
    "C88_null",
    "C88_leaves",
    "C88_handed_over",
    "C88_sequences",
    "C88_structs",
    "C88_any_value",
    "C88_log_bridge",
    "C88_tracing_bridge",
    "C88_disabled"
   ],
   "note": "Default features; the tracing span context and metadata attribute features are not modelled. Map keys, positions and error fields are property C135."
  },
  {
   "property": "C89",
   "status": "partial",
   "theorems": [
    "C89_space_given_back_refuted"
   ],
   "note": "Refuted: Baggage::remove does not reduce kv_content_len, so space is never given back; C06_insert_acceptance gives the actual rule."
  },
  {
   "property": "C90",
   "status": "partial",
   "theorems": [
    "C90_percent_refuted"
   ],
   "note": "Refuted: '%' is not escaped on injection, so a value such as %41 arrives as A."
  },
  {
   "property": "C91",
   "status": "partial",
   "theorems": [
    "C91_documented_grammar_refuted"
   ],
   "note": "Refuted in both directions: empty keys and control characters are accepted, a 14-character system id is rejected."
  },
  {
   "property": "C92",
   "status": "partial",
   "theorems": [
    "C92_delete_duplicate_refuted"
   ],
   "note": "Refuted: from_str and from_key_value keep repeated keys and delete removes only the first."
  },
  {
   "property": "C93",
   "status": "partial",
   "theorems": [
    "C93_strict_grammar_refuted",
    "C93_flags_03_refuted"
   ],
   "note": "Refuted: short ids, '+' signs and a trailing dash are accepted; flags 03 are rejected."
  },
  {
   "property": "C94",
   "status": "partial",
   "theorems": [
    "C94_single_debug_loses_sampled_refuted",
    "C94_multi_stale_flags_refuted"
   ],
   "note": "Refuted: the single header 'd' drops the sampled bit of a sampled debug span; the multi header injector leaves a stale x-b3-flags of the carrier in place."
  },
  {
   "property": "C95",
   "status": "partial",
   "theorems": [
    "C95_single_writes_multi_refuted"
   ],
   "note": "Refuted: SingleHeader also writes x-b3-* for every valid context."
  },
  {
   "property": "C96",
   "status": "partial",
   "theorems": [
    "C96_bad_state_drops_context_refuted"
   ],
   "note": "Refuted: a foreign prefixed header that is no trace state key makes extraction drop the whole context."
  },
  {
   "property": "C97",
   "status": "partial",
   "theorems": [
    "C97_jaeger_partial",
    "C97_jaeger_refuted"
   ],
   "note": "Refuted: an all-zero span context is installed. Proved (C97_jaeger_partial): what is installed is remote and fits its types."
  },
  {
   "property": "C98",
   "status": "partial",
   "theorems": [
    "C98_invalid_parent_is_root_refuted"
   ],
   "note": "Refuted: ParentBased asks only whether an active span is present, so the child of an invalid unsampled parent is dropped."
  },
  {
   "property": "C99",
   "status": "partial",
   "theorems": [
    "C99_busy_limiter_starves_refuted",
    "C99_clock_rewind_admits_all_refuted"
   ],
   "note": "Refuted: whole seconds are truncated on each poll, so a limiter polled more often than once a second starves; a clock that goes back admits everything."
  },
  {
   "property": "C100",
   "status": "partial",
   "theorems": [
    "C100_last_description_kept_refuted"
   ],
   "note": "Refuted: set_status only replaces a status by a strictly greater one in the derived order, so an Error description that sorts lower is ignored."
  },
  {
   "property": "C101",
   "status": "partial",
   "theorems": [
    "C101_below_noop_span_refuted",
    "C101_recording_spans_valid_refuted"
   ],
   "note": "Refuted: an active but invalid parent span passes trace id 0 to recorded children."
  },
  {
   "property": "C102",
   "status": "partial",
   "theorems": [
    "C102_quiet_after_shutdown_returned_refuted"
   ],
   "note": "Refuted: an end already past its check of the shutdown flag is delivered after shutdown has returned."
  },
  {
   "property": "C103",
   "status": "partial",
   "theorems": [
    "C103_flush_exports_all_refuted"
   ],
   "note": "Refuted: one ForceFlush exports at most one batch, so with more than max_export_batch_size spans queued it returns Ok leaving spans queued."
  },
  {
   "property": "C104",
   "status": "partial",
   "theorems": [
    "C104_shutdown_drains_refuted",
    "C104_exporter_shut_down_refuted"
   ],
   "note": "Refuted: shutdown exports one batch, drops the rest, and never calls the shutdown of the exporter."
  },
  {
   "property": "C105",
   "status": "partial",
   "theorems": [
    "C105_batch_exports_only_sampled_refuted"
   ],
   "note": "Refuted: the batch processor exports RecordOnly (unsampled) spans; the simple processor does not."
  },
  {
   "property": "C106",
   "status": "partial",
   "theorems": [
    "C106_flush_exports_all_refuted",
    "C106_ok_means_exported_refuted"
   ],
   "note": "Refuted: an emit between its send and its count makes a flush miss a record emitted before it, and only the last of several exports decides the answer."
  },
  {
   "property": "C107",
   "status": "partial",
   "theorems": [
    "C107_flush_answered_refuted"
   ],
   "note": "Refuted: a count that wrapped to 2^64-1 makes the log worker loop for ever on an empty queue."
  },
  {
   "property": "C108",
   "status": "partial",
   "theorems": [
    "C108_quiet_after_shutdown_refuted",
    "C108_concurrent_processor_refuted"
   ],
   "note": "Refuted: an emit already past its check is exported after shutdown, and SimpleConcurrentLogProcessor checks nothing."
  },
  {
   "property": "C109",
   "status": "partial",
   "theorems": [
    "C109_only_recorded_points_refuted"
   ],
   "note": "Refuted by a schedule: a measurement between its update and its store while a collection takes the value makes the next collection report a zero point."
  },
  {
   "property": "C110",
   "status": "partial",
   "theorems": [
    "C110_min_of_infinity_refuted"
   ],
   "note": "Refuted: they start from f64::MAX and f64::MIN, so a histogram of infinities reports the largest finite double as its minimum."
  },
  {
   "property": "C111",
   "status": "partial",
   "theorems": [
    "C111_two_buckets_refuted",
    "C111_default_configuration_panics_refuted"
   ],
   "note": "Refuted: max_size 2 with subnormals drops a counted measurement; the default configuration (160, 20) panics with overflow checks (i32 overflow in scale_change) when the largest and the smallest double are recorded."
  },
  {
   "property": "C112",
   "status": "partial",
   "theorems": [
    "C112_exact_at_positive_scales_refuted"
   ],
   "note": "Refuted: with an ln as accurate as IEEE allows, a value next to a boundary falls into the neighbouring bucket."
  },
  {
   "property": "C113",
   "status": "partial",
   "theorems": [
    "C113_skipped_set_refuted",
    "C113_attribute_order_refuted"
   ],
   "note": "Refuted: a set skipped in one collection restarts from zero; a set given in unsorted order may be keyed differently from one collection to the next."
  },
  {
   "property": "C114",
   "status": "partial",
   "theorems": [
    "C114_counted_once_refuted"
   ],
   "note": "Refuted: two views whose streams differ only in letter case share one cached aggregator under two raw ids, so each measurement is counted twice."
  },
  {
   "property": "C115",
   "status": "partial",
   "theorems": [
    "C115_any_pattern_refuted",
    "C115_bracket_pattern_refuted",
    "C115_scope_attributes_refuted"
   ],
   "note": "Refuted for ** (construction fails and the view is dropped), for [ ] patterns (glob classes) and for criteria that only set scope attributes (they match everything)."
  },
  {
   "property": "C116",
   "status": "partial",
   "theorems": [
    "C116_service_name_priority_refuted"
   ],
   "note": "Refuted: EnvResourceDetector runs after SdkProvidedResourceDetector, so service.name in OTEL_RESOURCE_ATTRIBUTES overrides OTEL_SERVICE_NAME."
  },
  {
   "property": "C117",
   "status": "partial",
   "theorems": [
    "C117_scope_kept_refuted"
   ],
   "note": "Refuted: group_logs_by_resource_and_scope always passes Some(key) as target, so version and attributes of the scope are dropped and scopes with the same name are merged."
  },
  {
   "property": "C118",
   "status": "partial",
   "theorems": [
    "C118_empty_array_refuted",
    "C118_times_refuted",
    "C118_u64_refuted"
   ],
   "note": "Refuted for u64 values from 2^63 (exported as 0), times before the epoch or past 2^64 ns, and the element type of empty arrays."
  },
  {
   "property": "C119",
   "status": "partial",
   "theorems": [
    "C119_metric_names_refuted",
    "C119_namespace_refuted",
    "C119_label_names_refuted",
    "C119_labels_unique_refuted"
   ],
   "note": "Refuted for view names with non-ASCII letters and invalid namespaces; for label names from keys with a leading digit, a colon, or empty; and for uniqueness when an attribute is called like a scope or resource label."
  },
  {
   "property": "C120",
   "status": "partial",
   "theorems": [
    "C120_reflexive_refuted",
    "C120_hash_refuted",
    "C120_scope_order_refuted"
   ],
   "note": "Refuted for NaN (not reflexive), zero and minus zero (equal, different hash) and reordered repeated keys."
  },
  {
   "property": "C121",
   "status": "partial",
   "theorems": [
    "C121_empty_endpoint_refuted",
    "C121_url_decode_plus_refuted",
    "C121_headers_precedence_refuted",
    "C121_grpc_headers_precedence_refuted",
    "C121_content_type_refuted",
    "C121_user_agent_refuted"
   ],
   "note": "Refuted: programmatic headers do not win over the environment (HTTP and gRPC), a programmatic user-agent spelt differently from User-Agent competes with the default in HashMap order, a configured content-type replaces that of the body, an empty programmatic endpoint is an error although the documentation says it selects the default, and %+5 is decoded as an escape."
  },
  {
   "property": "C122",
   "status": "partial",
   "theorems": [
    "C122_b3_single_refuted",
    "C122_jaeger_untrimmed_refuted"
   ],
   "note": "Refuted for B3 SingleHeader, which writes x-b3-* unannounced, and for custom Jaeger headers with surrounding white space."
  },
  {
   "property": "C123",
   "status": "partial",
   "theorems": [
    "C123_on_end_reads_context_refuted",
    "C123_attach_in_closure_refuted"
   ],
   "note": "Refuted: on_end reading Context::current panics under in_span (issue 2871 of the project), and attaching (for example emitting through a SimpleLogProcessor) inside get_active_span, a sampler or on_start panics."
  },
  {
   "property": "C124",
   "status": "partial",
   "theorems": [
    "C124_empty_response_keeps_strategy_refuted"
   ],
   "note": "Refuted: an empty response discards the strategy in force."
  },
  {
   "property": "C125",
   "status": "partial",
   "theorems": [
    "C125_observations_stay_with_reader_refuted"
   ],
   "note": "Refuted with two readers: callbacks are registered on all pipelines and an observation feeds the measures of every reader."
  },
  {
   "property": "C126",
   "status": "partial",
   "theorems": [
    "C126_span_schema_url_refuted",
    "C126_log_schema_url_refuted"
   ],
   "note": "Refuted for spans and logs: the schema URL of the resource is written into each scope entry."
  },
  {
   "property": "C127",
   "status": "partial",
   "theorems": [
    "C127_own_names_refuted",
    "C127_one_series_refuted"
   ],
   "note": "Refuted: a metric called target_info or otel_scope_info collides with those of the exporter, and two scopes give the same series when scope labels are off."
  },
  {
   "property": "C128",
   "status": "partial",
   "theorems": [
    "C128_metrics_status_refuted",
    "C128_shutdown_refuted"
   ],
   "note": "Refuted: metrics over HTTP report success whatever the status; span exporters and gRPC log exporters still send after shutdown."
  },
  {
   "property": "C129",
   "status": "partial",
   "theorems": [
    "C129_value_cut_at_equals_refuted",
    "C129_key_decoded_refuted"
   ],
   "note": "Refuted: a value containing '=' is cut at it, and keys are percent-decoded although the grammar gives '%' no meaning in keys."
  },
  {
   "property": "C130",
   "status": "partial",
   "theorems": [
    "C130_trace_state_lost_refuted",
    "C130_baggage_lost_refuted"
   ],
   "note": "Refuted: a trace state value or baggage metadata that is not ASCII is written to the request but cannot be read back, which loses the whole trace state or all baggage."
  },
  {
   "property": "C131",
   "status": "partial",
   "theorems": [
    "C131_overridden_queue_limits_batch_refuted"
   ],
   "note": "Refuted: the size is reduced to the queue size of the environment before the program overrides the queue, so OTEL_BSP_MAX_QUEUE_SIZE=100 with with_max_queue_size(2048) leaves batches of 100."
  },
  {
   "property": "C132",
   "status": "partial",
   "theorems": [
    "C132_unregistered_call_hangs_refuted"
   ],
   "note": "Refuted: the worker is only spawned at registration, so force_flush and shutdown block for ever."
  },
  {
   "property": "C133",
   "status": "partial",
   "theorems": [
    "C133_nonfinite_refuted",
    "C133_empty_value_refuted",
    "C133_exemplar_form_refuted"
   ],
   "note": "Refuted: a NaN or infinite attribute makes a whole trace request unreadable, silently removes all data of a metric (the flattened Option swallows the error), and a NaN data point value is silently lost; an empty AnyValue cannot be read; exemplar values are nested under value instead of being a field of the exemplar."
  },
  {
   "property": "C134",
   "status": "partial",
   "theorems": [
    "C134_service_name_refuted",
    "C134_root_parent_refuted",
    "C134_error_attribute_refuted",
    "C134_string_arrays_refuted"
   ],
   "note": "Refuted: a root span is sent with a parent id of zeros, the resource (service name) never reaches Zipkin, an attribute called error is dropped even with an unset status, and strings inside arrays are not escaped, so different arrays give one tag."
  },
  {
   "property": "C135",
   "status": "partial",
   "theorems": [
    "C135_integer_keys_refuted",
    "C135_positions_refuted",
    "C135_error_fields_refuted"
   ],
   "note": "Refuted: map keys that are not text become their Debug form, nulls inside a sequence shift positions, and the name of an error field is lost."
  },
  {
   "property": "C136",
   "status": "partial",
   "theorems": [
    "C136_schema_url_associative_refuted"
   ],
   "note": "Refuted for the schema URL (a conflict is forgotten by a later merge); attributes are associative (C58_laws)."
  },
  {
   "property": "C137",
   "status": "partial",
   "theorems": [
    "C137_flush_reports_failures_refuted",
    "C137_span_shutdown_waits_refuted"
   ],
   "note": "Refuted: a successful flush does not report failures of earlier full batches, and the shutdown of the span processor answers before it shuts the exporter down."
  },
  {
   "property": "C138",
   "status": "proved",
   "theorems": [
    "C138_one_after_the_other",
    "C138_as_if_owned",
    "C138_all_calls_arrive",
    "C138_no_deadlock",
    "C138_remote_span"
   ],
   "note": "Threads interleave at the steps of the mutex; linearized order is the order of taking the lock. BoxedSpan and the Span trait defaults are part of the model."
  },
  {
   "property": "C139",
   "status": "partial",
   "theorems": [
    "C139_reentry_blocks",
    "C139_callbacks_may_use_the_span_refuted"
   ],
   "note": "Refuted: end() runs on_end while the mutex of the span is held, so a processor that asks cx.span().is_recording() blocks its own thread for ever; set_attributes pulls the caller's iterator under the lock. C139_reentry_blocks states when it happens."
  },
  {
   "property": "C140",
   "status": "partial",
   "theorems": [
    "C140_before_the_panic_kept",
    "C140_panic_stays_local_refuted"
   ],
   "note": "Refuted: a panic under the lock poisons the mutex; later calls on the same span, end included, do nothing. What was recorded before the panic is kept (C140_before_the_panic_kept)."
  },
  {
   "property": "C141",
   "status": "proved",
   "theorems": [
    "C141_last_set",
    "C141_no_deadlock"
   ],
   "note": "GDrop is the drop of a handle; the count of owners is part of the state."
  },
  {
   "property": "C142",
   "status": "partial",
   "theorems": [
    "C142_usable_in_callbacks_refuted",
    "C142_kept_provider_not_dropped"
   ],
   "note": "Refuted: set_meter_provider and set_text_map_propagator drop the old value while the write lock is held; a propagator closure that sets a propagator, or reads again while a writer waits, blocks. A provider that someone still owns is not dropped (C142_kept_provider_not_dropped)."
  },
  {
   "property": "C143",
   "status": "proved",
   "theorems": [
    "C143_injected_the_same",
    "C143_baggage_the_same",
    "C143_forwarded"
   ],
   "note": "Uses the W3C trace context and baggage propagators of C09-C12 and C05-C08."
  },
  {
   "property": "C144",
   "status": "partial",
   "theorems": [
    "C144_noop_extract_keeps_context_refuted",
    "C144_current_context_kept"
   ],
   "note": "Refuted for NoopTextMapPropagator, the default global propagator: it returns Context::current() instead of the given context. True when the given context is the current one."
  },
  {
   "property": "C145",
   "status": "proved",
   "theorems": [
    "C145_spans",
    "C145_logs",
    "C145_metrics",
    "C145_gone_after_shutdown"
   ],
   "note": "One call is one critical section; the metric exporter's clone_metrics is modelled field by field over the types of the OTLP model. keep_records_on_shutdown is covered as a parameter."
  },
  {
   "property": "C146",
   "status": "proved",
   "theorems": [
    "C146_own_resource"
   ],
   "note": "Conditional guarantee; the unconditional one is C147."
  },
  {
   "property": "C147",
   "status": "partial",
   "theorems": [
    "C147_shared_exporter_resource_refuted"
   ],
   "note": "Refuted: get_emitted_logs pairs all stored records with the resource set last."
  },
  {
   "property": "C148",
   "status": "proved",
   "theorems": [
    "C148_scrape"
   ],
   "note": "Uses the sample relation of C63; whether a metric is left out is C80."
  },
  {
   "property": "C149",
   "status": "partial",
   "theorems": [
    "C149_scope_attributes_refuted",
    "C149_scope_info_once_refuted"
   ],
   "note": "Refuted: otel_scope_info is emitted because the scope has attributes but carries only name and version, so they are lost and two such scopes repeat a series."
  },
  {
   "property": "C150",
   "status": "proved",
   "theorems": [
    "C150_spans_on_the_wire",
    "C150_spans_under_their_scope",
    "C150_shutdown_sends_the_rest",
    "C150_logs_on_the_wire"
   ],
   "note": "Composition of the batch processor model (BatchModel.v) with the OTLP conversion (OtlpModel.v); the exporter answers, and retries or transport losses are outside the model. Ids are required to differ only among the calls made (an earlier form asked it of an infinite sequence, which ids of 192 bits cannot meet)."
  },
  {
   "property": "C151",
   "status": "proved",
   "theorems": [
    "C151_exported",
    "C151_windows",
    "C151_within_limit",
    "C151_observed",
    "C151_nothing_lost"
   ],
   "note": "Calls do not overlap (C42, C45 have the interleavings); instruments with two streams whose names differ only in case are excepted (C114); start times are C75."
  },
  {
   "property": "C152",
   "status": "partial",
   "theorems": [
    "C152_zero_interval_refuted"
   ],
   "note": "Refuted: OTEL_METRIC_EXPORT_INTERVAL=0 is accepted, and with_interval(0) keeps it; C84_zero_interval proves that this is the only way."
  },
  {
   "property": "C153",
   "status": "proved",
   "theorems": [
    "C153_spans_readable",
    "C153_logs_readable",
    "C153_metrics_readable",
    "C153_buckets",
    "C153_calls",
    "C153_after_shutdown",
    "C153_before_shutdown",
    "C153_returns"
   ],
   "note": "Lines are modelled as their fixed text with the values formatted into them; the text of a value (escaping, newlines inside a name, chrono's format) is not. Not readable by design: trace state, dropped counts, flags of links, exemplars, points of exponential histograms (C154)."
  },
  {
   "property": "C154",
   "status": "partial",
   "theorems": [
    "C154_all_points_printed_refuted"
   ],
   "note": "False: print_info prints only the type of an exponential histogram (metrics/exporter.rs:127-129). All other points are printed (C153_metrics_readable)."
  },
  {
   "property": "C155",
   "status": "proved",
   "theorems": [
    "C155_only_unused_shut_down",
    "C155_unused_shut_down"
   ],
   "note": "Clones are counted, not named; shutting a provider down is assumed to drop no clones itself."
  },
  {
   "property": "C156",
   "status": "proved",
   "theorems": [
    "C156_last_call_wins",
    "C156_any_order",
    "C156_started_span",
    "C156_start_forms"
   ],
   "note": "Every builder call sequence; the started span is described through SpanModel's build_with_context (same model as C25-C29)."
  },
  {
   "property": "C157",
   "status": "partial",
   "theorems": [
    "C157_links_kept_or_counted_refuted",
    "C157_same_as_add_link_refuted",
    "C157_given_counts_kept_refuted",
    "C157_valid_links_kept_or_counted_partial"
   ],
   "note": "Refuted in three ways (links without valid context vanish; differs from add_link; given dropped counts overwritten); with only valid links the first part is proved (_partial)."
  },
  {
   "property": "C158",
   "status": "proved",
   "theorems": [
    "C158_traces_read_back",
    "C158_logs_read_back",
    "C158_metrics_read_back",
    "C158_values_read_back",
    "C158_fields_parsed_back",
    "C158_spans_arrive",
    "C158_batches_arrive",
    "C158_logs_arrive",
    "C158_log_batches_arrive",
    "C158_metrics_arrive",
    "C158_negative_zero_threshold"
   ],
   "note": "The encoder is prost's, modelled from the generated attributes; the reader is an independent specification. A zero threshold of -0.0 is not written (C158_negative_zero_threshold); the SDK always sends 0.0."
  },
  {
   "property": "C159",
   "status": "proved",
   "theorems": [
    "C159_latency_shown",
    "C159_running_shown",
    "C159_error_shown",
    "C159_counts_shown"
   ],
   "note": "Root parents differ from exports (zero bytes against empty), stated in the theorems."
  },
  {
   "property": "C160",
   "status": "proved",
   "theorems": [
    "C160_last_answer_in_force",
    "C160_decisions",
    "C160_limit_over_changes",
    "C160_answers_read",
    "C160_nothing_else_read"
   ],
   "note": "C160_last_answer_in_force, C160_decisions and C160_limit_over_changes by induction over histories; C160_answers_read and C160_nothing_else_read give the documents."
  },
  {
   "property": "C161",
   "status": "partial",
   "theorems": [
    "C161_task_ends_refuted"
   ],
   "note": "Refuted: the task itself holds an Arc of the inner state whose destructor would stop it, so it never ends and keeps sending requests (C161_task_ends_refuted)."
  },
  {
   "property": "C162",
   "status": "partial",
   "theorems": [
    "C162_rate_limiting_refuted",
    "C162_limit_never_applied_refuted",
    "C162_type_left_out_refuted",
    "C162_bound_left_out_refuted"
   ],
   "note": "Refuted: RATE_LIMITING is not understood (the derived name is RATELIMITING), nor answers that leave out the type or a bound. C160_answers_read says which are."
  },
  {
   "property": "C163",
   "status": "proved",
   "theorems": [
    "C163_service_asked_for",
    "C163_address",
    "C163_errors"
   ],
   "note": "C163_service_asked_for, C163_errors; url::Url::parse is a parameter."
  },
  {
   "property": "C164",
   "status": "partial",
   "theorems": [
    "C164_service_in_endpoint_ignored_refuted"
   ],
   "note": "Refuted: the endpoint's service is sent too, and first (C164_service_in_endpoint_ignored_refuted)."
  },
  {
   "property": "C165",
   "status": "proved",
   "theorems": [
    "C165_received",
    "C165_ignored"
   ],
   "note": "Streams of all kinds, with attribute values of decidable equality. Exponential histograms with at least 3 buckets and scales from -10 to 20; at scale 20 measurements are zero or at least 2^-1022 in magnitude (C111 has the failures outside). Integer totals must be in the range of the signed 64-bit field, see C62."
  },
  {
   "property": "C166",
   "status": "proved",
   "theorems": [
    "C166_text_determines_value"
   ],
   "note": ""
  },
  {
   "property": "C167",
   "status": "partial",
   "theorems": [
    "C167_arrays_of_any_strings_refuted"
   ],
   "note": "Refuted: elements are put between quotes without escaping."
  },
  {
   "property": "C168",
   "status": "proved",
   "theorems": [
    "C168_labels_determine_attributes",
    "C168_points_are_series"
   ],
   "note": ""
  },
  {
   "property": "C169",
   "status": "partial",
   "theorems": [
    "C169_types_refuted",
    "C169_keys_refuted"
   ],
   "note": "Refuted by a number and a text that look the same, and by two keys with the same label name; C168 states when series are distinct."
  },
  {
   "property": "C170",
   "status": "proved",
   "theorems": [
    "C170_threaded",
    "C170_first_only",
    "C170_nothing_else",
    "C170_async"
   ],
   "note": "A waiting SetResource message takes no room from the other control messages in the model."
  },
  {
   "property": "C171",
   "status": "partial",
   "theorems": [
    "C171_every_batch_refuted",
    "C171_logs_refuted"
   ],
   "note": "Refuted for spans and for log records: the timer fires, the provider is built and the first record queued, then the thread drains the data channel before it reads the control channel. C170 bounds what can go wrong."
  },
  {
   "property": "C172",
   "status": "proved",
   "theorems": [
    "C172_tracer_providers",
    "C172_logger_providers",
    "C172_last_one_decides"
   ],
   "note": "== of resources distinguishes all values but 0.0 and -0.0."
  },
  {
   "property": "C173",
   "status": "proved",
   "theorems": [
    "C173_one_request",
    "C173_no_common_format",
    "C173_baggage_beside_the_trace",
    "C173_any_number_of_requests",
    "C173_tree_across_services"
   ],
   "note": "C173_one_request: any two lists of propagators with a common format hand on trace id, span id and flags; C173_no_common_format: else nothing arrives; C173_any_number_of_requests and C173_tree_across_services: by induction over requests and trees. Flags 0 or 1 and default Jaeger names; C174 has the counterexample for flags 5."
  },
  {
   "property": "C174",
   "status": "partial",
   "theorems": [
    "C174_debug_trace_cut_refuted"
   ],
   "note": "Refuted: flags 5 (debug and sampled) become 4 through the single B3 header; the receiver's spans are not sampled and not recorded."
  },
  {
   "property": "C175",
   "status": "proved",
   "theorems": [
    "C175_scraped"
   ],
   "note": "C175_scraped: the collection of C151 composed with PromModel.collect; the families shown are a permutation of the info metrics and, per stream, the samples of its attribute sets. Beyond the cardinality limit the points are those of C151_exported. A reader with cumulative temporality, as the exporter's is. Observable: last observation of the collection."
  },
  {
   "property": "C176",
   "status": "partial",
   "theorems": [
    "C176_all_shown_refuted"
   ],
   "note": "Refuted: C176_all_shown_refuted, a measured exponential histogram (selected by a view) is missing from a scrape that succeeds. C175 states when a stream is shown."
  },
  {
   "property": "C177",
   "status": "proved",
   "theorems": [
    "C177_spans_read",
    "C177_handed_over",
    "C177_spans_under_their_tracer",
    "C177_all_read_after_shutdown"
   ],
   "note": "Composition of C25-C28, C156, C150 and C158. An on_start that changes the span and losses in transport are outside; that ids differ is what the id generator is for."
  },
  {
   "property": "C178",
   "status": "proved",
   "theorems": [
    "C178_handed_over",
    "C178_records_read",
    "C178_records_under_their_name",
    "C178_all_read_when_answered",
    "C178_log_crate",
    "C178_tracing_events",
    "C178_log_names_its_span"
   ],
   "note": "Composition of C37, C39, C41, C61, C88, C150 and C158. A processor that changes the record and losses in transport are outside; of the scope only the name is told (C117)."
  }
 ]
}