{
 "claims": [
  {
   "property": "C01",
   "status": "proved",
   "theorems": [
    "C01_priority_roundtrip"
   ],
   "note": ""
  },
  {
   "property": "C02",
   "status": "proved",
   "theorems": [
    "C02_unmarshal_exact"
   ],
   "note": ""
  },
  {
   "property": "C03",
   "status": "proved",
   "theorems": [
    "C03_reencode_refuted",
    "C03_reencode_iff"
   ],
   "note": "exact condition (iff) plus a witness that the unconditional claim is false"
  },
  {
   "property": "C04",
   "status": "proved",
   "theorems": [
    "C04_set_string",
    "C04_string_set"
   ],
   "note": ""
  },
  {
   "property": "C05",
   "status": "proved",
   "theorems": [
    "C05_string_panics_refuted",
    "C05_string_iff",
    "C05_string_rfc_range",
    "C05_string_value"
   ],
   "note": "exact condition (iff) plus a witness that the unconditional claim is false"
  },
  {
   "property": "C06",
   "status": "proved",
   "theorems": [
    "C06_any",
    "C06_partition",
    "C06_compose",
    "C06_constants"
   ],
   "note": ""
  },
  {
   "property": "C07",
   "status": "proved",
   "theorems": [
    "C07_setters",
    "C07_whole_message",
    "C07_sanitise",
    "C07_identity_on_valid",
    "C07_idempotent"
   ],
   "note": ""
  },
  {
   "property": "C08",
   "status": "proved",
   "theorems": [
    "C08_text_trimmed",
    "C08_trimmed_unique",
    "C08_idempotent"
   ],
   "note": ""
  },
  {
   "property": "C09",
   "status": "proved",
   "theorems": [
    "C09_one_field",
    "C09_setters_commute",
    "C09_last_wins",
    "C09_structured_data_accumulates",
    "C09_stored"
   ],
   "note": ""
  },
  {
   "property": "C10",
   "status": "proved",
   "theorems": [
    "C10_header_fields",
    "C10_header_fields_any_machine",
    "C10_other_fields",
    "C10_header_refuted"
   ],
   "note": "proved under the stated condition on the machine's host name; witness that the unconditional claim is false"
  },
  {
   "property": "C11",
   "status": "proved",
   "theorems": [
    "C11_wire_format"
   ],
   "note": ""
  },
  {
   "property": "C12",
   "status": "proved",
   "theorems": [
    "C12_error_iff",
    "C12_success_iff"
   ],
   "note": ""
  },
  {
   "property": "C13",
   "status": "proved",
   "theorems": [
    "C13_parse_recovers_fields",
    "C13_parse_recovers_any_words"
   ],
   "note": ""
  },
  {
   "property": "C14",
   "status": "proved",
   "theorems": [
    "C14_writable_iff",
    "C14_writable_refuted",
    "C14_registered",
    "C14_which"
   ],
   "note": "exact condition (iff) plus a witness"
  },
  {
   "property": "C15",
   "status": "proved",
   "theorems": [
    "C15_text_recovered_iff",
    "C15_text_recovered_refuted"
   ],
   "note": "exact condition (iff) plus a witness"
  },
  {
   "property": "C16",
   "status": "proved",
   "theorems": [
    "C16_paramless_element_rejected",
    "C16_element_parses_iff",
    "C16_zero_timequality_refuted"
   ],
   "note": "exact condition plus a witness"
  },
  {
   "property": "C17",
   "status": "proved",
   "theorems": [
    "C17_parse_total",
    "C17_eof_irrelevant"
   ],
   "note": ""
  },
  {
   "property": "C18",
   "status": "proved",
   "theorems": [
    "C18_accessors_never_panic",
    "C18_zero_message",
    "C18_received",
    "C18_zero_fields"
   ],
   "note": ""
  },
  {
   "property": "C19",
   "status": "proved",
   "theorems": [
    "C19_header_split"
   ],
   "note": ""
  },
  {
   "property": "C20",
   "status": "proved",
   "theorems": [
    "C20_accepted_iff",
    "C20_dropped_byte_refuted"
   ],
   "note": "exact language (iff) plus witnesses of the dropped byte"
  },
  {
   "property": "C21",
   "status": "proved",
   "theorems": [
    "C21_empty_field_rejected",
    "C21_nothing_after_header_rejected",
    "C21_too_few_spaces_rejected"
   ],
   "note": ""
  },
  {
   "property": "C22",
   "status": "proved",
   "theorems": [
    "C22_frames_isolated"
   ],
   "note": ""
  },
  {
   "property": "C23",
   "status": "proved",
   "theorems": [
    "C23_panic_iff",
    "C23_no_panic_refuted"
   ],
   "note": "exact condition (iff) plus witnesses"
  },
  {
   "property": "C24",
   "status": "proved",
   "theorems": [
    "C24_truncated_frame",
    "C24_reported_refuted"
   ],
   "note": "exact case analysis plus witnesses"
  },
  {
   "property": "C25",
   "status": "proved",
   "theorems": [
    "C25_bytes_accounted"
   ],
   "note": ""
  },
  {
   "property": "C26",
   "status": "proved",
   "theorems": [
    "C26_encode_form",
    "C26_encode_strip"
   ],
   "note": ""
  },
  {
   "property": "C27",
   "status": "proved",
   "theorems": [
    "C27_delimited_round_trip",
    "C27_unterminated",
    "C27_streams_injective"
   ],
   "note": ""
  },
  {
   "property": "C28",
   "status": "proved",
   "theorems": [
    "C28_length_header"
   ],
   "note": ""
  },
  {
   "property": "C29",
   "status": "proved",
   "theorems": [
    "C29_delivered_iff",
    "C29_delivered_refuted"
   ],
   "note": "exact condition (iff) plus a witness"
  },
  {
   "property": "C30",
   "status": "proved",
   "theorems": [
    "C30_at_every_moment",
    "C30_reassembly",
    "C30_short_last_frame_refuted"
   ],
   "note": "plus a witness that a last frame below 20 bytes is lost"
  },
  {
   "property": "C31",
   "status": "proved",
   "theorems": [
    "C31_progress",
    "C31_frame_received_iff",
    "C31_bound_exact"
   ],
   "note": "progress for frames up to 500 bytes, exact condition (iff) for a partly received frame, 500 shown to be the exact bound"
  },
  {
   "property": "C32",
   "status": "proved",
   "theorems": [
    "C32_malformed_isolated"
   ],
   "note": ""
  },
  {
   "property": "C33",
   "status": "proved",
   "theorems": [
    "C33_stuck_iff",
    "C33_stuck_silent",
    "C33_not_stuck",
    "C33_junk_glued",
    "C33_malformed_line_refuted"
   ],
   "note": "exact condition (iff), silence, and a witness"
  },
  {
   "property": "C34",
   "status": "proved",
   "theorems": [
    "C34_every_segmentation",
    "C34_crash_iff",
    "C34_messages",
    "C34_one_frame_per_read",
    "C34_structured_data_merged",
    "C34_all_messages_refuted",
    "C34_mixed_iff",
    "C34_mixed_end",
    "C34_mixed_crash"
   ],
   "note": "exact condition (iff) for messages without structured data; aligned reads and merging theorems for the others; witnesses"
  },
  {
   "property": "C35",
   "status": "proved",
   "theorems": [
    "C35_refines",
    "C35_immutable"
   ],
   "note": ""
  },
  {
   "property": "C36",
   "status": "proved",
   "theorems": [
    "C36_accounting",
    "C36_reported_errors",
    "C36_unterminated_line_dropped",
    "C36_bad_header_silent",
    "C36_cut_frame_dropped",
    "C36_reported_refuted"
   ],
   "note": "byte accounting for every transport, exact origin of errors, drop theorems, witnesses"
  },
  {
   "property": "C37",
   "status": "proved",
   "theorems": [
    "C37_returns_iff_eof",
    "C37_error_reads",
    "C37_error_ends_refuted",
    "C37_never_read_again",
    "C37_ended_by_eof",
    "C37_next_turn"
   ],
   "note": "exact condition (iff) plus a witness"
  },
  {
   "property": "C38",
   "status": "proved",
   "theorems": [
    "C38_exact_stream",
    "C38_sizes",
    "C38_progress",
    "C38_receiver_stream"
   ],
   "note": ""
  },
  {
   "property": "C39",
   "status": "proved",
   "theorems": [
    "C39_crash_iff",
    "C39_safe",
    "C39_accept_error_refuted",
    "C39_nil_connection_only_crashes",
    "C39_end_with_open_connection_refuted",
    "C39_peer_refuted",
    "C39_end_waits_for_accept",
    "C39_unixgram_accept",
    "C39_unixgram_end_never_effective",
    "C39_unixgram_no_nil_connection"
   ],
   "note": "Exact characterisation over all executions (C39_crash_iff), safe case (C39_safe), and a witness for each crash cause (_refuted): the naive expectation is false of the code. C39_end_waits_for_accept / C39_unixgram_end_never_effective: End is only noticed between two Accepts."
  },
  {
   "property": "C40",
   "status": "proved",
   "theorems": [
    "C40_in_order",
    "C40_errors_in_order",
    "C40_capacity",
    "C40_receive",
    "C40_no_deadlock",
    "C40_new_receiver"
   ],
   "note": ""
  },
  {
   "property": "C41",
   "status": "proved",
   "theorems": [
    "C41_no_loss",
    "C41_write_each"
   ],
   "note": ""
  },
  {
   "property": "C42",
   "status": "proved",
   "theorems": [
    "C42_flushed",
    "C42_nothing_without_tick",
    "C42_end_waits",
    "C42_end_returns"
   ],
   "note": ""
  },
  {
   "property": "C43",
   "status": "proved",
   "theorems": [
    "C43_crash_iff",
    "C43_safe",
    "C43_idle_refuted",
    "C43_lost_refuted"
   ],
   "note": "The naive claim is false of the code; the statement is the exact characterisation, proved, with the refuting run as a separate theorem (suffix _refuted)."
  },
  {
   "property": "C44",
   "status": "proved",
   "theorems": [
    "C44_whole_frames",
    "C44_position",
    "C44_split_frame_refuted",
    "C44_failure_inside"
   ],
   "note": "The naive claim is false of the code; the statement is the exact characterisation, proved, with the refuting run as a separate theorem (suffix _refuted)."
  },
  {
   "property": "C45",
   "status": "proved",
   "theorems": [
    "C45_errors_in_order",
    "C45_close"
   ],
   "note": ""
  },
  {
   "property": "C46",
   "status": "proved",
   "theorems": [
    "C46_blocked_history",
    "C46_blocked_forever_iff",
    "C46_enabled_iff",
    "C46_refuted"
   ],
   "note": "The naive claim is false of the code; the statement is the exact characterisation, proved, with the refuting run as a separate theorem (suffix _refuted)."
  },
  {
   "property": "C47",
   "status": "proved",
   "theorems": [
    "C47_connections",
    "C47_released_iff",
    "C47_leak_refuted"
   ],
   "note": "The naive claim is false of the code; the statement is the exact characterisation, proved, with the refuting run as a separate theorem (suffix _refuted)."
  },
  {
   "property": "C48",
   "status": "proved",
   "theorems": [
    "C48_after_end",
    "C48_send_after_end_is_lost",
    "C48_second_end_crashes"
   ],
   "note": "The naive claim is false of the code; the statement says what the code does instead."
  },
  {
   "property": "C49",
   "status": "proved",
   "theorems": [
    "C49_send",
    "C49_stream",
    "C49_nil_transport"
   ],
   "note": ""
  },
  {
   "property": "C50",
   "status": "proved",
   "theorems": [
    "C50_new",
    "C50_severity_filter"
   ],
   "note": ""
  },
  {
   "property": "C51",
   "status": "proved",
   "theorems": [
    "C51_null_channel",
    "C51_only_null"
   ],
   "note": ""
  },
  {
   "property": "C52",
   "status": "proved",
   "theorems": [
    "C52_write",
    "C52_log",
    "C52_logger",
    "C52_logger_flags",
    "C52_priority_in_range"
   ],
   "note": "one frame with the context; Log with an element that does not encode is dropped silently, or panics"
  },
  {
   "property": "C53",
   "status": "proved",
   "theorems": [
    "C53_app_name",
    "C53_chain",
    "C53_chain_from_dash"
   ],
   "note": "chain of names, with the treatment of '-' made exact"
  },
  {
   "property": "C54",
   "status": "proved",
   "theorems": [
    "C54_logging_iff",
    "C54_msgid",
    "C54_msgid_then_app_name_refuted"
   ],
   "note": "exact characterisation; the naive claim is refuted by C54_msgid_then_app_name_refuted"
  },
  {
   "property": "C55",
   "status": "proved",
   "theorems": [
    "C55_valid_iff",
    "C55_sub_name_refuted"
   ],
   "note": "exact characterisation; the naive claim is refuted by C55_sub_name_refuted (header forging)"
  },
  {
   "property": "C56",
   "status": "proved",
   "theorems": [
    "C56_test_mode",
    "C56_sub_syslog",
    "C56_repeated"
   ],
   "note": "TestMode, SubSyslog and repeated calls, for every history"
  },
  {
   "property": "C57",
   "status": "proved",
   "theorems": [
    "C57_returned_iff",
    "C57_null_channel_refuted",
    "C57_filler_refuted",
    "C57_settled",
    "C57_never_stuck"
   ],
   "note": "exact characterisation in every interleaving of atomic accesses (sequential consistency); the naive claim is refuted by C57_null_channel_refuted and C57_filler_refuted"
  },
  {
   "property": "C58",
   "status": "proved",
   "theorems": [
    "C58_dial_accepts",
    "C58_dial_options",
    "C58_dial_default",
    "C58_dial_connects",
    "C58_constructors",
    "C58_guess_listener"
   ],
   "note": "Exact characterisation; the naive expectation that Dial reports bad addresses is false (C82_dialled)."
  },
  {
   "property": "C59",
   "status": "proved",
   "theorems": [
    "C59_value_token",
    "C59_value_unique"
   ],
   "note": ""
  },
  {
   "property": "C60",
   "status": "proved",
   "theorems": [
    "C60_name_token",
    "C60_header_token",
    "C60_spaces_token"
   ],
   "note": ""
  },
  {
   "property": "C61",
   "status": "proved",
   "theorems": [
    "C61_unknown_stable",
    "C61_unknown_accepts_iff"
   ],
   "note": ""
  },
  {
   "property": "C62",
   "status": "proved",
   "theorems": [
    "C62_values_confined",
    "C62_struct_values_confined"
   ],
   "note": ""
  },
  {
   "property": "C63",
   "status": "proved",
   "theorems": [
    "C63_map_order_irrelevant",
    "C63_map_keys_sorted"
   ],
   "note": ""
  },
  {
   "property": "C64",
   "status": "proved",
   "theorems": [
    "C64_struct_encoding",
    "C64_unsupported_field"
   ],
   "note": ""
  },
  {
   "property": "C65",
   "status": "proved",
   "theorems": [
    "C65_panics_iff",
    "C65_output_shape",
    "C65_total_refuted"
   ],
   "note": "exact condition (iff) plus a witness that the unconditional claim is false"
  },
  {
   "property": "C66",
   "status": "proved",
   "theorems": [
    "C66_decodes_iff",
    "C66_decoded_valid",
    "C66_encoding",
    "C66_round_trip"
   ],
   "note": ""
  },
  {
   "property": "C67",
   "status": "proved",
   "theorems": [
    "C67_encoding_panics_iff",
    "C67_relay_refuted"
   ],
   "note": "exact condition (iff) plus a witness that the unconditional claim is false"
  },
  {
   "property": "C68",
   "status": "proved",
   "theorems": [
    "C68_timequality_panics_iff",
    "C68_generic_panics_iff",
    "C68_structured_data_panics_iff",
    "C68_structured_data_total",
    "C68_short_element_refuted",
    "C68_other_package",
    "C68_other_package_refuted"
   ],
   "note": "exact condition (iff) plus a witness that the unconditional claim is false"
  },
  {
   "property": "C69",
   "status": "proved",
   "theorems": [
    "C69_register",
    "C69_register_group",
    "C69_first_wins",
    "C69_lookup",
    "C69_order_irrelevant"
   ],
   "note": ""
  },
  {
   "property": "C70",
   "status": "proved",
   "theorems": [
    "C70_list_encoding"
   ],
   "note": ""
  },
  {
   "property": "C71",
   "status": "proved",
   "theorems": [
    "C71_linear_stable",
    "C71_add_effect",
    "C71_siblings_refuted"
   ],
   "note": "exact effect plus a witness that the unconditional claim is false"
  },
  {
   "property": "C72",
   "status": "proved",
   "theorems": [
    "C72_parse_tag",
    "C72_contains",
    "C72_valid_tag"
   ],
   "note": ""
  },
  {
   "property": "C73",
   "status": "proved",
   "theorems": [
    "C73_calendar",
    "C73_timestamp_form",
    "C73_round_trip"
   ],
   "note": ""
  },
  {
   "property": "C74",
   "status": "proved",
   "theorems": [
    "C74_epoch",
    "C74_delta_iff",
    "C74_any_text",
    "C74_zone",
    "C74_delta_refuted"
   ],
   "note": "exact condition (iff) plus a witness"
  },
  {
   "property": "C75",
   "status": "proved",
   "theorems": [
    "C75_timestamp",
    "C75_unparsable"
   ],
   "note": ""
  },
  {
   "property": "C76",
   "status": "proved",
   "theorems": [
    "C76_any_messages",
    "C76_delivery",
    "C76_at_every_moment",
    "C76_progress",
    "C76_reconnections"
   ],
   "note": ""
  },
  {
   "property": "C77",
   "status": "proved",
   "theorems": [
    "C77_encode_effect",
    "C77_encode_harmless",
    "C77_clobber_refuted"
   ],
   "note": "exact effect plus a witness that the unconditional claim is false"
  },
  {
   "property": "C79",
   "status": "proved",
   "theorems": [
    "C79_connect",
    "C79_until_first",
    "C79_sticky",
    "C79_network_kept",
    "C79_unixgram_refuted"
   ],
   "note": "Exact; C79_unixgram_refuted is the witness against the naive reading."
  },
  {
   "property": "C80",
   "status": "proved",
   "theorems": [
    "C80_address",
    "C80_connect",
    "C80_panics_iff"
   ],
   "note": "Exact, for every resolver and dialer; C80_panics_iff is the exact panic condition."
  },
  {
   "property": "C81",
   "status": "proved",
   "theorems": [
    "C81_calls",
    "C81_deterministic",
    "C81_takes_over",
    "C81_unused_refuted"
   ],
   "note": "C81_calls for every environment; C81_takes_over in an explicit file system model; C81_unused_refuted is the witness against the naive reading."
  },
  {
   "property": "C82",
   "status": "proved",
   "theorems": [
    "C82_never_connects",
    "C82_bad_address",
    "C82_dialled",
    "C82_stdio"
   ],
   "note": "For every schedule of the Sender model."
  },
  {
   "property": "C78",
   "status": "proved",
   "theorems": [
    "C78_histories",
    "C78_channels_stay",
    "C78_one_message",
    "C78_frames",
    "C78_logged_unique",
    "C78_fails_iff"
   ],
   "note": ""
  },
  {
   "property": "C83",
   "status": "proved",
   "theorems": [
    "C83_delivery",
    "C83_deliverable"
   ],
   "note": ""
  },
  {
   "property": "C84",
   "status": "proved",
   "theorems": [
    "C84_delivery",
    "C84_crash_iff",
    "C84_at_every_moment",
    "C84_groups",
    "C84_reconnections",
    "C84_progress",
    "C84_every_segmentation_refuted",
    "C84_structured_data",
    "C84_structured_data_iff",
    "C84_structured_data_groups",
    "C84_structured_data_refuted",
    "C84_data_at_every_moment"
   ],
   "note": "exact: delivery or crash, decided by where reads are cut"
  },
  {
   "property": "C85",
   "status": "proved",
   "theorems": [
    "C85_one_frame_per_datagram",
    "C85_refused_frame_blocks",
    "C85_receiver",
    "C85_progress",
    "C85_delivery",
    "C85_many_senders",
    "C85_any_packing",
    "C85_packed_delivery"
   ],
   "note": ""
  },
  {
   "property": "C86",
   "status": "proved",
   "theorems": [
    "C86_linearizable",
    "C86_mutual_exclusion",
    "C86_real_time",
    "C86_no_deadlock",
    "C86_bounded_section",
    "C86_reentrance_deadlocks",
    "C86_own_identifiers_safe",
    "C86_nonvacuous",
    "C86_reentrance_refuted"
   ],
   "note": "linearizability, progress and the exact deadlock cause; re-entrance witness kept as _refuted"
  },
  {
   "property": "C87",
   "status": "proved",
   "theorems": [
    "C87_relay_iff",
    "C87_next_hop",
    "C87_write_to",
    "C87_message_string",
    "C87_nonvacuous",
    "C87_always_refuted"
   ],
   "note": "The naive claim (every received message can be relayed) is false, witness C87_always_refuted; the exact condition is proved."
  },
  {
   "property": "C88",
   "status": "proved",
   "theorems": [
    "C88_timestamp_iff",
    "C88_unambiguous",
    "C88_stamp_iff",
    "C88_rfc5424",
    "C88_rfc5424_only_refuted"
   ],
   "note": "The naive claim (only RFC 5424 timestamps) is false, witness C88_rfc5424_only_refuted; the exact language is proved."
  },
  {
   "property": "C89",
   "status": "proved",
   "theorems": [
    "C89_marshal_sd",
    "C89_list_string",
    "C89_nameless",
    "C89_unmarshal",
    "C89_round_trip_refuted"
   ],
   "note": "The naive claim (UnmarshalSD decodes) is false, witness C89_round_trip_refuted; what it does is proved."
  },
  {
   "property": "C90",
   "status": "proved",
   "theorems": [
    "C90_last_call_wins",
    "C90_structured_data",
    "C90_read_back"
   ],
   "note": ""
  },
  {
   "property": "C91",
   "status": "proved",
   "theorems": [
    "C91_cut_unique",
    "C91_structured_data_iff",
    "C91_default_decoder"
   ],
   "note": ""
  },
  {
   "property": "C92",
   "status": "proved",
   "theorems": [
    "C92_bounded_work",
    "C92_progress",
    "C92_end_terminates"
   ],
   "note": ""
  },
  {
   "property": "C93",
   "status": "proved",
   "theorems": [
    "C93_logs_iff",
    "C93_header",
    "C93_determined"
   ],
   "note": ""
  },
  {
   "property": "C94",
   "status": "proved",
   "theorems": [
    "C94_bounded_work",
    "C94_at_rest",
    "C94_delivered",
    "C94_unread_errors_block"
   ],
   "note": ""
  },
  {
   "property": "C95",
   "status": "proved",
   "theorems": [
    "C95_atomic",
    "C95_no_loss",
    "C95_each_send_once",
    "C95_race_iff",
    "C95_no_race_before_end",
    "C95_accesses",
    "C95_accesses_needed",
    "C95_complete",
    "C95_waiting",
    "C95_end_race_refuted"
   ],
   "note": "C95_end_race_refuted shows the race with End (connector.go:112 reads the queue without the lock); C95_race_iff says exactly when, C95_no_race_before_end that it needs End"
  },
  {
   "property": "C96",
   "status": "proved",
   "theorems": [
    "C96_valid_timequality_iff",
    "C96_valid_round_trip",
    "C96_invalid_unmarshal_timequality_iff",
    "C96_invalid_marshal_timequality_iff",
    "C96_generic_never_valid",
    "C96_generic_outcome",
    "C96_test_generic_iff",
    "C96_test_generic_timequality_iff",
    "C96_generic_invalid_marshal_iff",
    "C96_valid_unknown_iff",
    "C96_empty_text_panics"
   ],
   "note": ""
  },
  {
   "property": "C97",
   "status": "proved",
   "theorems": [
    "C97_delivery",
    "C97_lines",
    "C97_log_then_end"
   ],
   "note": ""
  },
  {
   "property": "C98",
   "status": "proved",
   "theorems": [
    "C98_one_tick",
    "C98_at_rest",
    "C98_tick_flushes"
   ],
   "note": ""
  },
  {
   "property": "C99",
   "status": "proved",
   "theorems": [
    "C99_which_error",
    "C99_one_error",
    "C99_delimited",
    "C99_frame",
    "C99_nonvacuous"
   ],
   "note": ""
  },
  {
   "property": "C100",
   "status": "proved",
   "theorems": [
    "C100_printable",
    "C100_one_line",
    "C100_faithful",
    "C100_tells_apart",
    "C100_parse",
    "C100_nonvacuous"
   ],
   "note": ""
  },
  {
   "property": "C101",
   "status": "proved",
   "theorems": [
    "C101_bounded_work",
    "C101_at_rest",
    "C101_one_tick",
    "C101_tick_flushes",
    "C101_end_terminates",
    "C101_nonvacuous"
   ],
   "note": ""
  },
  {
   "property": "C102",
   "status": "proved",
   "theorems": [
    "C102_any_priority",
    "C102_survives_iff",
    "C102_message",
    "C102_message_iff",
    "C102_rest_unchanged"
   ],
   "note": ""
  },
  {
   "property": "C103",
   "status": "proved",
   "theorems": [
    "C103_one_for_many",
    "C103_determined_iff",
    "C103_rfc5425_determined",
    "C103_forgery",
    "C103_forged_delivery",
    "C103_where"
   ],
   "note": ""
  },
  {
   "property": "C104",
   "status": "proved",
   "theorems": [
    "C104_memory",
    "C104_disjoint",
    "C104_longest"
   ],
   "note": ""
  },
  {
   "property": "C105",
   "status": "proved",
   "theorems": [
    "C105_encoded_timequality",
    "C105_encoded_generic",
    "C105_decoded",
    "C105_unknown_refuted",
    "C105_default",
    "C105_iana",
    "C105_enterprise",
    "C105_generic_identity",
    "C105_options",
    "C105_registrable",
    "C105_registered",
    "C105_registry_ambiguity"
   ],
   "note": "an unknown element does not report its own identifier: witness theorem C105_unknown_refuted"
  },
  {
   "property": "C106",
   "status": "proved",
   "theorems": [
    "C106_messages",
    "C106_delivery",
    "C106_lines",
    "C106_log_then_end",
    "C106_deliverable"
   ],
   "note": ""
  },
  {
   "property": "C107",
   "status": "proved",
   "theorems": [
    "C107_time_iff",
    "C107_priority_iff",
    "C107_message_iff",
    "C107_timequality",
    "C107_unknown_iff",
    "C107_map_iff",
    "C107_struct_iff",
    "C107_built",
    "C107_elements_refuted",
    "C107_message_refuted",
    "C107_program"
   ],
   "note": "The README's unconditional claim is refuted (C107_elements_refuted, C107_message_refuted); the exact conditions are proved."
  },
  {
   "property": "C108",
   "status": "proved",
   "theorems": [
    "C108_parts",
    "C108_parts_unique",
    "C108_header",
    "C108_read_right_iff",
    "C108_every_message_refuted"
   ],
   "note": "C108_every_message_refuted is the refutation, with witnesses, of 'every message of the grammar is read right'; C108_read_right_iff gives the exact condition"
  },
  {
   "property": "C109",
   "status": "proved",
   "theorems": [
    "C109_builtin",
    "C109_builtin_receiver",
    "C109_reassembly",
    "C109_end_to_end",
    "C109_suffix",
    "C109_suffix_no_text",
    "C109_not_consuming",
    "C109_kept",
    "C109_longer_rest",
    "C109_rfc5425",
    "C109_two_bytes"
   ],
   "note": ""
  },
  {
   "property": "C110",
   "status": "proved",
   "theorems": [
    "C110_contract_sound",
    "C110_contract_complete",
    "C110_no_loss",
    "C110_errors",
    "C110_conn_and_error",
    "C110_neither",
    "C110_crash_iff",
    "C110_write_effect",
    "C110_count",
    "C110_short_refuted",
    "C110_zero_writer"
   ],
   "note": "C110_short_refuted: the expectation that short writes without error still transmit the same bytes is false; the property states the exact count."
  },
  {
   "property": "C111",
   "status": "proved",
   "theorems": [
    "C111_turn",
    "C111_slice",
    "C111_immutable",
    "C111_contract",
    "C111_provenance",
    "C111_only_new_bytes_refuted"
   ],
   "note": "exact for every Read, plus a witness that the expectation about stale bytes is false"
  },
  {
   "property": "C112",
   "status": "proved",
   "theorems": [
    "C112_call_of_message",
    "C112_foreign",
    "C112_generic_field",
    "C112_generic_root",
    "C112_generic_map",
    "C112_before_the_lock",
    "C112_same_sender",
    "C112_held_iff",
    "C112_held_for_ever",
    "C112_end_never_returns",
    "C112_end_with_empty_queue",
    "C112_recovered_is_harmless_refuted"
   ],
   "note": "the witness C112_recovered_is_harmless_refuted shows that recovering the panic is not enough: the lock stays held"
  },
  {
   "property": "C113",
   "status": "proved",
   "theorems": [
    "C113_each_is_a_sender",
    "C113_closed_iff",
    "C113_never_written_again",
    "C113_each_attempt_reports",
    "C113_end_never_returns",
    "C113_reports_for_ever",
    "C113_empty_queue_ends",
    "C113_refuted"
   ],
   "note": "The expectation that the End of one Sender on stderr: or stdout: does not harm another is refuted (C113_refuted): the Close of the first closes the file of the process for all."
  },
  {
   "property": "C114",
   "status": "proved",
   "theorems": [
    "C114_is_a_sender",
    "C114_latency",
    "C114_latency_ending",
    "C114_no_ticker",
    "C114_end",
    "C114_dial",
    "C114_latency_exact",
    "C114_fast_ticker"
   ],
   "note": ""
  },
  {
   "property": "C115",
   "status": "proved",
   "theorems": [
    "C115_at_every_moment",
    "C115_delivery",
    "C115_lines_at_every_moment",
    "C115_lines_delivery",
    "C115_programs",
    "C115_exactly_once",
    "C115_order_refuted",
    "C115_data_at_every_moment",
    "C115_data_delivery",
    "C115_no_duplicate"
   ],
   "note": "exactly the delivery; the order across a reconnection is refuted"
  },
  {
   "property": "C116",
   "status": "proved",
   "theorems": [
    "C116_tree",
    "C116_chain",
    "C116_at_every_moment",
    "C116_so_far"
   ],
   "note": ""
  },
  {
   "property": "C117",
   "status": "proved",
   "theorems": [
    "C117_entries",
    "C117_buffer",
    "C117_text"
   ],
   "note": ""
  },
  {
   "property": "C118",
   "status": "proved",
   "theorems": [
    "C118_given",
    "C118_guess",
    "C118_others",
    "C118_local_never_connects"
   ],
   "note": ""
  }
 ]
}