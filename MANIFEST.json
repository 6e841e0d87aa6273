{
 "claims": [
  {
   "property": "C01",
   "status": "proved",
   "theorems": [
    "C01_rejected_has_no_effect",
    "C01_accepted_delivers_to_all",
    "C01_handlers_see_active_records",
    "C01_builder_order"
   ],
   "note": ""
  },
  {
   "property": "C02",
   "status": "proved",
   "theorems": [
    "C02_filter_throws",
    "C02_supplier_throws",
    "C02_only_filter_and_supplier_escape",
    "C02_diagnostic_follows_handler",
    "C01_accepted_delivers_to_all"
   ],
   "note": ""
  },
  {
   "property": "C03",
   "status": "proved",
   "theorems": [
    "C03_attribute_order",
    "C03_plain_log",
    "C03_lookup_first",
    "C03_lookup_complete",
    "C04_scopes_follow_stacks"
   ],
   "note": ""
  },
  {
   "property": "C04",
   "status": "proved",
   "theorems": [
    "C04_scopes_follow_stacks",
    "C04_close_not_newest_undefined",
    "C04_close_on_other_thread_undefined"
   ],
   "note": ""
  },
  {
   "property": "C05",
   "status": "partial",
   "theorems": [
    "C05_move_construct_keeps_scopes",
    "C05_move_assign_keeps_scopes",
    "C04_scopes_follow_stacks",
    "C05_assign_over_open_scope_refuted",
    "C05_moved_from_logger_dangles_refuted",
    "C05_other_threads_scopes_stay_refuted"
   ],
   "note": "Proved for the moving thread when it has no scope open on the destination; assignment over an open scope, use of the moved-from logger and other threads' scopes are refuted."
  },
  {
   "property": "C06",
   "status": "partial",
   "theorems": [
    "C06_apart",
    "C06_assignment_lost_refuted",
    "C06_assignments_kept_partial",
    "C06_filter_replacement_partial",
    "C06_log_uses_consistent_pair"
   ],
   "note": "Refuted: filter() can undo a concurrent assignment. Proved whenever no assignment is completed during a call of filter on the same logger."
  },
  {
   "property": "C07",
   "status": "partial",
   "theorems": [
    "C07_snapshot_observed",
    "C07_moved_from_undefined",
    "C07_lwp_refuted"
   ],
   "note": "Proved for every field that is stored; refuted for the light-weight process id, which is asked from the OS by the reading thread."
  },
  {
   "property": "C08",
   "status": "proved",
   "theorems": [
    "C08_delivery_order",
    "C08_producer_order",
    "C08_capacity"
   ],
   "note": ""
  },
  {
   "property": "C09",
   "status": "partial",
   "theorems": [
    "C09_lost_record_refuted",
    "C09_delivered_before_last_attempt_partial",
    "C11_shutdown_terminates"
   ],
   "note": "Refuted: a record accepted between the worker's last failed dequeue and the start of the destructor is lost. What is delivered is characterised."
  },
  {
   "property": "C10",
   "status": "proved",
   "theorems": [
    "C10_emit_shape",
    "C10_drop_never_blocks",
    "C10_wait_progress"
   ],
   "note": ""
  },
  {
   "property": "C11",
   "status": "proved",
   "theorems": [
    "C11_shutdown_terminates"
   ],
   "note": "For a wrapped sink that does not throw (see C52)."
  },
  {
   "property": "C12",
   "status": "partial",
   "theorems": [
    "C12_builder_factor",
    "C12_config_options",
    "C12_builder_drop_refuted",
    "C12_small_factor_refuted",
    "C12_missing_option_refuted"
   ],
   "note": "Refuted for the builder's drop policy, for the documented factors 0 and 1 and for absent options; the rest is proved."
  },
  {
   "property": "C13",
   "status": "proved",
   "theorems": [
    "C13_repeat_flush_exact",
    "C13_repeat_unflushed_bound"
   ],
   "note": ""
  },
  {
   "property": "C14",
   "status": "partial",
   "theorems": [
    "C14_bytes_flush_exact",
    "C14_bytes_unflushed_bound",
    "C14_bytes_unflushed_overflow_refuted"
   ],
   "note": "Holds when no size+threshold exceeds 2^64; beyond that the sum wraps and the bound is refuted."
  },
  {
   "property": "C15",
   "status": "partial",
   "theorems": [
    "C15_parse_value",
    "C15_parse_sound",
    "C15_parse_reject",
    "C15_numeral_unique",
    "C15_parse_wraps_refuted"
   ],
   "note": "Proved for products below 2^64; larger products wrap silently (refuted)."
  },
  {
   "property": "C16",
   "status": "partial",
   "theorems": [
    "C16_whole_lines",
    "C16_lines_in_order",
    "C16_rotation_race_refuted",
    "C16_other_device_refuted"
   ],
   "note": "Every record goes wholly and in order to exactly one file under any interference; the right file is proved when others act between emits on one file system. Refuted for a rename between open and stat, and for an equal inode number on another device."
  },
  {
   "property": "C17",
   "status": "proved",
   "theorems": [
    "C16_lines_in_order",
    "C17_crash_records",
    "C17_crash_bytes"
   ],
   "note": "For histories without I/O failures; the byte policy needs record size + threshold <= 2^64 (see C14)."
  },
  {
   "property": "C18",
   "status": "proved",
   "theorems": [
    "C18_one_write",
    "C18_delivered",
    "C18_no_reuse_after_failure",
    "C18_opened_before_use",
    "C18_endpoint_order",
    "C18_stream_of_records"
   ],
   "note": "Exceptions other than network errors (memory exhaustion) are not modelled."
  },
  {
   "property": "C19",
   "status": "partial",
   "theorems": [
    "C19_port_kept",
    "C19_port_truncated_refuted"
   ],
   "note": "Proved below 65536; refuted above (truncated modulo 65536)."
  },
  {
   "property": "C20",
   "status": "proved",
   "theorems": [
    "C20_denied",
    "C20_plain_line",
    "C20_coloured_line",
    "C20_whole_lines",
    "C20_thread_order",
    "C20_no_deadlock"
   ],
   "note": "Stream errors and colour functions that throw or log are not modelled."
  },
  {
   "property": "C21",
   "status": "proved",
   "theorems": [
    "C21_last_call_wins"
   ],
   "note": ""
  },
  {
   "property": "C22",
   "status": "partial",
   "theorems": [
    "C22_configured",
    "C22_default",
    "C22_config_kept",
    "C22_config_truncated_refuted"
   ],
   "note": "Proved for lists set through the API and for configured values in the range of int; refuted for larger configured values."
  },
  {
   "property": "C23",
   "status": "proved",
   "theorems": [
    "C23_exact",
    "C23_monotone"
   ],
   "note": ""
  },
  {
   "property": "C24",
   "status": "partial",
   "theorems": [
    "C24_handle",
    "C24_failing_sink_refuted"
   ],
   "note": "All clauses but the last proved; refuted: a throwing sink keeps the following sinks from the record."
  },
  {
   "property": "C25",
   "status": "proved",
   "theorems": [
    "C25_value_safe",
    "C25_value_round_trip",
    "C25_value_injective"
   ],
   "note": ""
  },
  {
   "property": "C26",
   "status": "partial",
   "theorems": [
    "C26_key_injective",
    "C26_key_read_back",
    "C26_key_bytes",
    "C26_key_ending_in_backslash_refuted",
    "C26_field_ambiguous_refuted",
    "C26_key_line_safe_refuted"
   ],
   "note": "Injectivity proved; the separator is found for keys not ending in a backslash and refuted for all others; tab and newline pass through (refuted)."
  },
  {
   "property": "C27",
   "status": "partial",
   "theorems": [
    "C27_parse_back",
    "C27_builder",
    "C27_one_line",
    "C27_constant_injection_refuted"
   ],
   "note": "Proved when keys have no tab and do not end in a backslash and constants have no tab or backslash; refuted for other constants."
  },
  {
   "property": "C28",
   "status": "partial",
   "theorems": [
    "C28_removed_or_renamed_absent",
    "C28_tid_always_refuted",
    "C27_parse_back"
   ],
   "note": "Proved for every field but the thread id, for which it is refuted."
  },
  {
   "property": "C29",
   "status": "partial",
   "theorems": [
    "C29_fields_placed",
    "C29_reported_exists",
    "C29_one_route",
    "C29_field_replaced_refuted",
    "C29_route_to_field_refuted",
    "C29_array_padding_refuted"
   ],
   "note": "Proved for routes in which no field stands in the way and no token after the first is a number; refuted otherwise (field replaced, undefined behaviour, arrays padded with nulls)."
  },
  {
   "property": "C30",
   "status": "partial",
   "theorems": [
    "C30_unique_keeps_first",
    "C30_distinct_keys",
    "C30_builtin_name_refuted",
    "C30_renamed_refuted"
   ],
   "note": "First value per attribute name proved; distinct keys proved when no two fields have the same place, refuted for attributes called like built-in fields or renamed to one key."
  },
  {
   "property": "C31",
   "status": "proved",
   "theorems": [
    "C31_escaped_text"
   ],
   "note": ""
  },
  {
   "property": "C32",
   "status": "partial",
   "theorems": [
    "C32_ends",
    "C32_error_position",
    "C32_stays_broken",
    "C32_stays_ended",
    "C32_goes_on_refuted",
    "C32_assertion_refuted",
    "C32_undefined_refuted"
   ],
   "note": "Termination, positions and the broken state proved; refuted for exceptions thrown for the specification of {...} (the parser goes on), for an assertion failure and for bytes of 128 and more in a name."
  },
  {
   "property": "C33",
   "status": "partial",
   "theorems": [
    "C33_every_pattern",
    "C33_meaning",
    "C33_unclosed_accepted_refuted"
   ],
   "note": "Exact result for every byte string proved; refuted: a pattern ending in an opening brace or inside a specification is accepted."
  },
  {
   "property": "C34",
   "status": "partial",
   "theorems": [
    "C34_output",
    "C34_missing",
    "C34_default_kind_refuted",
    "C34_default_alone_refuted"
   ],
   "note": "Concatenation and missing attributes proved for every pattern and suiting record; refuted for defaults that read as integers with type `s` and for a default without a specification."
  },
  {
   "property": "C35",
   "status": "proved",
   "theorems": [
    "C35_every_attribute",
    "C35_custom"
   ],
   "note": ""
  },
  {
   "property": "C36",
   "status": "partial",
   "theorems": [
    "C36_string",
    "C36_cut_refuted",
    "C36_beyond_refuted",
    "C36_overrun_refuted",
    "C36_null_refuted"
   ],
   "note": "Proved for NUL-free bytes followed by a NUL; refuted for all other views."
  },
  {
   "property": "C37",
   "status": "proved",
   "theorems": [
    "C37_gmtime_civil",
    "C37_gmtime_posix_round_trip",
    "C37_gmtime_injective",
    "C37_civil_day_valid",
    "C37_gmtime_year_overflow_refuted"
   ],
   "note": "Proved up to 67768036191676800 (the last year tm_year can hold), which covers [0, 2^55); beyond it tm_year overflows (refuted)."
  },
  {
   "property": "C38",
   "status": "partial",
   "theorems": [
    "C38_gmtime_negative_refuted",
    "C38_gmtime_negative_always_wrong"
   ],
   "note": "Refuted: every negative time_t is converted wrongly."
  },
  {
   "property": "C39",
   "status": "partial",
   "theorems": [
    "C39_localtime_offset_only_utc",
    "C39_localtime_wall_clock_only_standard",
    "C39_localtime_offset_refuted"
   ],
   "note": "Refuted: holds exactly when timezone = 0 (sign of tm_gmtoff) and no daylight saving is in force."
  },
  {
   "property": "C40",
   "status": "partial",
   "theorems": [
    "C40_pattern",
    "C40_epoch_zone",
    "C40_escaped_refuted",
    "C40_long_refuted",
    "C40_epoch_refuted"
   ],
   "note": "Proved for patterns without %%f and %%s whose pieces fit into 1023 bytes; refuted otherwise; %s of UTC time stamps refuted outside Greenwich."
  },
  {
   "property": "C41",
   "status": "partial",
   "theorems": [
    "C41_six_digits",
    "C41_range",
    "C41_negative_refuted"
   ],
   "note": "Proved for times since the epoch; refuted before it."
  },
  {
   "property": "C42",
   "status": "partial",
   "theorems": [
    "C42_found",
    "C42_convert",
    "C42_each",
    "C42_each_map",
    "C42_same_place_refuted",
    "C42_root_place_refuted",
    "C42_nul_value_refuted",
    "C42_nul_key_refuted",
    "C42_nul_other_refuted"
   ],
   "note": "Proved for names and texts without NUL; refuted: texts and names with a NUL are cut silently, and errors of different places can name the same path."
  },
  {
   "property": "C43",
   "status": "partial",
   "theorems": [
    "C43_lookup",
    "C43_unknown",
    "C43_configured",
    "C43_all_components_refuted"
   ],
   "note": "Proved; the documented completeness of registry::configured is refuted (no `dev` handler)."
  },
  {
   "property": "C44",
   "status": "partial",
   "theorems": [
    "C44_handlers",
    "C44_first_error",
    "C44_not_a_list",
    "C44_not_configured",
    "C44_not_configured_refuted"
   ],
   "note": "Handlers and errors proved; refuted for a logger name that is not configured."
  },
  {
   "property": "C45",
   "status": "proved",
   "theorems": [
    "C45_integers",
    "C45_get",
    "C45_own_view",
    "C45_view_own"
   ],
   "note": ""
  },
  {
   "property": "C46",
   "status": "partial",
   "theorems": [
    "C46_content",
    "C46_equivalence",
    "C46_nan_refuted",
    "C46_zero_refuted"
   ],
   "note": "Symmetric, transitive, one kind only; reflexivity refuted exactly for NaN."
  },
  {
   "property": "C47",
   "status": "proved",
   "theorems": [
    "C47_index",
    "C47_substr",
    "C47_equal",
    "C47_order",
    "C47_string"
   ],
   "note": ""
  },
  {
   "property": "C48",
   "status": "partial",
   "theorems": [
    "C48_only_those",
    "C48_same_partial",
    "C48_promoted_refuted",
    "C48_null_refuted",
    "C48_nul_refuted"
   ],
   "note": "Proved for every accepted pattern without NUL and every value of the types written alike; refuted for bool, signed/unsigned char, empty references, null pointers and patterns with NUL."
  },
  {
   "property": "C49",
   "status": "partial",
   "theorems": [
    "C49_named",
    "C49_above",
    "C49_number",
    "C49_json",
    "C49_negative_refuted",
    "C49_unnamed_text_refuted"
   ],
   "note": "Proved for JSON, for named severities and those above the names; refuted for negative severities in the string formatter."
  },
  {
   "property": "C50",
   "status": "proved",
   "theorems": [
    "C50_integers",
    "C50_plain",
    "C50_one_numeral",
    "C50_other_types"
   ],
   "note": ""
  },
  {
   "property": "C51",
   "status": "partial",
   "theorems": [
    "C51_pack_after_call",
    "C51_pack_unchanged_refuted"
   ],
   "note": "Refuted: the pack accumulates the wrappers' and scopes' lists; exact final contents proved."
  },
  {
   "property": "C52",
   "status": "partial",
   "theorems": [
    "C52_exception_hidden_refuted"
   ],
   "note": "Refuted: the exception terminates the process."
  },
  {
   "property": "C53",
   "status": "partial",
   "theorems": [
    "C53_recovers_after_failure_refuted",
    "C53_failed_stays_failed"
   ],
   "note": "Refuted: the stream's bad bit is never cleared."
  },
  {
   "property": "C54",
   "status": "partial",
   "theorems": [
    "C54_text_kept",
    "C54_text_cut",
    "C54_text_long_undefined",
    "C54_text_refuted"
   ],
   "note": "Refuted for texts with a NUL byte (cut) and of 2 GiB and more (undefined)."
  },
  {
   "property": "C55",
   "status": "partial",
   "theorems": [
    "C55_two_mutexes_refuted",
    "C20_whole_lines"
   ],
   "note": "Refuted: each component has its own mutex."
  },
  {
   "property": "C56",
   "status": "proved",
   "theorems": [
    "C56_one_line",
    "C56_reads_back"
   ],
   "note": "For finite doubles; the writer is RapidJSON 1.1's, which is not in the repository."
  },
  {
   "property": "C57",
   "status": "partial",
   "theorems": [
    "C57_type_letter",
    "C57_timestamp",
    "C57_defaults",
    "C57_brace_in_time_refuted"
   ],
   "note": "Proved for specifications without braces; refuted for time specifications with a closing brace."
  },
  {
   "property": "C58",
   "status": "partial",
   "theorems": [
    "C58_pattern",
    "C58_pattern_separator",
    "C58_separator",
    "C58_separator_first_refuted",
    "C58_unbalanced_brace_refuted",
    "C58_separator_braces_refuted",
    "C58_readme_example_refuted"
   ],
   "note": "Pattern, separator and pattern+separator proved; refuted for separator+pattern, unbalanced or doubled braces and the README's example."
  },
  {
   "property": "C59",
   "status": "partial",
   "theorems": [
    "C59_in_order",
    "C59_missing_argument",
    "C59_empty_specification_refuted"
   ],
   "note": "Proved for every non-empty specification; refuted for an empty specification `{:}`."
  },
  {
   "property": "C60",
   "status": "partial",
   "theorems": [
    "C60_view",
    "C60_c_string",
    "C60_empty_view_refuted"
   ],
   "note": "Proved for non-empty views and C strings; refuted for empty views."
  },
  {
   "property": "C61",
   "status": "partial",
   "theorems": [
    "C61_any_width",
    "C61_too_big_partial",
    "C61_wrapped_refuted"
   ],
   "note": "Proved below 2^32 and for wider numbers whose first wrapping is noticed; what is not refused is taken modulo 2^32 (exact); refuted for 10000000000."
  },
  {
   "property": "C62",
   "status": "proved",
   "theorems": [
    "C62_library",
    "C62_formatter"
   ],
   "note": "For valid pointers as defined by valid_arg and valid_record."
  },
  {
   "property": "C63",
   "status": "partial",
   "theorems": [
    "C63_process",
    "C63_process_name",
    "C63_thread",
    "C63_thread_name",
    "C63_severity_number",
    "C63_severity_user",
    "C63_microseconds",
    "C63_time_pattern",
    "C63_time_default",
    "C63_message",
    "C63_severity_refuted",
    "C63_thread_hex_refuted",
    "C63_unnamed_refuted",
    "C63_reverse_refuted",
    "C63_empty_message_refuted"
   ],
   "note": "Ten rows proved; refuted: {severity}, {thread::x}, the name of unnamed threads, the order of {...}, empty messages."
  },
  {
   "property": "C64",
   "status": "proved",
   "theorems": [
    "C64_text",
    "C64_order",
    "C64_formatter"
   ],
   "note": ""
  },
  {
   "property": "C65",
   "status": "partial",
   "theorems": [
    "C65_defined",
    "C65_others_defined",
    "C65_zone_refuted"
   ],
   "note": "Refuted for %z and %Z in UTC time stamps of the string formatter."
  },
  {
   "property": "C66",
   "status": "partial",
   "theorems": [
    "C66_same",
    "C66_negative_refuted"
   ],
   "note": "Proved without z and Z in the pattern; refuted before the epoch."
  },
  {
   "property": "C67",
   "status": "partial",
   "theorems": [
    "C67_ascii",
    "C67_high_refuted"
   ],
   "note": "Refuted for bytes of 128 and more."
  },
  {
   "property": "C68",
   "status": "partial",
   "theorems": [
    "C68_literal",
    "C68_buffer_refuted"
   ],
   "note": "Refuted for buffers."
  },
  {
   "property": "C69",
   "status": "partial",
   "theorems": [
    "C69_text",
    "C69_pointer_refuted",
    "C69_buffer_refuted"
   ],
   "note": "Refuted for pointers to characters and for buffers."
  },
  {
   "property": "C70",
   "status": "partial",
   "theorems": [
    "C70_accepts",
    "C70_matching_partial",
    "C70_braces_refuted",
    "C70_braces_never"
   ],
   "note": "What compiles is characterised exactly; with one argument per placeholder a pattern compiles iff it has no braces in its text: refuted for all others."
  },
  {
   "property": "C71",
   "status": "partial",
   "theorems": [
    "C71_size_ignored",
    "C71_text_partial",
    "C71_no_arguments",
    "C71_view_refuted"
   ],
   "note": "Proved for NUL-terminated patterns without NUL and for calls without arguments; refuted for views into longer text and patterns with NUL."
  },
  {
   "property": "C72",
   "status": "partial",
   "theorems": [
    "C72_pattern_partial",
    "C72_precompiled_refuted",
    "C72_precompiled_empty"
   ],
   "note": "Proved for patterns formatted at run time; refuted for precompiled ones."
  },
  {
   "property": "C73",
   "status": "proved",
   "theorems": [
    "C73_sinks"
   ],
   "note": "All sinks, any nesting, any document without NUL in its texts."
  },
  {
   "property": "C74",
   "status": "partial",
   "theorems": [
    "C74_formatters",
    "C74_route_refuted"
   ],
   "note": "Proved for the options the code reads; the documented option `route` is refuted (the code reads `routing`)."
  },
  {
   "property": "C75",
   "status": "partial",
   "theorems": [
    "C75_logger",
    "C75_no_sinks_refuted"
   ],
   "note": "The whole logger is proved; refuted for handlers without sinks, which are made silently."
  },
  {
   "property": "C76",
   "status": "partial",
   "theorems": [
    "C76_required",
    "C76_sink_type",
    "C76_formatter_type",
    "C76_threshold",
    "C76_factor_refuted",
    "C76_overflow_refuted",
    "C76_pattern_refuted",
    "C76_priorities_refuted"
   ],
   "note": "Proved for most options; refuted for factor, overflow and pattern (undefined behaviour) and for the priorities of syslog."
  },
  {
   "property": "C77",
   "status": "partial",
   "theorems": [
    "C77_sinks",
    "C77_formatters",
    "C77_unknown",
    "C77_flush_refuted",
    "C77_rotate_refuted",
    "C77_filter_refuted",
    "C77_other_filter_refuted",
    "C77_port_refuted",
    "C77_priority_refuted",
    "C77_routing_refuted",
    "C77_mutate_refuted"
   ],
   "note": "Proved for the options listed in FactoriesSpec; refuted for eight options that are passed over or cut."
  },
  {
   "property": "C78",
   "status": "partial",
   "theorems": [
    "C78_text",
    "C78_flags_refuted",
    "C78_negative_refuted"
   ],
   "note": "Proved for times since 1970 on a stream in its initial state; refuted before 1970 and for changed stream flags."
  },
  {
   "property": "C79",
   "status": "partial",
   "theorems": [
    "C79_terminal",
    "C79_characters",
    "C79_bright_refuted",
    "C79_escape_refuted"
   ],
   "note": "Style of every character proved for texts without ESC; refuted: letters are not in the plain colour, control sequences in messages pass."
  },
  {
   "property": "C80",
   "status": "partial",
   "theorems": [
    "C80_read_back",
    "C80_forged_refuted",
    "C80_cut_refuted"
   ],
   "note": "Proved for texts without line breaks and names up to sixteen bytes; refuted for others."
  },
  {
   "property": "C81",
   "status": "partial",
   "theorems": [
    "C81_normal",
    "C81_throws",
    "C81_unfinished_refuted",
    "C81_reentrant_refuted"
   ],
   "note": "The ending is characterised; refuted for function values that throw or log."
  },
  {
   "property": "C82",
   "status": "partial",
   "theorems": [
    "C82_pattern",
    "C82_moved",
    "C82_percent_refuted",
    "C82_unknown_refuted"
   ],
   "note": "Proved for patterns without `%%` or unknown directives behind a character; the order is refuted for those."
  },
  {
   "property": "C83",
   "status": "partial",
   "theorems": [
    "C83_same",
    "C83_standard_refuted",
    "C83_year_refuted"
   ],
   "note": "Proved for fifteen directives; refuted for %c and for years before 1000."
  },
  {
   "property": "C84",
   "status": "partial",
   "theorems": [
    "C84_stamp",
    "C84_before_refuted",
    "C84_year_refuted"
   ],
   "note": "Proved for times from 1970 on; refuted before."
  },
  {
   "property": "C85",
   "status": "proved",
   "theorems": [
    "C85_contents",
    "C85_defined",
    "C85_memory",
    "C85_thrown",
    "C85_c_str"
   ],
   "note": "All sequences of operations whose sources are outside of the buffer."
  },
  {
   "property": "C86",
   "status": "partial",
   "theorems": [
    "C86_own_part",
    "C86_own_part_refuted"
   ],
   "note": "Proved for inline buffers and buffers with room; refuted for heap buffers that grow."
  },
  {
   "property": "C87",
   "status": "partial",
   "theorems": [
    "C87_construct",
    "C87_assign",
    "C87_left_refuted"
   ],
   "note": "Proved for the target; refuted for the source of a heap buffer."
  },
  {
   "property": "C88",
   "status": "proved",
   "theorems": [
    "C88_fits",
    "C88_contents"
   ],
   "note": "All sizes below 2^63 and all sequences."
  },
  {
   "property": "C89",
   "status": "proved",
   "theorems": [
    "C89_unsigned",
    "C89_signed",
    "C89_decimal"
   ],
   "note": "All 32- and 64-bit values."
  },
  {
   "property": "C90",
   "status": "proved",
   "theorems": [
    "C90_description",
    "C90_reported",
    "C90_any_answer"
   ],
   "note": "All texts and answers of strerror_r; codes above -10^9 where the code is printed."
  },
  {
   "property": "C91",
   "status": "partial",
   "theorems": [
    "C91_inline",
    "C91_inline_refuted"
   ],
   "note": "Proved for codes above -10^9; refuted for the others."
  },
  {
   "property": "C92",
   "status": "proved",
   "theorems": [
    "C92_routes",
    "C92_complete",
    "C92_defined"
   ],
   "note": "All configurations without asynchronous sinks; one thread logs."
  },
  {
   "property": "C93",
   "status": "partial",
   "theorems": [
    "C93_file",
    "C93_untouched",
    "C93_stdout",
    "C93_datagrams",
    "C93_syslog",
    "C93_tcp",
    "C93_shared_path_refuted"
   ],
   "note": "Proved for paths and TCP addresses with one sink; refuted for a path shared by two sinks."
  },
  {
   "property": "C94",
   "status": "proved",
   "theorems": [
    "C94_document_to_file"
   ],
   "note": "The file sink is the first of its handler; calm circumstances."
  },
  {
   "property": "C95",
   "status": "proved",
   "theorems": [
    "C95_routes",
    "C95_defined",
    "C95_ends"
   ],
   "note": "All configurations without asynchronous sinks; emits of a sink are atomic because of its lock."
  },
  {
   "property": "C96",
   "status": "proved",
   "theorems": [
    "C96_file",
    "C96_stdout",
    "C96_datagrams",
    "C96_syslog",
    "C96_tcp"
   ],
   "note": "Files and connections with one sink; calm circumstances for files."
  },
  {
   "property": "C97",
   "status": "partial",
   "theorems": [
    "C97_returned_first",
    "C97_one_order_refuted",
    "C97_time_order_refuted"
   ],
   "note": "The order of calls one after the other is proved; one order for all sinks and order by time stamps are refuted."
  },
  {
   "property": "C98",
   "status": "proved",
   "theorems": [
    "C98_in_turn",
    "C98_more_arguments"
   ],
   "note": "All pieces; left-justified conversions with a precision only in texts of at most 500 bytes (see C102)."
  },
  {
   "property": "C99",
   "status": "partial",
   "theorems": [
    "C99_integers",
    "C99_one_text",
    "C99_zero_minus_refuted",
    "C99_zero_precision_refuted",
    "C99_nothing_refuted",
    "C99_dot_refuted",
    "C99_unsigned_sign_refuted",
    "C99_mark_refuted",
    "C99_widened_refuted",
    "C99_char_twice_refuted"
   ],
   "note": "Proved for ordinary conversions; refuted where 0 meets - or a precision, for zero with precision zero, a dot alone, signs of unsigned conversions, # and numbers that become zero, negative int with 64-bit modifiers, and char with L."
  },
  {
   "property": "C100",
   "status": "partial",
   "theorems": [
    "C100_strings",
    "C100_characters",
    "C100_dot_refuted",
    "C100_unterminated_refuted"
   ],
   "note": "Proved for all but a dot alone and arrays without a NUL, for which it is refuted."
  },
  {
   "property": "C101",
   "status": "partial",
   "theorems": [
    "C101_positions",
    "C101_position_after",
    "C101_none_after",
    "C101_width_position_refuted"
   ],
   "note": "Proved for conversions; refuted for positions of widths."
  },
  {
   "property": "C102",
   "status": "partial",
   "theorems": [
    "C102_any_format",
    "C102_moved_buffer_refuted"
   ],
   "note": "Proved for formats without a dot or without minus sign and asterisk; refuted for left-justified conversions with a precision."
  },
  {
   "property": "C103",
   "status": "proved",
   "theorems": [
    "C103_missing",
    "C103_next_missing",
    "C103_kinds",
    "C103_width_argument",
    "C103_incomplete"
   ],
   "note": "All well-formed conversions."
  },
  {
   "property": "C104",
   "status": "partial",
   "theorems": [
    "C104_contents_partial",
    "C104_defined",
    "C104_thrown",
    "C104_memory",
    "C104_center_partial",
    "C104_format",
    "C104_left_fill_refuted",
    "C104_center_lost_refuted",
    "C104_overlap_refuted"
   ],
   "note": "Proved for numbers that are not centred and padded on the right with spaces only, and for centred ones that have a sign or the room; refuted for other fills on the right, centred numbers that make the buffer grow, and overlapping std::copy."
  },
  {
   "property": "C105",
   "status": "partial",
   "theorems": [
    "C105_special_partial",
    "C105_default_refuted"
   ],
   "note": "Proved for left, right and centred alignment; refuted for default and numeric alignment."
  },
  {
   "property": "C106",
   "status": "partial",
   "theorems": [
    "C106_fails",
    "C106_memory_refuted"
   ],
   "note": "The exception and the contents are proved; that memory is not used up is refuted."
  },
  {
   "property": "C107",
   "status": "partial",
   "theorems": [
    "C107_contents",
    "C107_fits",
    "C107_exact_refuted"
   ],
   "note": "The exact condition is proved; refuted for numbers that fit exactly."
  },
  {
   "property": "C108",
   "status": "proved",
   "theorems": [
    "C108_one_text",
    "C108_function"
   ],
   "note": "All specifications that are not centred."
  },
  {
   "property": "C109",
   "status": "proved",
   "theorems": [
    "C109_starts",
    "C109_queues",
    "C109_routes",
    "C109_never_throws",
    "C109_defined"
   ],
   "note": "All configurations, any nesting of asynchronous sinks."
  },
  {
   "property": "C110",
   "status": "proved",
   "theorems": [
    "C110_account",
    "C110_all_reach"
   ],
   "note": "All configurations; after destruction for queues that wait and flags set in time (C111_lost_refuted shows the other moment)."
  },
  {
   "property": "C111",
   "status": "partial",
   "theorems": [
    "C111_file",
    "C111_file_order",
    "C111_stdout",
    "C111_datagrams",
    "C111_syslog",
    "C111_tcp",
    "C111_lost_refuted"
   ],
   "note": "Proved for files and connections with one sink and flags set in time; refuted for a flag set between a failed attempt and its test."
  },
  {
   "property": "C112",
   "status": "partial",
   "theorems": [
    "C112_can_end",
    "C112_only_then",
    "C112_terminated_refuted"
   ],
   "note": "Absence of deadlock is proved; the independence of failing sinks is refuted: an exception behind a queue terminates the process."
  },
  {
   "property": "C113",
   "status": "proved",
   "theorems": [
    "C113_tskv_log"
   ],
   "note": "All configurations whose names can be carried and whose thread id is left alone (C28 shows the other case), queues that wait, flags set in time."
  },
  {
   "property": "C114",
   "status": "partial",
   "theorems": [
    "C114_json_log",
    "C114_newline_refuted"
   ],
   "note": "Proved without the option newline, for records whose fields fit the routes; refuted with the option: every other line is empty."
  },
  {
   "property": "C115",
   "status": "proved",
   "theorems": [
    "C115_document_to_file",
    "C115_can_end"
   ],
   "note": "All documents; for the first sink of a handler, queues that wait, flags set in time."
  },
  {
   "property": "C116",
   "status": "proved",
   "theorems": [
    "C116_returned_first"
   ],
   "note": "All configurations; queues that wait, flags set in time."
  },
  {
   "property": "C117",
   "status": "partial",
   "theorems": [
    "C117_by_document",
    "C117_by_builders",
    "C117_stderr_refuted",
    "C117_colours_refuted",
    "C117_dev_refuted",
    "C117_drop_refuted",
    "C117_socket_refuted"
   ],
   "note": "Proved for what both ways can express; refuted for the rest."
  },
  {
   "property": "C118",
   "status": "proved",
   "theorems": [
    "C118_console",
    "C118_file",
    "C118_string",
    "C118_tskv",
    "C118_json",
    "C118_handler",
    "C118_logger",
    "C118_chain",
    "C118_chain_only"
   ],
   "note": "All sequences of calls."
  },
  {
   "property": "C119",
   "status": "partial",
   "theorems": [
    "C119_works",
    "C119_no_formatter",
    "C119_no_formatter_refuted",
    "C119_rebuilt",
    "C119_rebuilt_refuted"
   ],
   "note": "Proved with a formatter and for the first build; refuted otherwise."
  },
  {
   "property": "C120",
   "status": "partial",
   "theorems": [
    "C120_units",
    "C120_same_as_text",
    "C120_wrap_refuted"
   ],
   "note": "Proved where the number of bytes fits 64 bits; refuted otherwise."
  },
  {
   "property": "C121",
   "status": "proved",
   "theorems": [
    "C121_by_number",
    "C121_tags",
    "C121_by_name"
   ],
   "note": "All lists, numbers and names."
  },
  {
   "property": "C122",
   "status": "proved",
   "theorems": [
    "C122_explicit",
    "C122_in_order",
    "C122_names_are_positions"
   ],
   "note": "All well-formed format strings."
  },
  {
   "property": "C123",
   "status": "proved",
   "theorems": [
    "C123_unnamed",
    "C123_names_do_not_matter",
    "C123_order_after_explicit",
    "C123_explicit_after_order",
    "C123_width_after_explicit",
    "C123_explicit_width_in_order"
   ],
   "note": "All byte strings for the comparison; all rests for the refusals."
  },
  {
   "property": "C124",
   "status": "partial",
   "theorems": [
    "C124_safe",
    "C124_whose",
    "C124_whose_refuted"
   ],
   "note": "Safety proved; the identity is proved outside of one window of the factory on another thread and refuted inside of it."
  },
  {
   "property": "C125",
   "status": "partial",
   "theorems": [
    "C125_latest",
    "C125_application_refuted",
    "C125_sink_refuted"
   ],
   "note": "Whose identity a message has is proved; that blackhole and the application do not disturb each other is refuted."
  },
  {
   "property": "C126",
   "status": "partial",
   "theorems": [
    "C126_write",
    "C126_behind",
    "C126_empty_refuted"
   ],
   "note": "Proved for texts that are not empty; refuted for empty ones."
  },
  {
   "property": "C127",
   "status": "proved",
   "theorems": [
    "C127_document_to_file"
   ],
   "note": "All documents, programs and failures of other sinks."
  },
  {
   "property": "C128",
   "status": "proved",
   "theorems": [
    "C128_missing",
    "C128_all_or_nothing"
   ],
   "note": "All calls."
  },
  {
   "property": "C129",
   "status": "partial",
   "theorems": [
    "C129_kept",
    "C129_orderly",
    "C129_copy_refuted",
    "C129_stranger_refuted"
   ],
   "note": "Refuted for copies that outlive their original; proved without copies and moves, and for programs in which the owner of each text shown stays."
  },
  {
   "property": "C130",
   "status": "partial",
   "theorems": [
    "C130_vector",
    "C130_portable",
    "C130_moved",
    "C130_move_refuted"
   ],
   "note": "Refuted with small_vector (for all wrappers with few attributes and a short name); proved with std::vector and for attributes that stay in place."
  },
  {
   "property": "C131",
   "status": "proved",
   "theorems": [
    "C131_stored",
    "C131_no_leak"
   ],
   "note": "All programs."
  },
  {
   "property": "C132",
   "status": "proved",
   "theorems": [
    "C132_chain",
    "C132_padded",
    "C132_coded",
    "C132_column"
   ],
   "note": "All chains of items whose values << and {} do not treat differently (C48)."
  },
  {
   "property": "C133",
   "status": "partial",
   "theorems": [
    "C133_zeros",
    "C133_negative_refuted"
   ],
   "note": "Proved for numbers that are not negative; refuted for negative ones."
  },
  {
   "property": "C134",
   "status": "partial",
   "theorems": [
    "C134_print",
    "C134_print_error",
    "C134_colored",
    "C134_error_refuted"
   ],
   "note": "Proved for correct format strings; refuted for the colour after a format error."
  },
  {
   "property": "C135",
   "status": "partial",
   "theorems": [
    "C135_count",
    "C135_long_refuted"
   ],
   "note": "Proved for texts below 2^31 bytes; refuted for longer ones."
  },
  {
   "property": "C136",
   "status": "partial",
   "theorems": [
    "C136_printable",
    "C136_control",
    "C136_high",
    "C136_high_refuted"
   ],
   "note": "Proved below 128; refuted above."
  },
  {
   "property": "C137",
   "status": "proved",
   "theorems": [
    "C137_variables",
    "C137_itself"
   ],
   "note": "All programs."
  },
  {
   "property": "C138",
   "status": "proved",
   "theorems": [
    "C138_owned",
    "C138_freed"
   ],
   "note": "All programs."
  },
  {
   "property": "C139",
   "status": "partial",
   "theorems": [
    "C139_accepted",
    "C139_report",
    "C139_reason",
    "C139_below",
    "C139_lines_refuted",
    "C139_options_refuted",
    "C139_inner_refuted"
   ],
   "note": "Proved for what the parser itself finds, in patterns of one line; refuted for several lines and for the options of {...}."
  },
  {
   "property": "C140",
   "status": "partial",
   "theorems": [
    "C140_made",
    "C140_reason_refuted"
   ],
   "note": "Refuted: the code of the exception is not the error that occurred."
  },
  {
   "property": "C141",
   "status": "partial",
   "theorems": [
    "C141_deadlock",
    "C141_unlocked",
    "C141_copy_refuted",
    "C141_old_refuted",
    "C141_handlers_refuted",
    "C141_throwing_refuted"
   ],
   "note": "Proved for filters, messages and handlers; refuted for copying and destroying filters and destroying handlers."
  },
  {
   "property": "C142",
   "status": "proved",
   "theorems": [
    "C142_alive",
    "C142_owners",
    "C142_call",
    "C142_thrown"
   ],
   "note": "One thread, all nesting."
  },
  {
   "property": "C143",
   "status": "partial",
   "theorems": [
    "C143_order",
    "C143_jam",
    "C143_lost_refuted",
    "C143_wait_refuted"
   ],
   "note": "Order proved; refuted: records behind one whose copy threw are lost as well, and emit may never return."
  },
  {
   "property": "C144",
   "status": "partial",
   "theorems": [
    "C144_ends",
    "C144_drains",
    "C144_spins_refuted"
   ],
   "note": "Proved without throwing copies or if dequeue does not spin; refuted otherwise."
  },
  {
   "property": "C145",
   "status": "partial",
   "theorems": [
    "C145_order",
    "C145_ends",
    "C145_wait_refuted",
    "C145_again_refuted"
   ],
   "note": "Order, and the end under conditions, proved; refuted without them."
  },
  {
   "property": "C146",
   "status": "partial",
   "theorems": [
    "C146_progress",
    "C146_short",
    "C146_turn",
    "C146_exclusive",
    "C146_cross_refuted"
   ],
   "note": "Proved if copying and replacing filters does not use loggers; refuted otherwise."
  }
 ]
}