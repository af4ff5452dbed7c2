{
 "claims": [
  {
   "property": "C01",
   "status": "proved",
   "theorems": [
    "C01_content_length_exact",
    "C01_content_length_refused",
    "C01_content_length_bounds"
   ],
   "note": ""
  },
  {
   "property": "C02",
   "status": "proved",
   "theorems": [
    "C02_chunk_size_exact",
    "C02_chunk_size_refused",
    "C02_chunk_size_bounds"
   ],
   "note": ""
  },
  {
   "property": "C03",
   "status": "proved",
   "theorems": [
    "C03_line_reader",
    "C03_line_accepted_iff",
    "C03_line_safe",
    "C03_retry_truncates_refuted"
   ],
   "note": "proved for every byte stream; C03_retry_truncates_refuted shows the line is cut if the transport reports 0 bytes with the retry flag in mid-line"
  },
  {
   "property": "C04",
   "status": "proved",
   "theorems": [
    "C04_relay_sound",
    "C04_relay_complete",
    "C04_relay_terminates",
    "C04_strict_chunks_refuted"
   ],
   "note": "the chunk grammar accepted is the lenient one (C04_strict_chunks_refuted: text after the announced bytes is relayed, only logged)"
  },
  {
   "property": "C05",
   "status": "partial",
   "theorems": [
    "C05_max_request_partial",
    "C05_total_overflow_refuted",
    "C05_max_request_refuted"
   ],
   "note": "proved as long as the 64-bit total does not overflow; C05_max_request_refuted exhibits the bypass"
  },
  {
   "property": "C06",
   "status": "partial",
   "theorems": [
    "C06_accept_iff",
    "C06_framing_unique",
    "C06_refused",
    "C06_unknown_coding",
    "C06_forwarded_framing",
    "C06_relay_agrees",
    "C06_relay_agrees_http10_partial",
    "C06_http10_chunked_refuted",
    "C06_other_headers_irrelevant",
    "C06_limits",
    "C06_too_large",
    "C06_read_heads_good"
   ],
   "note": ""
  },
  {
   "property": "C07",
   "status": "proved",
   "theorems": [
    "C07_request_line_accepted",
    "C07_method_not_allowed",
    "C07_bad_request",
    "C07_unambiguous"
   ],
   "note": ""
  },
  {
   "property": "C08",
   "status": "partial",
   "theorems": [
    "C08_split",
    "C08_parts_unique",
    "C08_rebuild",
    "C08_history",
    "C08_set_path",
    "C08_set_query",
    "C08_request_line",
    "C08_first_qmark_refuted"
   ],
   "note": ""
  },
  {
   "property": "C09",
   "status": "partial",
   "theorems": [
    "C09_read",
    "C09_params_unique",
    "C09_set",
    "C09_set_text",
    "C09_order",
    "C09_delete_others",
    "C09_delete_partial",
    "C09_delete_refuted"
   ],
   "note": ""
  },
  {
   "property": "C10",
   "status": "proved",
   "theorems": [
    "C10_token_found_iff",
    "C10_first_occurrence"
   ],
   "note": ""
  },
  {
   "property": "C11",
   "status": "partial",
   "theorems": [
    "C11_add_new",
    "C11_keep",
    "C11_replace_partial",
    "C11_append",
    "C11_others_unchanged",
    "C11_stays_good",
    "C11_replace_unique_refuted"
   ],
   "note": ""
  },
  {
   "property": "C12",
   "status": "partial",
   "theorems": [
    "C12_expand_partial",
    "C12_missing_partial",
    "C12_recent",
    "C12_ends",
    "C12_bounds_partial",
    "C12_percent_refuted",
    "C12_end_refuted",
    "C12_group_refuted",
    "C12_accessor_refuted"
   ],
   "note": "Proved for every template of the documented syntax except $%, on references that stay inside the group array; refuted: $% gives a dollar sign, a trailing $ or % and the group after the last are read out of bounds, %[query] without a query uses an unset variable, a blank before the closing bracket loops. C12_bounds_partial shows these are the only causes."
  },
  {
   "property": "C13",
   "status": "partial",
   "theorems": [
    "C13_formula_partial",
    "C13_steps",
    "C13_steps_unique",
    "C13_error",
    "C13_short_circuit",
    "C13_undefined_partial",
    "C13_undefined_refuted"
   ],
   "note": "Proved for every condition whose elementary conditions have an answer (C13_formula_partial), and in general as left-to-right evaluation with short circuit and error propagation (C13_steps, C13_steps_unique, C13_error, C13_short_circuit). Missing: a Query condition on a request without a query has no answer, the code passes NULL to the matcher (C13_undefined_refuted); C13_undefined_partial lists all such causes."
  },
  {
   "property": "C14",
   "status": "proved",
   "theorems": [
    "C14_rules",
    "C14_rule",
    "C14_branch",
    "C14_separate"
   ],
   "note": ""
  },
  {
   "property": "C15",
   "status": "proved",
   "theorems": [
    "C15_first",
    "C15_truth",
    "C15_enabled"
   ],
   "note": ""
  },
  {
   "property": "C16",
   "status": "proved",
   "theorems": [
    "C16_safe",
    "C16_no_injection",
    "C16_decodes_partial",
    "C16_target_partial",
    "C16_high_bytes_refuted"
   ],
   "note": "Full statement proved (C16_safe, C16_no_injection). Beyond it: the target (C16_target_partial, under the conditions of C12), and that the escapes decode to the target for 7-bit URLs only (C16_high_bytes_refuted)."
  },
  {
   "property": "C17",
   "status": "partial",
   "theorems": [
    "C17_match",
    "C17_accepted",
    "C17_order",
    "C17_entry_unique",
    "C17_named",
    "C17_named_twice",
    "C17_refused_partial",
    "C17_malformed_mask_accepted"
   ],
   "note": ""
  },
  {
   "property": "C18",
   "status": "proved",
   "theorems": [
    "C18_every_draw_selects",
    "C18_proportional",
    "C18_select",
    "C18_uniform_refuted"
   ],
   "note": "Full statement proved for every list and draw; C18_uniform_refuted records, beyond the statement, that the draws themselves are not equally likely (random() is 31-bit, rejection bound is computed for 64 bits)."
  },
  {
   "property": "C19",
   "status": "proved",
   "theorems": [
    "C19_fair",
    "C19_fair_anywhere"
   ],
   "note": ""
  },
  {
   "property": "C20",
   "status": "partial",
   "theorems": [
    "C20_random",
    "C20_iwrr_partial",
    "C20_iwrr_hang_refuted",
    "C20_zero_priority_refuted",
    "C20_empty_group_refuted"
   ],
   "note": "Random algorithm: proved in full for priorities of at least 1. IWRR: proved when every group of several members has a usable one; refuted otherwise (infinite loop). Also refuted: priority 0 from SRV weight 0, empty group."
  },
  {
   "property": "C21",
   "status": "partial",
   "theorems": [
    "C21_counters",
    "C21_has_backends",
    "C21_mode_effect",
    "C21_revive_effect",
    "C21_remove_effect",
    "C21_probe_race_refuted"
   ],
   "note": "Proved for every history in which the two phases of a liveness probe are not separated by another operation; refuted for the interleaving (C21_probe_race_refuted)."
  },
  {
   "property": "C22",
   "status": "proved",
   "theorems": [
    "C22_table",
    "C22_sticky",
    "C22_deleted",
    "C22_killed",
    "C22_expired"
   ],
   "note": ""
  },
  {
   "property": "C23",
   "status": "proved",
   "theorems": [
    "C23_ordered",
    "C23_consistent",
    "C23_scheduled",
    "C23_run",
    "C23_expiry_time"
   ],
   "note": ""
  },
  {
   "property": "C24",
   "status": "partial",
   "theorems": [
    "C24_order",
    "C24_ids",
    "C24_cancel_proper",
    "C24_once",
    "C24_no_loss",
    "C24_due",
    "C24_cancel_partial",
    "C24_cancel_lost_refuted",
    "C24_compare",
    "C24_difference"
   ],
   "note": ""
  },
  {
   "property": "C25",
   "status": "partial",
   "theorems": [
    "C25_exact",
    "C25_prefix",
    "C25_suffix",
    "C25_contain_sound",
    "C25_contain_decides_partial",
    "C25_contain_partial",
    "C25_contain_borderless_partial",
    "C25_contain_misses_refuted",
    "C25_contain_refuted",
    "C25_contain_bounds_refuted"
   ],
   "note": ""
  },
  {
   "property": "C26",
   "status": "partial",
   "theorems": [
    "C26_granted_partial",
    "C26_granted_entries",
    "C26_defined_partial",
    "C26_file_partial",
    "C26_scheme",
    "C26_removed",
    "C26_unreadable",
    "C26_apr_roundtrip",
    "C26_quoted",
    "C26_long_line_refuted",
    "C26_crypt_only_refuted",
    "C26_unset_refuted",
    "C26_same_time_refuted"
   ],
   "note": "Proved for every file history, request and library behaviour, for files with lines below the 4096-byte buffer and modification times that change with the contents. Refuted: the rest of an overlong comment is an entry, crypt hashes are accepted as plain passwords, short apr1 salts and SHA digests read outside the entry. Digest, base64 and crypt functions are parameters."
  },
  {
   "property": "C27",
   "status": "proved",
   "theorems": [
    "C27_rightmost",
    "C27_fallback",
    "C27_complete",
    "C27_absent",
    "C27_fields",
    "C27_chain",
    "C27_settings"
   ],
   "note": ""
  },
  {
   "property": "C28",
   "status": "partial",
   "theorems": [
    "C28_fifo",
    "C28_counts",
    "C28_awake",
    "C28_progress",
    "C28_leave",
    "C28_start_refuted",
    "C28_min_zero_refuted",
    "C28_startup_refuted"
   ],
   "note": "Order, exactly-once, counters, bounds and absence of lost wakeups are proved for every schedule. Not true: that a waiting request always starts a worker while the maximum is not reached (C28_start_refuted), the same with a minimum of 0 (C28_min_zero_refuted), and the lower bound if a timed wait ends during startup (C28_startup_refuted)."
  },
  {
   "property": "C29",
   "status": "partial",
   "theorems": [
    "C29_ready_partial",
    "C29_prefix_partial",
    "C29_once",
    "C29_refuted"
   ],
   "note": "Proved when no ready listener is disabled, and in general up to the first such listener; the full statement is false (C29_refuted): the loop over the poll array gets out of step after a disabled listener."
  },
  {
   "property": "C30",
   "status": "partial",
   "theorems": [
    "C30_unique",
    "C30_disable_partial",
    "C30_session_partial",
    "C30_session_key",
    "C30_service",
    "C30_only_target",
    "C30_nochange",
    "C30_get",
    "C30_empty_refuted",
    "C30_signed_refuted",
    "C30_wrap_refuted",
    "C30_core_refuted",
    "C30_late_refuted",
    "C30_query_refuted",
    "C30_junk_refuted"
   ],
   "note": ""
  },
  {
   "property": "C31",
   "status": "partial",
   "theorems": [
    "C31_route",
    "C31_path",
    "C31_endpoint",
    "C31_unknown_refuted",
    "C31_method_refuted",
    "C31_empty_refuted"
   ],
   "note": ""
  },
  {
   "property": "C32",
   "status": "proved",
   "theorems": [
    "C32_map",
    "C32_sorted",
    "C32_other",
    "C32_filter_refuted"
   ],
   "note": "Finite map semantics proved for every history of set operations. json_object_filter (not called by the program) leaves a stale count: C32_filter_refuted."
  },
  {
   "property": "C33",
   "status": "partial",
   "theorems": [
    "C33_roundtrip_partial",
    "C33_wellformed_partial",
    "C33_written_partial",
    "C33_read_partial",
    "C33_code_point",
    "C33_total",
    "C33_bounds_partial",
    "C33_string_refuted",
    "C33_control_refuted",
    "C33_grammar_refuted"
   ],
   "note": "Round trip and well-formedness proved for every value whose strings avoid the two defects shown by C33_string_refuted and C33_control_refuted; conversion of floating point numbers (printf, strtod) is a parameter."
  },
  {
   "property": "C34",
   "status": "partial",
   "theorems": [
    "C34_destroy",
    "C34_released",
    "C34_remover_ends",
    "C34_alive",
    "C34_job_ends",
    "C34_safe_partial",
    "C34_kill_refuted",
    "C34_session_refuted",
    "C34_log_refuted",
    "C34_leak_refuted",
    "C34_wakeup_refuted"
   ],
   "note": ""
  },
  {
   "property": "C35",
   "status": "partial",
   "theorems": [
    "C35_set",
    "C35_objects",
    "C35_removed",
    "C35_balancer",
    "C35_empty_refuted",
    "C35_disabled",
    "C35_srv",
    "C35_srv_groups",
    "C35_srv_weight_refuted"
   ],
   "note": ""
  },
  {
   "property": "C36",
   "status": "partial",
   "theorems": [
    "C36_dialogue",
    "C36_relayed_partial",
    "C36_framed_partial",
    "C36_error",
    "C36_malformed",
    "C36_cut",
    "C36_total",
    "C36_continue_refuted",
    "C36_interim_refuted",
    "C36_invalid_length_refuted",
    "C36_head_chunked_refuted",
    "C36_305_refuted",
    "C36_twice_refuted",
    "C36_timeout_refuted"
   ],
   "note": ""
  },
  {
   "property": "C37",
   "status": "partial",
   "theorems": [
    "C37_backend_only",
    "C37_backend",
    "C37_relative",
    "C37_off",
    "C37_header",
    "C37_header_rewritten",
    "C37_listener_refuted",
    "C37_inside_refuted",
    "C37_ipv6_refuted",
    "C37_name_port_refuted",
    "C37_destination",
    "C37_destination_other"
   ],
   "note": ""
  },
  {
   "property": "C38",
   "status": "proved",
   "theorems": [
    "C38_dlist",
    "C38_loop",
    "C38_distinct",
    "C38_slist",
    "C38_queue",
    "C38_concat_refuted",
    "C38_shift_empty"
   ],
   "note": "All list operations used by the program are covered, for lists of any length. SLIST_CONCAT, which the program does not use, loses its tail when the second list is empty: C38_concat_refuted."
  },
  {
   "property": "C39",
   "status": "partial",
   "theorems": [
    "C39_contents",
    "C39_bounds",
    "C39_finish",
    "C39_finish_failed",
    "C39_success",
    "C39_string",
    "C39_size",
    "C39_error_refuted",
    "C39_time_empty",
    "C39_truncate_refuted",
    "C39_wrap_refuted"
   ],
   "note": "Contents, bounds, growth, termination and success are proved for every sequence of operations and every allocator. The error flag is cleared by a later successful operation, so finish may return a text with a piece missing: C39_error_refuted. Truncation beyond the size and a fill count near 2^64 misbehave: C39_truncate_refuted, C39_wrap_refuted. An empty formatted time is always an error: C39_time_empty."
  },
  {
   "property": "C40",
   "status": "proved",
   "theorems": [
    "C40_cookie",
    "C40_header",
    "C40_basic",
    "C40_url",
    "C40_parm",
    "C40_cookie_unique",
    "C40_cut",
    "C40_used"
   ],
   "note": ""
  },
  {
   "property": "C41",
   "status": "partial",
   "theorems": [
    "C41_tokens",
    "C41_unique",
    "C41_quote",
    "C41_putback",
    "C41_putback_room",
    "C41_no_cycle",
    "C41_include",
    "C41_text_partial",
    "C41_text_missing",
    "C41_text_refuted",
    "C41_column_refuted"
   ],
   "note": ""
  },
  {
   "property": "C42",
   "status": "partial",
   "theorems": [
    "C42_print_partial",
    "C42_silent",
    "C42_table",
    "C42_accept_refuted",
    "C42_end_refuted",
    "C42_D_refuted",
    "C42_sec_refuted"
   ],
   "note": ""
  },
  {
   "property": "C43",
   "status": "partial",
   "theorems": [
    "C43_restart_partial",
    "C43_persist",
    "C43_terminate",
    "C43_alarm",
    "C43_single_partial",
    "C43_lost_refuted",
    "C43_lost_term_refuted",
    "C43_single_refuted"
   ],
   "note": "Restart is proved for ends noticed in sigwait; signals that arrive at another time are lost because they are not blocked (C43_lost_refuted, C43_lost_term_refuted), and a stopped child can lead to two servers (C43_single_refuted)."
  },
  {
   "property": "C44",
   "status": "proved",
   "theorems": [
    "C44_ordered",
    "C44_lookup",
    "C44_running"
   ],
   "note": ""
  },
  {
   "property": "C45",
   "status": "partial",
   "theorems": [
    "C45_literal_partial",
    "C45_file_partial",
    "C45_exact_refuted",
    "C45_unescaped_refuted",
    "C45_file_refuted",
    "C45_case_refuted"
   ],
   "note": "Prefix, suffix and contain are proved for every literal text without ^, $ and |; exact is refuted (it is compiled as a prefix match), unescaped characters, multi-pattern files and -case field names are refuted with witnesses. The value is the text of the header after the blanks following the colon, trailing blanks included."
  },
  {
   "property": "C46",
   "status": "partial",
   "theorems": [
    "C46_config_length_exact",
    "C46_unsigned",
    "C46_int",
    "C46_range",
    "C46_trailing",
    "C46_mode_partial",
    "C46_mode_digits",
    "C46_mode_refuted",
    "C46_bool"
   ],
   "note": ""
  },
  {
   "property": "C47",
   "status": "partial",
   "theorems": [
    "C47_reuse_partial",
    "C47_http10",
    "C47_asked_to_close",
    "C47_close_list_refuted",
    "C47_local_refuted",
    "C47_stale_refuted",
    "C47_timeout_refuted"
   ],
   "note": ""
  },
  {
   "property": "C48",
   "status": "partial",
   "theorems": [
    "C48_strings",
    "C48_header_names",
    "C48_cnames",
    "C48_backends",
    "C48_add_refuted",
    "C48_foreach_refuted",
    "C48_foreach_restores"
   ],
   "note": ""
  },
  {
   "property": "C49",
   "status": "proved",
   "theorems": [
    "C49_field_line_iff",
    "C49_head_complete",
    "C49_head_sound",
    "C49_head_texts"
   ],
   "note": ""
  },
  {
   "property": "C50",
   "status": "partial",
   "theorems": [
    "C50_selected",
    "C50_served_partial",
    "C50_missing_partial",
    "C50_confined_partial",
    "C50_confined_refuted",
    "C50_directory_refuted",
    "C50_rules_refuted"
   ],
   "note": ""
  },
  {
   "property": "C51",
   "status": "partial",
   "theorems": [
    "C51_codes",
    "C51_error",
    "C51_head_refuted",
    "C51_error_backend",
    "C51_redirect",
    "C51_json",
    "C51_metrics"
   ],
   "note": ""
  },
  {
   "property": "C52",
   "status": "partial",
   "theorems": [
    "C52_follow",
    "C52_absent",
    "C52_temporary_partial",
    "C52_disabled",
    "C52_half_found_refuted",
    "C52_half_absent_refuted",
    "C52_server_failure_refuted",
    "C52_error_refuted",
    "C52_total",
    "C52_chain_refuted",
    "C52_chain_memory_refuted",
    "C52_srv_order",
    "C52_one_job_partial",
    "C52_switch_partial",
    "C52_never_again_refuted",
    "C52_two_jobs_refuted",
    "C52_wrong_job_refuted"
   ],
   "note": ""
  },
  {
   "property": "C53",
   "status": "partial",
   "theorems": [
    "C53_random",
    "C53_iwrr_partial",
    "C53_finds",
    "C53_course",
    "C53_handshake_refuted",
    "C53_hang_refuted",
    "C53_matrix_refuted"
   ],
   "note": ""
  },
  {
   "property": "C54",
   "status": "partial",
   "theorems": [
    "C54_delivered",
    "C54_composed",
    "C54_untouched",
    "C54_others",
    "C54_set",
    "C54_client_partial",
    "C54_once_partial",
    "C54_twice_refuted",
    "C54_second_refuted",
    "C54_no_certificate_refuted",
    "C54_long_subject_refuted",
    "C54_serial_refuted"
   ],
   "note": "Exact edits, untouched fields, absence of injected lines and the framing are proved. Not true that the backend gets no foreign values: second fields of a name (C54_twice_refuted, C54_second_refuted), clients without certificate (C54_no_certificate_refuted), long subjects (C54_long_subject_refuted); serial numbers above 63 bits all become -1 (C54_serial_refuted)."
  },
  {
   "property": "C55",
   "status": "partial",
   "theorems": [
    "C55_report_partial",
    "C55_rounded",
    "C55_unused",
    "C55_clock_refuted"
   ],
   "note": "Number and averages are proved with rounding (any rounding with relative error 2^-53), the deviation and its termination in exact arithmetic. A clock that is set back gives negative times (C55_clock_refuted)."
  },
  {
   "property": "C56",
   "status": "partial",
   "theorems": [
    "C56_backends",
    "C56_numbers",
    "C56_all",
    "C56_listener",
    "C56_service",
    "C56_parent",
    "C56_sessions_partial",
    "C56_session_refuted"
   ],
   "note": "Proved for listeners, services, backends and parents; the number shown for a session is that of its backend only if no later balancer has backends (C56_session_refuted)."
  },
  {
   "property": "C57",
   "status": "partial",
   "theorems": [
    "C57_keyword",
    "C57_grammar",
    "C57_include",
    "C57_include_refused",
    "C57_ends",
    "C57_closed",
    "C57_misplaced_refuted",
    "C57_not_not_refuted",
    "C57_response_refuted"
   ],
   "note": "The language accepted, the effects, Include and termination are proved for every table. The grammar is wider than it should be: misplaced tokens are only reported (C57_misplaced_refuted), a double NOT takes the next condition (C57_not_not_refuted), and rules for responses take statements for requests (C57_response_refuted)."
  },
  {
   "property": "C58",
   "status": "partial",
   "theorems": [
    "C58_order",
    "C58_count",
    "C58_idle",
    "C58_eof_partial",
    "C58_progress",
    "C58_half_close_refuted",
    "C58_flush_refuted"
   ],
   "note": "Order, completeness of what is read, the count, idleness and progress are proved. Data the backend has sent and that are not yet read are lost when the client closes (C58_half_close_refuted), and a failing flush is not noticed (C58_flush_refuted)."
  },
  {
   "property": "C59",
   "status": "partial",
   "theorems": [
    "C59_metrics_partial",
    "C59_unambiguous",
    "C59_distinct",
    "C59_index",
    "C59_empty_refuted",
    "C59_escape_refuted",
    "C59_stateset_refuted",
    "C59_threads_partial",
    "C59_threads_refuted"
   ],
   "note": "Proved for all states in which every service has a backend and no name contains a quotation mark, a backslash or a line feed: the reply is an OpenMetrics text with exactly the samples of the table; the text is unambiguous; labels within a family are distinct. Refuted: a service without backends makes all metrics unavailable (500); names are not escaped; samples of statesets lack the label the format asks for; a static variable lets two threads mix up their samples (proved to be correct when no thread is interrupted between finding a metric and appending to it). Fractions of average times are not modelled."
  },
  {
   "property": "C60",
   "status": "partial",
   "theorems": [
    "C60_choice_partial",
    "C60_names",
    "C60_accepted",
    "C60_settings_partial",
    "C60_settings_refuted",
    "C60_case_refuted",
    "C60_wildcard_refuted",
    "C60_no_cn_refuted",
    "C60_directory_refuted"
   ],
   "note": "Which listeners are accepted, the choice by shell patterns and the settings of each certificate are proved for all configurations. Refuted: case matters (C60_case_refuted), a wildcard stands for any number of labels (C60_wildcard_refuted), certificates without a common name are refused (C60_no_cn_refuted), the default certificate of a directory depends on the order of the file system (C60_directory_refuted), settings between certificates do not apply to later ones (C60_settings_refuted)."
  },
  {
   "property": "C61",
   "status": "partial",
   "theorems": [
    "C61_accepted",
    "C61_values_partial",
    "C61_reference_partial",
    "C61_use_backend_refuted",
    "C61_no_address_refuted",
    "C61_numeric_partial",
    "C61_ipv4_refuted",
    "C61_path_refuted",
    "C61_priority_refuted"
   ],
   "note": "Acceptance and the resulting backends are proved for all configurations, and that Backend with a name is the same as the definition in its place. Refuted: UseBackend ignores Priority and Disabled of the definition (C61_use_backend_refuted), a global backend without Address crashes the program when referred to (C61_no_address_refuted), IPv4 addresses are never recognised as numeric (C61_ipv4_refuted), socket paths of 108 bytes (C61_path_refuted), priority 0 (C61_priority_refuted)."
  },
  {
   "property": "C62",
   "status": "partial",
   "theorems": [
    "C62_services",
    "C62_options",
    "C62_truth_partial",
    "C62_file_partial",
    "C62_empty_file_refuted",
    "C62_formed",
    "C62_empty_or_refuted",
    "C62_not_not_refuted",
    "C62_ignore_case_refuted"
   ],
   "note": "Proved for every text: it is accepted and yields the services written (C62_services), the options (C62_options), well-formed conditions and distinct names in whatever is accepted (C62_formed). Truth is proved except for an OR of nothing (C62_truth_partial, C62_empty_or_refuted) and pattern files except those without patterns (C62_file_partial, C62_empty_file_refuted) and those of Host (C45). Refuted: a condition after a double negation is ignored (C62_not_not_refuted), IgnoreCase in a service is global (C62_ignore_case_refuted)."
  },
  {
   "property": "C63",
   "status": "partial",
   "theorems": [
    "C63_reads_partial",
    "C63_unambiguous",
    "C63_refuses_partial",
    "C63_ends_refuted",
    "C63_comment_refuted",
    "C63_string_refuted",
    "C63_with_variable_refuted",
    "C63_quote_refuted",
    "C63_function_refuted",
    "C63_number_refuted",
    "C63_fraction_refuted",
    "C63_template_refuted",
    "C63_block_refuted"
   ],
   "note": "For every text written by the grammar of TplSpec.v (the manual's, less what is refuted) the tree and the definitions read are those written, and the grammar is unambiguous; texts with a misplaced, unknown or missing tag are refused (C63_refuses_partial). Refuted: reading need not end (C63_ends_refuted, C63_comment_refuted); a string without its end fails an assertion (C63_string_refuted); with and range of a variable are refused and free the name twice (C63_with_variable_refuted); no quote in a string (C63_quote_refuted); unknown words among arguments are dropped (C63_function_refuted); overflow in numbers (C63_number_refuted), no fractions (C63_fraction_refuted), template without an argument (C63_template_refuted), block of a defined name (C63_block_refuted)."
  },
  {
   "property": "C64",
   "status": "partial",
   "theorems": [
    "C64_outputs_partial",
    "C64_errors_partial",
    "C64_unambiguous",
    "C64_ends_partial",
    "C64_ends_refuted",
    "C64_continue_refuted",
    "C64_break_refuted",
    "C64_small_refuted",
    "C64_compare_refuted",
    "C64_bool_refuted",
    "C64_and_refuted",
    "C64_index_refuted",
    "C64_no_arguments_refuted",
    "C64_template_refuted",
    "C64_fraction_refuted",
    "C64_scope_refuted"
   ],
   "note": "For every template whose continue stands directly in a range, the output is the one of the relation runs of TevSpec.v (C64_outputs_partial), errors end the program with the right message after the output before them (C64_errors_partial), neither is ambiguous (C64_unambiguous), and running ends if no template uses itself (C64_ends_partial). Arithmetic of doubles and printf are parameters. Refuted: C64_ends_refuted, C64_continue_refuted, C64_break_refuted, C64_small_refuted, C64_compare_refuted, C64_bool_refuted, C64_and_refuted, C64_index_refuted, C64_no_arguments_refuted, C64_template_refuted, C64_fraction_refuted, C64_scope_refuted."
  },
  {
   "property": "C65",
   "status": "partial",
   "theorems": [
    "C65_outputs_partial",
    "C65_errors_partial",
    "C65_unambiguous",
    "C65_ends",
    "C65_position_refuted",
    "C65_missing_refuted",
    "C65_left_refuted",
    "C65_star_refuted",
    "C65_zero_precision_refuted",
    "C65_octal_refuted",
    "C65_hex_refuted",
    "C65_float_width_refuted",
    "C65_float_zero_refuted",
    "C65_overflow_refuted",
    "C65_wide_refuted",
    "C65_conversion_refuted",
    "C65_array_refuted"
   ],
   "note": "For every format written with the conversions of TfmSpec.v the output is the one of printf(3) (C65_outputs_partial), missing and unsuitable arguments end the program with the right message if there is at least one argument (C65_errors_partial), neither is ambiguous, and printf always ends (C65_ends). What the C library makes of doubles is a parameter. Refuted, and excluded from the conversions: C65_position_refuted, C65_missing_refuted, C65_left_refuted, C65_star_refuted, C65_zero_precision_refuted, C65_octal_refuted, C65_hex_refuted, C65_float_width_refuted, C65_float_zero_refuted, C65_overflow_refuted, C65_wide_refuted, C65_conversion_refuted, C65_array_refuted."
  },
  {
   "property": "C66",
   "status": "partial",
   "theorems": [
    "C66_settings_partial",
    "C66_named",
    "C66_order_refuted",
    "C66_verify_refuted",
    "C66_template_path_refuted",
    "C66_socket_partial",
    "C66_no_socket_partial",
    "C66_newline_refuted",
    "C66_long_refuted",
    "C66_abbreviation_refuted",
    "C66_url_partial",
    "C66_file",
    "C66_scheme",
    "C66_at_refuted",
    "C66_ipv6_refuted"
   ],
   "note": "Settings: proved when options about the server follow -S; the order matters otherwise (C66_order_refuted), peer verification is off in Server sections by default (C66_verify_refuted), TemplatePath has no effect (C66_template_path_refuted). Socket: proved for files whose lines end in a newline and are shorter than 4095 characters; otherwise refuted (C66_newline_refuted, C66_long_refuted), words abbreviating Control are taken for it (C66_abbreviation_refuted). URLs: proved as documented; an @ in the path and IPv6 addresses are misread (C66_at_refuted, C66_ipv6_refuted). The text of .poundctl is read by the parser of C57; reading it is not modelled here."
  },
  {
   "property": "C67",
   "status": "partial",
   "theorems": [
    "C67_request_partial",
    "C67_credentials_partial",
    "C67_switch_partial",
    "C67_session_partial",
    "C67_object",
    "C67_commands",
    "C67_list_partial",
    "C67_credentials_refuted",
    "C67_user_refuted",
    "C67_name_refuted",
    "C67_key_refuted",
    "C67_space_refuted"
   ],
   "note": "Proved, up to the effect on the daemon of C30: requests are read whole and carry method, resource and credentials (C67_request_partial, C67_credentials_partial), the commands have their effects (C67_switch_partial, C67_session_partial, C67_list_partial). Needs texts without spaces and control characters, credentials of at most 48 bytes, and numbers instead of names in delete and add. Outside of this it is refuted: C67_credentials_refuted (password cut), C67_user_refuted, C67_name_refuted, C67_key_refuted, C67_space_refuted."
  },
  {
   "property": "C68",
   "status": "partial",
   "theorems": [
    "C68_value_partial",
    "C68_status",
    "C68_reply_partial",
    "C68_error",
    "C68_success",
    "C68_ends",
    "C68_told_partial",
    "C68_shown_partial",
    "C68_truncated_refuted",
    "C68_trailing_refuted",
    "C68_silent_refuted",
    "C68_type_refuted",
    "C68_blank_refuted",
    "C68_chunked_refuted",
    "C68_long_refuted"
   ],
   "note": "Proved: the value is taken from answers with a length or ended by the connection (C68_value_partial), any other status is reported (C68_status), what the daemon writes is read back (C68_reply_partial, for the values of C33), all its errors are reported (C68_error), success needs status 200 and true (C68_success), the program always ends (C68_ends), the exit status tells whether the object was switched, composed with C67 and C30 (C68_told_partial), and values are shown (C68_shown_partial; the template is C64). Refuted: an answer that breaks off makes poundctl read memory that was not set (C68_truncated_refuted), what follows the value is ignored (C68_trailing_refuted), a redirect is reported as switched though nothing happens (C68_silent_refuted), and correct answers of other servers are refused or cut (C68_type_refuted, C68_blank_refuted, C68_chunked_refuted, C68_long_refuted)."
  },
  {
   "property": "C69",
   "status": "partial",
   "theorems": [
    "C69_search_partial",
    "C69_rooted",
    "C69_list_partial",
    "C69_stops_partial",
    "C69_undefined",
    "C69_fault_partial",
    "C69_position",
    "C69_verbatim_refuted",
    "C69_unneeded_refuted",
    "C69_empty_refuted",
    "C69_options_refuted"
   ],
   "note": "Proved: the search (C69_search_partial, for names that do not begin with /, ./ or ../; C69_rooted for those), the output of list from file to exit status, composed with C63, C64 and C68 (C69_list_partial, C69_stops_partial, with the restrictions of those), undefined templates and faults are reported (C69_undefined, C69_fault_partial), at a place in the file (C69_position). Refuted: other names are not used verbatim (C69_verbatim_refuted), commands without a template fail too if the file is faulty (C69_unneeded_refuted), empty files are refused (C69_empty_refuted), options -t and -T are exchanged with respect to the manual (C69_options_refuted)."
  },
  {
   "property": "C70",
   "status": "partial",
   "theorems": [
    "C70_redirect_partial",
    "C70_location_partial",
    "C70_slash_refuted",
    "C70_code_refuted",
    "C70_error_partial",
    "C70_errorfile",
    "C70_session",
    "C70_session_refuted"
   ],
   "note": "Proved: which redirects are accepted and what is kept of them (C70_redirect_partial: codes below 2^31, texts without newline), where the client is sent, composed with C16 (C70_location_partial), error backends and error pages (C70_error_partial for codes below 2^31, C70_errorfile), Session sections (C70_session). Refuted: a mere slash is dropped from the URL (C70_slash_refuted), codes are taken modulo 2^32 (C70_code_refuted), a second section needs no Type (C70_session_refuted)."
  },
  {
   "property": "C71",
   "status": "partial",
   "theorems": [
    "C71_suppress",
    "C71_suppress_words",
    "C71_six_refuted",
    "C71_header_option",
    "C71_off_refuted",
    "C71_disable",
    "C71_disable_limits"
   ],
   "note": "Proved: LogSuppress against the classes of the manual for all status codes (C71_suppress, C71_suppress_words), HeaderOption for all lists of words (C71_header_option), Disable in listeners and backends (C71_disable, C71_disable_limits). Refuted: LogSuppress 6 is accepted and does nothing (C71_six_refuted), HeaderOption off, which the manual has, is refused (C71_off_refuted)."
  },
  {
   "property": "C72",
   "status": "partial",
   "theorems": [
    "C72_files_partial",
    "C72_accepted_partial",
    "C72_password_partial",
    "C72_includedir_refuted",
    "C72_absolute_refuted",
    "C72_place_refuted",
    "C72_freed_refuted",
    "C72_nested_refuted",
    "C72_jail_refuted",
    "C72_options"
   ],
   "note": "Proved: the files opened by Include, File, Cert, CAfile statements for all lists of statements (C72_files_partial), acceptance if everything is there (C72_accepted_partial), the password files at run time, by an invariant over reference counts and open directories (C72_password_partial: no Cert with a relative name), the -W options (C72_options). Refuted: IncludeDir before anything else follows a null pointer (C72_includedir_refuted); names with a slash fail if the include directory is gone (C72_absolute_refuted); password files move with a later IncludeDir (C72_place_refuted); relative names in Cert drop references, so that a freed directory is used at requests (C72_freed_refuted); Rewrite sections inside others are passed over (C72_nested_refuted); with RootJail a password file in the root directory is refused (C72_jail_refuted)."
  },
  {
   "property": "C73",
   "status": "partial",
   "theorems": [
    "C73_accepted",
    "C73_plain",
    "C73_mode_partial",
    "C73_condition_partial",
    "C73_issuer_refuted",
    "C73_rewrite_refuted",
    "C73_depth_refuted",
    "C73_order_refuted"
   ],
   "note": "Proved: which listeners are accepted, as an equivalence (C73_accepted, C73_plain), the outcome of connections for each mode, by an invariant over lists of directives (C73_mode_partial), the conditional ClientCert composed with the model of conditions (C73_condition_partial). OpenSSL's verification is an argument. Refuted: presenting the certificate is not enough if no root is known (C73_issuer_refuted); in Rewrite sections the conditional is accepted and always false (C73_rewrite_refuted); the depth has no default (C73_depth_refuted); Cert after VerifyList or CRLlist is accepted and is not subject to them (C73_order_refuted)."
  },
  {
   "property": "C74",
   "status": "partial",
   "theorems": [
    "C74_options",
    "C74_accepted",
    "C74_wide_refuted",
    "C74_refused_partial",
    "C74_backend_partial",
    "C74_unharmed",
    "C74_allowed",
    "C74_modern_refuted"
   ],
   "note": "Proved: the options of every context from the directives, bit by bit (C74_options, C74_accepted); with the state numbers of OpenSSL before 1.1.0 a client that begins a second handshake is cut off for good, with its backends (C74_refused_partial, C74_backend_partial); other clients see exactly what they see with the defence off (C74_unharmed); modes 1 and 2 (C74_allowed). Refuted: with the state numbers of OpenSSL 1.1.0 and later the defence never acts (C74_modern_refuted); with 64-bit options and bit 31 in SSL_OP_ALL (OpenSSL 3) the upper 32 options are all set (C74_wide_refuted). What OpenSSL passes to its callbacks and the values of its constants are taken from its documentation, not from /repo."
  },
  {
   "property": "C75",
   "status": "partial",
   "theorems": [
    "C75_bound_partial",
    "C75_client",
    "C75_backend",
    "C75_served",
    "C75_unlimited",
    "C75_body_partial",
    "C75_signals_refuted",
    "C75_long_refuted",
    "C75_body_refuted"
   ],
   "note": "Proved: each wait for a client is within the time, without signals and up to 2147483 seconds (C75_bound_partial); a timeout is final, for clients and for each connection to a backend (C75_client, C75_backend); who is ready is served (C75_served); 0 is no limit (C75_unlimited); how long the body of a response without length is looked for (C75_body_partial). Refuted: every signal begins the wait anew (C75_signals_refuted); times above 2147483 seconds are accepted and nothing is ever read (C75_long_refuted); with TimeOut 0 such a body is dropped unless it is there at once (C75_body_refuted)."
  },
  {
   "property": "C76",
   "status": "partial",
   "theorems": [
    "C76_socket",
    "C76_pidfile",
    "C76_removed_partial",
    "C76_pid_removed_partial",
    "C76_others_partial",
    "C76_late_jail_refuted",
    "C76_relative_refuted",
    "C76_top_refuted",
    "C76_rights_refuted",
    "C76_stray_refuted",
    "C76_failed_refuted",
    "C76_long",
    "C76_long_refuted"
   ],
   "note": "Proved: mode, owner and place of control sockets (C76_socket) and the PID file (C76_pidfile); both are removed at the end, and nothing else is touched, when RootJail comes before Control, names are absolute or pound does not detach, the file is not directly in /, and the user may write to the directory (C76_removed_partial, C76_pid_removed_partial, C76_others_partial); over-long names are refused (C76_long). Refuted: RootJail after Control leaves the socket and removes a file inside the jail (C76_late_jail_refuted); a relative name with Daemon (C76_relative_refuted), a socket in / with RootJail (C76_top_refuted) and any file in a directory of root with User (C76_rights_refuted) stay; a second Socket statement makes pound remove a file it has not made (C76_stray_refuted); a second pound that fails to start replaces the socket of the first (C76_failed_refuted); a name of 108 bytes is accepted but cannot be bound (C76_long_refuted)."
  },
  {
   "property": "C77",
   "status": "partial",
   "theorems": [
    "C77_identity",
    "C77_final",
    "C77_user",
    "C77_unknown",
    "C77_jail",
    "C77_groups_refuted"
   ],
   "note": "Proved: user and group identities (C77_identity), no way back (C77_final), for whoever starts pound (C77_user), unknown users and groups (C77_unknown), the jail (C77_jail). Refuted: the supplementary groups of whoever started pound stay (C77_groups_refuted)."
  },
  {
   "property": "C78",
   "status": "partial",
   "theorems": [
    "C78_address",
    "C78_from_partial",
    "C78_from_refuted",
    "C78_names"
   ],
   "note": "Proved: the last Address and Port count, with the default port and the preference for the IPv6 wildcard (C78_address); SocketFrom after Address or Port is refused (C78_from_partial); names are unique (C78_names). Refuted: Address or Port after SocketFrom is accepted and without effect (C78_from_refuted)."
  },
  {
   "property": "C79",
   "status": "partial",
   "theorems": [
    "C79_drained",
    "C79_awake",
    "C79_not_early",
    "C79_time_up",
    "C79_at_once",
    "C79_last",
    "C79_queue_refuted",
    "C79_next_refuted",
    "C79_clock_refuted"
   ],
   "note": "Proved: no request is being served when the wait ends early (C79_drained), no lost wakeup (C79_awake), the wait ends because of the time exactly when Grace has passed, if nobody sets the clock (C79_not_early, C79_time_up), TERM and QUIT end at once (C79_at_once), no connection that came after the signal is served (C79_last). Refuted: connections that wait in the queue are dropped when no worker is serving at the signal (C79_queue_refuted) or when the last one ends before the next is taken (C79_next_refuted); a clock set back prolongs the wait (C79_clock_refuted)."
  },
  {
   "property": "C80",
   "status": "partial",
   "theorems": [
    "C80_copy",
    "C80_free",
    "C80_copy_null_partial",
    "C80_outlives",
    "C80_new",
    "C80_append_partial",
    "C80_get",
    "C80_past_end",
    "C80_set",
    "C80_empty_copy_refuted",
    "C80_gap_refuted",
    "C80_replace_refuted"
   ],
   "note": "Proved: the copy is equal, in new memory, and touches nothing (C80_copy); release is exact (C80_free); a copy outlives its source (C80_outlives); a copy that fails leaves nothing (C80_copy_null_partial: the first place is NULL); past the end nothing is read or written (C80_past_end); new arrays, appends in any number, element access and names of objects (C80_new, C80_append_partial: an array that is not the copy of an empty one, C80_get, C80_set). Refuted: the copy of an empty array cannot be appended to and is released twice (C80_empty_copy_refuted); a value put beyond the end leaves unwritten places that are followed (C80_gap_refuted); replacing an element of an array loses the memory of the old one (C80_replace_refuted)"
  },
  {
   "property": "C81",
   "status": "partial",
   "theorems": [
    "C81_no_deadlock_partial",
    "C81_only_timer_partial",
    "C81_deadlock_refuted",
    "C81_exclusive",
    "C81_sleep",
    "C81_network",
    "C81_end",
    "C81_guarded_partial",
    "C81_no_race_partial",
    "C81_locate_refuted",
    "C81_disable_refuted"
   ],
   "note": "Proved for any number of threads and every schedule: no deadlock if no job of a dynamic backend is cancelled (C81_no_deadlock_partial); the timer that cancels is part of every deadlock (C81_only_timer_partial); mutual exclusion, sleeping threads and threads that wait for the network keep no lock, ending threads neither (C81_exclusive, C81_sleep, C81_network, C81_end); lists of services are used under the lock, except by control requests that name a backend (C81_guarded_partial, C81_no_race_partial). Refuted: a dynamic backend disabled and enabled again can stop the timer and the service for ever (C81_deadlock_refuted); control requests look for a backend without the lock (C81_locate_refuted), and disabling a dynamic backend changes the lists without it (C81_disable_refuted)."
  },
  {
   "property": "C82",
   "status": "partial",
   "theorems": [
    "C82_steady",
    "C82_alone_partial",
    "C82_refused_refuted",
    "C82_released_refuted",
    "C82_deleted_refuted"
   ],
   "note": "Proved: every answer is right and no released entry is used as long as the file is not saved (C82_steady, any number of requests, any schedule); a request that is alone reads a changed or removed file right, from any list (C82_alone_partial). Refuted: a user who is in the file before and after is refused while another request reads it again (C82_refused_refuted), released entries are used (C82_released_refuted), a deleted user is let in for good after two overlapping readings (C82_deleted_refuted)."
  },
  {
   "property": "C83",
   "status": "proved",
   "theorems": [
    "C83_format",
    "C83_names",
    "C83_accept",
    "C83_define",
    "C83_facility"
   ],
   "note": "For every sequence of directives that is accepted, what is logged of a request of each listener is what the format its LogLevel stands for prints (C83_format); names are unique and all formats compile (C83_names); LogLevel, sections and LogFormat are accepted exactly when they should be (C83_accept, C83_define); LogFacility (C83_facility). What formats print is C42, which statuses are suppressed is C71."
  },
  {
   "property": "C84",
   "status": "partial",
   "theorems": [
    "C84_sent_partial",
    "C84_verified_partial",
    "C84_works",
    "C84_client",
    "C84_host_refuted",
    "C84_anonymous_refuted"
   ],
   "note": "Proved: with verification on, requests are sent over TLS only to a server that has shown a certificate trusted by CAFile or CAPath, or that has shown none (C84_sent_partial from .poundctl and options, C84_verified_partial for any settings); trusted servers are connected to (C84_works); encryption and client certificate (C84_client). Refuted: the certificate may be that of another host (C84_host_refuted), and a server without a certificate passes (C84_anonymous_refuted). See also C66_verify_refuted: Server sections switch verification off."
  },
  {
   "property": "C85",
   "status": "partial",
   "theorems": [
    "C85_connect_partial",
    "C85_success",
    "C85_probe_partial",
    "C85_alive",
    "C85_long_refuted",
    "C85_socket_file_refuted"
   ],
   "note": "Proved for timeouts of at most 2147483 s: C85_connect_partial and C85_probe_partial (backends in the network); C85_success and C85_alive for any outcome of system calls. Refuted: longer timeouts overflow the number of milliseconds (C85_long_refuted); a backend behind a socket file with a full queue is not waited for (C85_socket_file_refuted)."
  }
 ]
}