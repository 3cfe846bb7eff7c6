{
 "claims": [
  {
   "property": "C01",
   "status": "proved",
   "theorems": [
    "C01_option_precedence",
    "C01_option_total",
    "C01_sources_hold_last_binding"
   ],
   "note": "Exact for every provider whose flag pointer is not nil (a nil *pflag.Flag crashes the read); histories of provider calls covered by C01_sources_hold_last_binding."
  },
  {
   "property": "C02",
   "status": "proved",
   "theorems": [
    "C02_int32",
    "C02_int64",
    "C02_uint32",
    "C02_uint64",
    "C02_bool",
    "C02_numerals_unambiguous",
    "C02_int32_round_trip",
    "C02_int64_round_trip",
    "C02_uint32_round_trip",
    "C02_uint64_round_trip"
   ],
   "note": "Exact readings for all four integer kinds and booleans, with round trip. Float getters (provider.go 179-205) are not modelled."
  },
  {
   "property": "C03",
   "status": "partial",
   "theorems": [
    "C03_registered_default_refuted",
    "C03_set_default_always_panics",
    "C03_defaults_partial"
   ],
   "note": "False of the code: NewProvider leaves the defaults map nil, so every SetDefault panics. Refuted with a witness and for every history; the remaining truth is C03_defaults_partial."
  },
  {
   "property": "C04",
   "status": "proved",
   "theorems": [
    "C04_connect_protocol",
    "C04_language",
    "C04_config_extension",
    "C04_command_runs_only_if",
    "C04_command_runs_if",
    "C04_missing_config_file_stops",
    "C04_init_language",
    "C04_never_crashes"
   ],
   "note": "Exact acceptance sets; opening and decoding files are parameters."
  },
  {
   "property": "C05",
   "status": "proved",
   "theorems": [
    "C05_output",
    "C05_result",
    "C05_at_once",
    "C05_success",
    "C05_progress",
    "C05_cancelled"
   ],
   "note": "Every schedule of the select loop (channels may become ready, close or be cancelled at any time): output, result, immediacy, success only on a closed stream, progress."
  },
  {
   "property": "C06",
   "status": "proved",
   "theorems": [
    "C06_one",
    "C06_order",
    "C06_error",
    "C06_ends",
    "C06_start",
    "C06_at_once",
    "C06_picked",
    "C06_over"
   ],
   "note": "Every interleaving of commands, keys and engine events: at most one validation, results in order, error status exactly when an error message came while results were shown, and then the session ends."
  },
  {
   "property": "C07",
   "status": "proved",
   "theorems": [
    "C07_first_in_first_out",
    "C07_at_most_one_poller",
    "C07_poll_answer",
    "C07_poll_empty"
   ],
   "note": "Every history of enqueue/poll/result/waiter-gone steps; mutex-protected handler bodies are atomic steps."
  },
  {
   "property": "C08",
   "status": "proved",
   "theorems": [
    "C08_result_reaches_waiter",
    "C08_result_for_gone_waiter",
    "C08_unknown_id_not_found",
    "C08_only_results_deliver",
    "C08_at_most_one_result",
    "C08_handed_out_stays_known"
   ],
   "note": "Every history, any ids. An id reused while in process abandons the first waiter (visible in the definition of in_process)."
  },
  {
   "property": "C09",
   "status": "proved",
   "theorems": [
    "C09_all_sent",
    "C09_stops_at_first_failure",
    "C09_no_registry"
   ],
   "note": "The registry's send is an arbitrary world-passing function."
  },
  {
   "property": "C10",
   "status": "proved",
   "theorems": [
    "C10_reads_last_save",
    "C10_not_found",
    "C10_save_other_id"
   ],
   "note": "Every interleaving of the two lock-protected halves of concurrent saves."
  },
  {
   "property": "C11",
   "status": "proved",
   "theorems": [
    "C11_latest_listing",
    "C11_listing_size",
    "C11_ids_distinct",
    "C11_sequential_saves"
   ],
   "note": "Ordered by first completed save; a listing taken between the two halves of a save does not show the new id."
  },
  {
   "property": "C12",
   "status": "partial",
   "theorems": [
    "C12_output_kept_refuted",
    "C12_completion_output_refuted"
   ],
   "note": "False of the code: the store always writes output None (the save payload has no output field). Proved for every history."
  },
  {
   "property": "C13",
   "status": "proved",
   "theorems": [
    "C13_sequential_order"
   ],
   "note": "Every schedule in which saves succeed and handlers answer; parallel and wait states are not part of a chain (C18, C60)."
  },
  {
   "property": "C14",
   "status": "partial",
   "theorems": [
    "C14_transition_saved_first",
    "C14_call_announced_first",
    "C14_completion_saved_first",
    "C14_failure_saved_first_refuted"
   ],
   "note": "Proved for transitions, handler calls and successful completions; refuted for failures: the failed state and the failed execution are broadcast whatever happens to the save."
  },
  {
   "property": "C15",
   "status": "partial",
   "theorems": [
    "C15_retry_needs_rule",
    "C15_retries_bounded_refuted"
   ],
   "note": "False of the code: the attempt number is always read from the first record of the state, so a positive limit is never reached. A retry always needs a matching rule whose limit is positive or absent."
  },
  {
   "property": "C16",
   "status": "partial",
   "theorems": [
    "C16_first_retry_rule_applies",
    "C16_first_catch_rule_applies",
    "C16_template_error_caught_by_name_refuted"
   ],
   "note": "Proved for handler failures; refuted for template errors, which carry no name and are matched only by the wildcard."
  },
  {
   "property": "C17",
   "status": "partial",
   "theorems": [
    "C17_delay_capped",
    "C17_delay_formula",
    "C17_jitter_crash_cap_refuted",
    "C17_jitter_crash_interval_refuted",
    "C17_defined",
    "C17_backoff_grows_refuted"
   ],
   "note": "Delay formula and cap over IEEE binary64 (Flocq); powf and the random draw are parameters. Refuted: the number the delay is computed from is always -1, and jitter with a non-positive cap or zero interval crashes."
  },
  {
   "property": "C18",
   "status": "partial",
   "theorems": [
    "C18_branch_stops_refuted",
    "C18_step_in_branch_refuted",
    "C18_all_branches_started",
    "C18_waits_for_all",
    "C18_results_in_branch_order",
    "C18_branch_failure_fails_state",
    "C18_branch_outputs_collected_refuted",
    "C18_branch_records_refuted"
   ],
   "note": "C18_branch_records_refuted: no save ever shows the branches of a parallel state. Start, join, order and failure of branches proved. The rest of the statement fails: a handler call is the last a branch is seen to do (C18_branch_stops_refuted), so a parallel state with a branch that executed a step fails (C18_step_in_branch_refuted), and a branch of steps can only ever deliver the empty object or fail."
  },
  {
   "property": "C19",
   "status": "partial",
   "theorems": [
    "C19_ended",
    "C19_crashed",
    "C19_completion_reported",
    "C19_handler_failure_visible",
    "C19_output_failure_visible",
    "C19_completion_reported_partial",
    "C19_missing_start_state_refuted",
    "C19_input_path_failure_refuted",
    "C19_failed_final_save_refuted",
    "C19_recorded_announced",
    "C19_silent_record_refuted",
    "C19_status_text",
    "C19_success_text_refuted"
   ],
   "note": "C19_status_text: the text saved beside a running or failed status; C19_success_text_refuted: none tells of success, a finished execution still reads as executing its last state. C19_recorded_announced and C19_silent_record_refuted: what is recorded of an execution that ended. Handler, result path and output path failures are stored and announced. Refuted for a missing start state, an input path failure, a template failure (C16) and a failed final save. C19_ended and C19_crashed give, for every workflow and schedule, all the reasons for which an execution ends without a completion and for which it crashes; C19_completion_reported follows."
  },
  {
   "property": "C20",
   "status": "partial",
   "theorems": [
    "C20_recorded_input",
    "C20_handler_input_refuted"
   ],
   "note": "False of the code: the handler is given the whole input; only the stored record shows the selected input."
  },
  {
   "property": "C21",
   "status": "partial",
   "theorems": [
    "C21_parse_written",
    "C21_trailing_backslash_refuted",
    "C21_path_cut_refuted"
   ],
   "note": "Every call of the documented grammar is understood as written, given a JSON path parser that refuses texts starting like other arguments. Refuted: no string ending with a backslash can be written, and paths with a closing parenthesis outside of brackets or with nested brackets are cut short."
  },
  {
   "property": "C22",
   "status": "partial",
   "theorems": [
    "C22_render",
    "C22_render_exact",
    "C22_error",
    "C22_first_error_sequence",
    "C22_first_error",
    "C22_order",
    "C22_selection_ambiguous_refuted"
   ],
   "note": "Sound for every template; exact (if and only if) for templates without the random functions; errors and the first error characterised; iteration order of maps does not matter. JSON path evaluation is a parameter. Refuted: a list found once and its elements found one by one give the same value."
  },
  {
   "property": "C23",
   "status": "partial",
   "theorems": [
    "C23_chunk_list",
    "C23_chunk_size_refuted",
    "C23_list_elem",
    "C23_list_elem_out_of_range",
    "C23_index_refuted",
    "C23_remove_duplicates",
    "C23_contains",
    "C23_contains_text",
    "C23_len",
    "C23_len_text_refuted"
   ],
   "note": "Exact for integer sizes and indexes; refuted: size 0, negative or fractional sizes and indexes crash, and the length of a string is its number of bytes."
  },
  {
   "property": "C24",
   "status": "partial",
   "theorems": [
    "C24_split",
    "C24_split_empty_refuted",
    "C24_jsonmerge",
    "C24_base64",
    "C24_base64_bytes_refuted",
    "C24_hash",
    "C24_format",
    "C24_format_nested_refuted",
    "C24_format_count",
    "C24_format_types"
   ],
   "note": "Proved for non-empty separators, sorted objects, all texts of scalar values, and format strings with as many placeholders as brace-free arguments. Refuted: empty separator, bytes that are not UTF-8, an argument that contains a placeholder."
  },
  {
   "property": "C25",
   "status": "partial",
   "theorems": [
    "C25_add",
    "C25_sub",
    "C25_mult",
    "C25_div",
    "C25_exact_arguments",
    "C25_div_by_zero",
    "C25_overflow_refuted",
    "C25_computed_index_refuted",
    "C25_rand",
    "C25_rand_bounds_refuted"
   ],
   "note": "IEEE double results (Flocq) for all documents' numbers when the result is finite; division by zero is an error; refuted: an infinite result and random bounds outside i64 crash, and computed numbers cannot be used as indexes."
  },
  {
   "property": "C26",
   "status": "partial",
   "theorems": [
    "C26_inject",
    "C26_inject_exact",
    "C26_fails",
    "C26_other_path_refuted",
    "C26_extract"
   ],
   "note": "Exact; refuted for paths without a root that go on after the first field, which overwrite that field."
  },
  {
   "property": "C27",
   "status": "proved",
   "theorems": [
    "C27_cursor_stays_inside",
    "C27_reads_left_to_right",
    "C27_peek_pop_take",
    "C27_transform",
    "C27_end",
    "C27_reads_everything",
    "C27_backtrack_restores",
    "C27_scan",
    "C27_scan_exact",
    "C27_failed_scan_consumes"
   ],
   "note": "The Rust scanner (cursor, peek, pop, take, transform, scan, save/backtrack) characterised against the remaining text."
  },
  {
   "property": "C28",
   "status": "partial",
   "theorems": [
    "C28_delete",
    "C28_once",
    "C28_deleted",
    "C28_default_refuted",
    "C28_missing_refuted"
   ],
   "note": "All executions of the consumer with its heartbeats; refuted: without a setting for failures failed batches are deleted, and without a registered handler messages are deleted unseen."
  },
  {
   "property": "C29",
   "status": "partial",
   "theorems": [
    "C29_dead",
    "C29_progress",
    "C29_receptive",
    "C29_bounded",
    "C29_pause",
    "C29_request",
    "C29_handler_panic_refuted",
    "C29_incomplete_refuted"
   ],
   "note": "Progress and a bound of eight steps to the next poll for all executions in which the handler does not panic and messages are complete; refuted for those two, which end the polling task."
  },
  {
   "property": "C30",
   "status": "partial",
   "theorems": [
    "C30_extend",
    "C30_live",
    "C30_bound",
    "C30_terminate",
    "C30_terminated",
    "C30_after_refuted",
    "C30_zero_interval_refuted"
   ],
   "note": "Entries, time and interval of extensions exact; at most two extensions after handling ended; the consumer's own request sets zero, once, only after failure. Refuted: an extension may follow the request that sets zero, and an interval of zero turns extensions off."
  },
  {
   "property": "C31",
   "status": "proved",
   "theorems": [
    "C31_check_answers_current_status",
    "C31_wait_answers_final_status",
    "C31_received_means_acknowledged",
    "C31_poll_answers_iff_final",
    "C31_forgotten_only_after_reported_lost"
   ],
   "note": "Answers characterised by the log for every schedule of main loop, checker and waiters."
  },
  {
   "property": "C32",
   "status": "partial",
   "theorems": [
    "C32_decisions_are_due",
    "C32_due_is_decided",
    "C32_only_decided_actions",
    "C32_decided_is_handed_over",
    "C32_bounded_resends_partial",
    "C32_bounded_resends_refuted",
    "C32_defaults"
   ],
   "note": "Decisions exact (sound and complete), hand-over complete and in order; the bound holds when each resend is recorded before the next decision and is refuted otherwise."
  },
  {
   "property": "C33",
   "status": "partial",
   "theorems": [
    "C33_resend_target_refuted",
    "C33_resend_content_partial"
   ],
   "note": "Refuted: the resend is addressed to the message id; its text and clients are those of the last send."
  },
  {
   "property": "C34",
   "status": "proved",
   "theorems": [
    "C34_send_outcome",
    "C34_local_iff_registered"
   ],
   "note": "Every send's effects are a prefix of one of four complete traces; local lookup characterised by adds and removes."
  },
  {
   "property": "C35",
   "status": "proved",
   "theorems": [
    "C35_processes_exactly_the_addressed",
    "C35_never_its_own"
   ],
   "note": "Exact: processed messages are the addressed prefix of the published ones, in order; any number of nodes and any schedule."
  },
  {
   "property": "C36",
   "status": "partial",
   "theorems": [
    "C36_delivered",
    "C36_delivered_unless_id_reused",
    "C36_acknowledged",
    "C36_settles",
    "C36_only_sent_messages_are_written",
    "C36_no_other_connection",
    "C36_no_other_connection_refuted",
    "C36_written_at_most_once_per_publication",
    "C36_received_is_dropped"
   ],
   "note": "Delivery and acknowledgement at quiescence, termination of bus activity, provenance of every write. 'No other connection' is refuted in general (retries are addressed to the message id) and proved for connection ids never used as message ids."
  },
  {
   "property": "C37",
   "status": "partial",
   "theorems": [
    "C37_signature_text",
    "C37_signing_succeeds",
    "C37_signed_headers",
    "C37_signed_date_is_signer_time",
    "C37_round_trip_partial",
    "C37_key_id_separators_refuted",
    "C37_capitalised_date_refuted"
   ],
   "note": "C37_signature_text: the signer writes the one base64 text of the code, against an independent bit-level definition. Round trip for every MAC, header map, name list and clock; refuted for key ids with separators and for a capitalised date header name."
  },
  {
   "property": "C38",
   "status": "partial",
   "theorems": [
    "C38_signature_text",
    "C38_one_signature",
    "C38_accepted_is_authentic",
    "C38_date_is_covered",
    "C38_listed_header_is_covered_partial",
    "C38_key_id_is_covered",
    "C38_joint_change_refuted"
   ],
   "note": "C38_signature_text and C38_one_signature: which texts the verifier takes for which bytes, against an independent bit-level definition of base64. Date and key id fully covered, one changed header value always detected; two values changed together can pass (refuted)."
  },
  {
   "property": "C39",
   "status": "partial",
   "theorems": [
    "C39_accepted_exact",
    "C39_freshness_window_partial",
    "C39_accepted_is_fresh",
    "C39_small_date_refuted",
    "C39_large_date_refuted"
   ],
   "note": "Exact window for both build profiles; refuted within a skew of 0 and of 2^64. C39_accepted_exact says for every request and either build exactly when it is accepted."
  },
  {
   "property": "C40",
   "status": "partial",
   "theorems": [
    "C40_crashes_exact",
    "C40_strangers",
    "C40_verification_answers_partial",
    "C40_signing_answers",
    "C40_short_value_refuted"
   ],
   "note": "Crash-free when every value has two bytes; a shorter value crashes the verifier before authentication (refuted). C40_crashes_exact says for every request exactly when the verifier crashes; C40_strangers that a caller without a key can only do so by a short value."
  },
  {
   "property": "C41",
   "status": "partial",
   "theorems": [
    "C41_unambiguous_partial",
    "C41_key_and_date_determined",
    "C41_signed_text_is_message",
    "C41_comma_refuted",
    "C41_same_message_refuted"
   ],
   "note": "Injective when header values have no comma; refuted with commas."
  },
  {
   "property": "C42",
   "status": "partial",
   "theorems": [
    "C42_route",
    "C42_exact",
    "C42_drop",
    "C42_empty_refuted"
   ],
   "note": "Over all executions: routed at once with exactly this payload, and a binary call comes from exactly such a message; everything else that is not empty is dropped and the session goes on. Refuted for the empty binary message, which panics."
  },
  {
   "property": "C43",
   "status": "proved",
   "theorems": [
    "C43_call",
    "C43_dispatch",
    "C43_drop",
    "C43_close",
    "C43_end",
    "C43_silent"
   ],
   "note": "Over all executions of all sessions; JSON parsing is a parameter."
  },
  {
   "property": "C44",
   "status": "partial",
   "theorems": [
    "C44_registered",
    "C44_removed",
    "C44_own_id",
    "C44_crash_refuted",
    "C44_shared_id_refuted"
   ],
   "note": "Registered while alive when ids are distinct, never registered after the end, only under its own id. Refuted: a session that panics stays registered, and of two clients that choose the same id (x-request-id) the one that leaves deregisters the other."
  },
  {
   "property": "C45",
   "status": "partial",
   "theorems": [
    "C45_exact",
    "C45_complete",
    "C45_no_selector",
    "C45_value_refuted",
    "C45_every_refuted"
   ],
   "note": "A resource is selected exactly when it has the type and a label with one of the selector's keys. Refuted: the value of the label is not compared, and one label of several is enough."
  },
  {
   "property": "C46",
   "status": "partial",
   "theorems": [
    "C46_exact",
    "C46_own_refuted"
   ],
   "note": "Exact timeout of every collected handler. Refuted: own and handler config timeouts below an hour become an hour (max instead of min), larger ones are not cut; the shared timeout is never cut."
  },
  {
   "property": "C47",
   "status": "proved",
   "theorems": [
    "C47_first",
    "C47_api"
   ],
   "note": "All blueprints in which a handler has at most one handler config; a handler without location is rejected by C49_rejects."
  },
  {
   "property": "C48",
   "status": "proved",
   "theorems": [
    "C48_segments",
    "C48_total",
    "C48_one_way",
    "C48_injective"
   ],
   "note": "All paths; conversion is injective on paths whose literal segments do not begin with : or *."
  },
  {
   "property": "C49",
   "status": "proved",
   "theorems": [
    "C49_collected",
    "C49_rejects",
    "C49_accepts"
   ],
   "note": "All blueprints: collected once, with method and path; setup fails when a handler is linked by two labels, marked for both kinds or without location, and succeeds otherwise."
  },
  {
   "property": "C50",
   "status": "partial",
   "theorems": [
    "C50_hybrid_refuted",
    "C50_single"
   ],
   "note": "Refuted for every API with handlers of both kinds: base paths are never read from the blueprint. With one kind setup succeeds."
  },
  {
   "property": "C51",
   "status": "proved",
   "theorems": [
    "C51_read_as_written",
    "C51_plain_text"
   ],
   "note": "Any alternation of plain text and references in both documented forms, with identifier classes as a parameter."
  },
  {
   "property": "C52",
   "status": "partial",
   "theorems": [
    "C52_last_other_kind_kept_partial",
    "C52_later_references_refuted",
    "C52_text_lost_refuted",
    "C52_unclosed_refuted"
   ],
   "note": "Proved: a substitution of another kind, the last one, is kept as text. Refuted: references after it are lost, text before an earlier one is lost or duplicated, unclosed braces duplicate text."
  },
  {
   "property": "C53",
   "status": "proved",
   "theorems": [
    "C53_never_panics"
   ],
   "note": "All strings; also the list of parts is never empty, used by C55."
  },
  {
   "property": "C54",
   "status": "proved",
   "theorems": [
    "C54_string",
    "C54_typed",
    "C54_one_type"
   ],
   "note": "Exact: result iff the denoted text/scalar, error iff a variable is missing; the type of a value is unique. f64 parsing is a parameter."
  },
  {
   "property": "C55",
   "status": "proved",
   "theorems": [
    "C55_mapping",
    "C55_documents"
   ],
   "note": "Exact characterisation of success, shape and each error; documents read from JSON or YAML meet the hypothesis."
  },
  {
   "property": "C56",
   "status": "partial",
   "theorems": [
    "C56_yaml_ignored",
    "C56_json_ignored_partial",
    "C56_json_rejected_refuted",
    "C56_supported_only",
    "C56_yaml_kept",
    "C56_json_kept"
   ],
   "note": "Proved for YAML and for JSON resources that give the type first and use known keys; refuted otherwise (an unknown key or a spec before the type rejects the whole JSON blueprint). What is read has supported resources only and at least one."
  },
  {
   "property": "C57",
   "status": "proved",
   "theorems": [
    "C57_http_handlers_listed",
    "C57_websocket_handlers_listed",
    "C57_consumer_handlers_listed",
    "C57_schedule_handlers_listed",
    "C57_state_handlers_listed",
    "C57_tracing",
    "C57_nothing_else",
    "C57_http_tags_identify"
   ],
   "note": "Both local APIs."
  },
  {
   "property": "C58",
   "status": "proved",
   "theorems": [
    "C58_identity_kept"
   ],
   "note": "Every schedule and every pattern of save failures."
  },
  {
   "property": "C59",
   "status": "proved",
   "theorems": [
    "C59_no_deadlock"
   ],
   "note": "Model of the execution mutex and the joins; the read lock on the handler table is not modelled."
  },
  {
   "property": "C60",
   "status": "partial",
   "theorems": [
    "C60_exact",
    "C60_literal_seconds",
    "C60_literal_only_digits",
    "C60_timestamp",
    "C60_future_accepted",
    "C60_past_rejected",
    "C60_path_from_input_refuted",
    "C60_state_waits",
    "C60_timestamp_crash_refuted"
   ],
   "note": "Literals and timestamps exact; a timestamp that cannot be read or has passed crashes the execution instead of failing the state (refuted); refuted for JSON paths, under the library's documented behaviour that find answers a list or null."
  },
  {
   "property": "C61",
   "status": "partial",
   "theorems": [
    "C61_acknowledgement_is_final_partial",
    "C61_acknowledgement_is_final_refuted"
   ],
   "note": "Holds when the checker has nothing in hand about the message; refuted by an acknowledgement arriving between scan and report."
  },
  {
   "property": "C62",
   "status": "partial",
   "theorems": [
    "C62_waited_success_means_written_partial",
    "C62_waited_success_means_delivered_refuted",
    "C62_waits_for_acknowledgement_refuted",
    "C62_success_means_sent_somewhere_refuted"
   ],
   "note": "Proved: a registered, successful wait implies a write by another node. Refuted: the write may have failed; without a running tracker or broadcaster success is reported without any delivery."
  },
  {
   "property": "C63",
   "status": "partial",
   "theorems": [
    "C63_references_are_written",
    "C63_rest_ignored_refuted"
   ],
   "note": "Every reported name is written; refuted: text after the name inside the braces is ignored."
  },
  {
   "property": "C64",
   "status": "partial",
   "theorems": [
    "C64_same_meaning_partial",
    "C64_json_reference_refuted",
    "C64_json_integer_refuted"
   ],
   "note": "Equal for documents without references, nested JSON strings and large integers; refuted for references (never resolved in JSON) and integers from 2^63."
  },
  {
   "property": "C65",
   "status": "partial",
   "theorems": [
    "C65_same_partial",
    "C65_types_refuted",
    "C65_transform_refuted",
    "C65_transform_list_refuted",
    "C65_metadata_refuted"
   ],
   "note": "Equal for documents with the six common types in the common layout; refuted for four resource types, for documents without a transform, (example) for resources without a spec, for transform lists (lost in YAML) and for metadata without a shared handler configuration."
  },
  {
   "property": "C66",
   "status": "partial",
   "theorems": [
    "C66_integer_and_boolean",
    "C66_whole_float_refuted",
    "C66_text_partial",
    "C66_numeric_text_refuted"
   ],
   "note": "Integers and booleans exact; refuted for whole numbers as floats and numeric text."
  },
  {
   "property": "C67",
   "status": "partial",
   "theorems": [
    "C67_document_read",
    "C67_empty_yaml_refuted"
   ],
   "note": "No panic for any document; refuted for a YAML text without a document."
  },
  {
   "property": "C68",
   "status": "partial",
   "theorems": [
    "C68_terminates",
    "C68_accepted_start",
    "C68_unclosed_refuted",
    "C68_trailing_refuted",
    "C68_misread_refuted"
   ],
   "note": "Parsing ends for every text and what is accepted starts with a name and a parenthesis. Refuted: a missing closing parenthesis, trailing text and words such as t5 are accepted."
  },
  {
   "property": "C69",
   "status": "partial",
   "theorems": [
    "C69_functions",
    "C69_render",
    "C69_refuted",
    "C69_float_refuted"
   ],
   "note": "Exact characterisation of the crashing calls; refuted for each of them and for numbers that are not finite."
  },
  {
   "property": "C70",
   "status": "partial",
   "theorems": [
    "C70_call",
    "C70_every",
    "C70_empty_refuted"
   ],
   "note": "At most once, complete, and every received batch before the next poll; refuted only in that the handler is also called with an empty batch for polls that bring nothing."
  },
  {
   "property": "C71",
   "status": "partial",
   "theorems": [
    "C71_blocked_refuted",
    "C71_window",
    "C71_addressee"
   ],
   "note": "Written at most once, to a session opened under that id; messages that wait when a frame arrives are written before the next frame is read. Refuted: while a session waits for its client, whatever else happens, no message is written to it."
  },
  {
   "property": "C72",
   "status": "partial",
   "theorems": [
    "C72_reply_refuted",
    "C72_others"
   ],
   "note": "Refuted for every execution in which a handler sends to its own connection and waits: it never returns. A handler can send to connections elsewhere and to sockets nobody uses."
  },
  {
   "property": "C73",
   "status": "proved",
   "theorems": [
    "C73_sequential"
   ],
   "note": "All executions."
  },
  {
   "property": "C74",
   "status": "partial",
   "theorems": [
    "C74_handlers",
    "C74_key_refuted"
   ],
   "note": "Handler definitions carry the configured key and route. Refuted: the server always uses the key event."
  },
  {
   "property": "C75",
   "status": "partial",
   "theorems": [
    "C75_called_refuted",
    "C75_server_at"
   ],
   "note": "Refuted: setup registers no routes with the WebSocket server, so in no execution of the session model is a handler called."
  },
  {
   "property": "C76",
   "status": "partial",
   "theorems": [
    "C76_order",
    "C76_unnamed_refuted",
    "C76_configs_refuted"
   ],
   "note": "Proved for a named API and at most one handler config per handler. Refuted without a name when there are two APIs, and for two handler configs."
  },
  {
   "property": "C77",
   "status": "partial",
   "theorems": [
    "C77_missing_refuted",
    "C77_found"
   ],
   "note": "Refuted: setup succeeds without API and without server."
  },
  {
   "property": "C78",
   "status": "partial",
   "theorems": [
    "C78_name_refuted"
   ],
   "note": "Refuted: the name is always empty. The resource name is in another field (C49)."
  },
  {
   "property": "C79",
   "status": "partial",
   "theorems": [
    "C79_end_refuted",
    "C79_finished_refuted",
    "C79_empty_refuted",
    "C79_only_empty"
   ],
   "note": "False: the session only ends for a key or an error (C79_end_refuted), it never finishes (C79_finished_refuted), and once the stream is closed any number of empty results is shown (C79_empty_refuted). C79_only_empty: after that nothing else is shown."
  },
  {
   "property": "C80",
   "status": "partial",
   "theorems": [
    "C80_kept",
    "C80_late_refuted"
   ],
   "note": "C80_kept: an error once received reaches the interface. False in general (C80_late_refuted): the check gives up after a while and is only renewed by a result, so a later error is not received."
  },
  {
   "property": "C81",
   "status": "partial",
   "theorems": [
    "C81_validated",
    "C81_shown",
    "C81_other_refuted"
   ],
   "note": "False (C81_other_refuted): the first selection is validated (C81_validated), the last is shown (C81_shown)."
  },
  {
   "property": "C82",
   "status": "partial",
   "theorems": [
    "C82_document_refuted"
   ],
   "note": "False (C82_document_refuted): without a terminal the request names no document at all, whatever the file."
  },
  {
   "property": "C83",
   "status": "partial",
   "theorems": [
    "C83_status_refuted",
    "C83_interactive_refuted"
   ],
   "note": "False: any events, also errors, followed by the end of the stream give success (C83_status_refuted); in a terminal only stream errors count (C83_interactive_refuted)."
  },
  {
   "property": "C84",
   "status": "partial",
   "theorems": [
    "C84_endpoint_refuted",
    "C84_protocol_refuted"
   ],
   "note": "False (C84_endpoint_refuted, C84_protocol_refuted): the configuration is not used."
  },
  {
   "property": "C85",
   "status": "proved",
   "theorems": [
    "C85_exact",
    "C85_otherwise",
    "C85_only",
    "C85_one"
   ],
   "note": "from_env characterised exactly by a field-by-field specification; panics exactly otherwise; independent of all other variables."
  },
  {
   "property": "C86",
   "status": "partial",
   "theorems": [
    "C86_defaults",
    "C86_platform_refuted",
    "C86_collector_refuted"
   ],
   "note": "Local port, level, test mode, loopback and health check defaults hold (C86_defaults). False for the platform (start fails) and for the trace collector (empty)."
  },
  {
   "property": "C87",
   "status": "partial",
   "theorems": [
    "C87_listens",
    "C87_local",
    "C87_accepted_refuted"
   ],
   "note": "C87_listens, C87_local for ports. False in general: any 32-bit integer is accepted as a port and the server then panics (C87_accepted_refuted)."
  },
  {
   "property": "C88",
   "status": "proved",
   "theorems": [
    "C88_server",
    "C88_local"
   ],
   "note": "Exact for every environment."
  },
  {
   "property": "C89",
   "status": "partial",
   "theorems": [
    "C89_served",
    "C89_only",
    "C89_accepted",
    "C89_method_refuted",
    "C89_duplicate_refuted",
    "C89_health_refuted"
   ],
   "note": "Exact routing when every method is known and registration succeeds (C89_served, C89_only), and when registration succeeds (C89_accepted). False: a handler with another method (e.g. CONNECT) is silently never served; two handlers with one path and method, or one at the health check path, crash the registration."
  },
  {
   "property": "C90",
   "status": "partial",
   "theorems": [
    "C90_served",
    "C90_kept",
    "C90_before_refuted",
    "C90_after_refuted",
    "C90_again_refuted"
   ],
   "note": "C90_served: registered between a setup with an API and the run; C90_kept: setup without an API keeps handlers. False: registration before setup is lost, registration after run is not reached, a second setup forgets."
  },
  {
   "property": "C91",
   "status": "partial",
   "theorems": [
    "C91_stopped",
    "C91_any_time",
    "C91_gone_refuted",
    "C91_keeps_serving",
    "C91_at_most_two"
   ],
   "note": "Every started server is told to stop, at any time while the asynchronous runtime lives. False after the runtime is gone: shutdown crashes (C91_gone_refuted)."
  },
  {
   "property": "C92",
   "status": "partial",
   "theorems": [
    "C92_message",
    "C92_node",
    "C92_status_refuted",
    "C92_node_refuted"
   ],
   "note": "The message is always sent, and the 30 s time-out is exact for Node. False for the status: 200 for every failure."
  },
  {
   "property": "C93",
   "status": "partial",
   "theorems": [
    "C93_sent",
    "C93_crash_refuted",
    "C93_headers_refuted"
   ],
   "note": "Exact for responses that HTTP has a form for. False: others crash the request's task; the C interface drops all headers."
  },
  {
   "property": "C94",
   "status": "partial",
   "theorems": [
    "C94_target",
    "C94_headers",
    "C94_header",
    "C94_header_refuted",
    "C94_body",
    "C94_body_refuted",
    "C94_broken_refuted",
    "C94_python_refuted"
   ],
   "note": "Node: method, URI, last header of a name, announced body, any number of readings. False: earlier headers of a name are lost, header values that are not text crash, a body without content-length is not seen, a second reading of a broken body crashes; Python handlers receive nothing of the request."
  },
  {
   "property": "C95",
   "status": "partial",
   "theorems": [
    "C95_order",
    "C95_handler",
    "C95_once",
    "C95_result",
    "C95_blocked_refuted"
   ],
   "note": "Order, handler, once and result for every interleaving. False: while one handler runs no other request is answered, with no time-out."
  },
  {
   "property": "C96",
   "status": "partial",
   "theorems": [
    "C96_during",
    "C96_later",
    "C96_none",
    "C96_status_refuted",
    "C96_dangling_refuted"
   ],
   "note": "First send, last status and time-out exact. False: no status crashes the answer; use after the first send or the time-out is a use of freed memory."
  },
  {
   "property": "C97",
   "status": "partial",
   "theorems": [
    "C97_path_refuted",
    "C97_second_refuted",
    "C97_listed"
   ],
   "note": "The listing is complete and in order, when no text contains a zero. False for registration: always POST /orders/:orderId; a second one crashes."
  },
  {
   "property": "C98",
   "status": "proved",
   "theorems": [
    "C98_format",
    "C98_round_trip",
    "C98_distinct",
    "C98_accepts"
   ],
   "note": "Exact for every 128-bit id, and for every text."
  },
  {
   "property": "C99",
   "status": "proved",
   "theorems": [
    "C99_run",
    "C99_failed",
    "C99_one_each"
   ],
   "note": "For every history. The id is the given name or a new UUID (an oracle)."
  },
  {
   "property": "C100",
   "status": "partial",
   "theorems": [
    "C100_own",
    "C100_reuse_refuted",
    "C100_shared_refuted"
   ],
   "note": "C100_own when the id is used once. False for a reused name: the earlier record is lost, and two running executions write to one record."
  },
  {
   "property": "C101",
   "status": "partial",
   "theorems": [
    "C101_refuted"
   ],
   "note": "False: the answer is always null."
  },
  {
   "property": "C102",
   "status": "partial",
   "theorems": [
    "C102_in_order",
    "C102_complete",
    "C102_next",
    "C102_lag_refuted",
    "C102_others_refuted",
    "C102_anonymous_refuted",
    "C102_early_refuted"
   ],
   "note": "Complete and in order for what is broadcast after opening, while the client is at most the channel's capacity behind. False: other executions' events are carried too and cannot be told apart, earlier events are missed, a client further behind is cut off."
  },
  {
   "property": "C103",
   "status": "partial",
   "theorems": [
    "C103_missing",
    "C103_workflow_refuted"
   ],
   "note": "Fails exactly without a workflow (C103_missing). False otherwise: the workflow set up is always empty, without handlers."
  },
  {
   "property": "C104",
   "status": "proved",
   "theorems": [
    "C104_exact",
    "C104_never_panics",
    "C104_key_order"
   ],
   "note": "Proved for every document, given character classes that agree with ASCII."
  },
  {
   "property": "C105",
   "status": "partial",
   "theorems": [
    "C105_unknown_rejected",
    "C105_nested_refuted"
   ],
   "note": "True of the workflow and of states at any depth. False in waitConfig, failureConfig, retry, catch, decision rules and branches, where unknown keys are ignored."
  },
  {
   "property": "C106",
   "status": "partial",
   "theorems": [
    "C106_kept_partial",
    "C106_dropped_refuted",
    "C106_unnamed_refuted"
   ],
   "note": "Kept when every list element is a mapping and every state name is text. False otherwise: list elements that are not mappings and states whose name is not text are dropped."
  },
  {
   "property": "C107",
   "status": "partial",
   "theorems": [
    "C107_required_partial",
    "C107_missing_refuted"
   ],
   "note": "Enforced for a state's type, a rule's next, a condition's inputs and function. False: startAt, states, a catch's next and matchErrors may be missing."
  },
  {
   "property": "C108",
   "status": "partial",
   "theorems": [
    "C108_integers_partial",
    "C108_whole_refuted"
   ],
   "note": "Integers arrive. False: a whole backoffRate and an integer number of wait seconds are rejected."
  },
  {
   "property": "C109",
   "status": "proved",
   "theorems": [
    "C109_readable",
    "C109_exact",
    "C109_loaded"
   ],
   "note": "Proved for every definition read from YAML (C109_readable) and every environment."
  },
  {
   "property": "C110",
   "status": "partial",
   "theorems": [
    "C110_known_partial",
    "C110_unknown_refuted"
   ],
   "note": "The seven names give the seven types. False otherwise: any other text is accepted as the unknown type."
  },
  {
   "property": "C111",
   "status": "partial",
   "theorems": [
    "C111_depth_refuted",
    "C111_depth_partial"
   ],
   "note": "True up to 16 levels. False beyond: the bound of 20 levels is counted from the decision rule or the template, not from the value."
  },
  {
   "property": "C112",
   "status": "proved",
   "theorems": [
    "C112_spec_exact",
    "C112_rest_exact",
    "C112_never_panics",
    "C112_key_order"
   ],
   "note": "Proved for every document without duplicate keys, given character classes that agree with ASCII."
  },
  {
   "property": "C113",
   "status": "partial",
   "theorems": [
    "C113_kept_partial",
    "C113_misspelt_refuted",
    "C113_wrong_shape_refuted"
   ],
   "note": "Entries under known keys with the expected shape are kept. False: misspelt keys are ignored in every spec, and guards, events, link labels, annotations, labels, cors and allowed values of an unexpected shape are dropped."
  },
  {
   "property": "C114",
   "status": "partial",
   "theorems": [
    "C114_references_partial",
    "C114_other_texts",
    "C114_protocol_refuted",
    "C114_guard_type_refuted"
   ],
   "note": "True of every number and truth value (C114_references_partial), and no other text is taken for one (C114_other_texts). False for protocols and the type of a guard, where the reader accepts literal names only although resolution supports references."
  },
  {
   "property": "C115",
   "status": "partial",
   "theorems": [
    "C115_required_partial",
    "C115_source_matches",
    "C115_missing_refuted"
   ],
   "note": "Enforced for schedules, event sources, domains, guards, protocols, display names, selectors and variable types. False for handler, base path and token source configurations, storage events and the source of a consumer."
  },
  {
   "property": "C116",
   "status": "proved",
   "theorems": [
    "C116_readable",
    "C116_exact",
    "C116_never_panics",
    "C116_loaded"
   ],
   "note": "Proved for every spec read from YAML (C116_readable) and every environment."
  },
  {
   "property": "C117",
   "status": "proved",
   "theorems": [
    "C117_choices",
    "C117_protocol_needed"
   ],
   "note": "Proved for every text and environment."
  },
  {
   "property": "C118",
   "status": "partial",
   "theorems": [
    "C118_texts_partial",
    "C118_route_key_refuted"
   ],
   "note": "True of the schedule, handler and consumer texts. False of routeKey: a lone reference is typed first, so a value that reads as a number or truth value is refused."
  },
  {
   "property": "C119",
   "status": "partial",
   "theorems": [
    "C119_guards_refuted"
   ],
   "note": "Refuted: an undeclared default guard, and a jwt guard without issuer and token source, load."
  },
  {
   "property": "C120",
   "status": "proved",
   "theorems": [
    "C120_exact",
    "C120_first_document",
    "C120_never_panics",
    "C120_key_order"
   ],
   "note": "Proved end to end, composing the readers (C112) and resolvers (C116)."
  },
  {
   "property": "C121",
   "status": "partial",
   "theorems": [
    "C121_kept_partial",
    "C121_lost_refuted"
   ],
   "note": "Kept: every resource of the six types, and only those. Refuted: resources that are not mappings, transforms that are not one text, variables and metadata that are not mappings and entries under other keys change nothing."
  },
  {
   "property": "C122",
   "status": "partial",
   "theorems": [
    "C122_declarations_refuted",
    "C122_default_refuted"
   ],
   "note": "Refuted: the declarations have no influence on what loads or on the values; an unset variable fails whatever its default."
  },
  {
   "property": "C123",
   "status": "proved",
   "theorems": [
    "C123_exact",
    "C123_rest_exact",
    "C123_never_panics",
    "C123_member_order",
    "C123_readable",
    "C123_loaded"
   ],
   "note": "All derived Deserialize instances of specs, metadata, selectors and variables, run by serde_json, against an independent relation; objects and the array form."
  },
  {
   "property": "C124",
   "status": "partial",
   "theorems": [
    "C124_reported_partial",
    "C124_required_partial",
    "C124_misspelt_refuted",
    "C124_array_refuted",
    "C124_repeated_refuted"
   ],
   "note": "Duplicates of fields, wrong shapes and missing required fields are proved to be rejected; refuted for misspelt members (ignored, in workflows too), array forms (accepted) and repeated names in maps (the first is lost)."
  },
  {
   "property": "C125",
   "status": "partial",
   "theorems": [
    "C125_references_refuted",
    "C125_literal_refuted",
    "C125_texts_partial"
   ],
   "note": "Refuted: a number field holding a reference never resolves, and free-form values take it literally; text fields and quoted JSON strings are proved to work."
  },
  {
   "property": "C126",
   "status": "partial",
   "theorems": [
    "C126_any_type_refuted",
    "C126_by_members_partial"
   ],
   "note": "Refuted: any configuration goes with any source type; which kind is read is characterised by the members."
  },
  {
   "property": "C127",
   "status": "proved",
   "theorems": [
    "C127_exact",
    "C127_objects_only",
    "C127_never_panics",
    "C127_member_order"
   ],
   "note": "Proved end to end, composing the readers (C123), the resource visitor and the resolvers (C116)."
  },
  {
   "property": "C128",
   "status": "partial",
   "theorems": [
    "C128_reported_partial",
    "C128_kept_partial",
    "C128_lost_refuted"
   ],
   "note": "Kept: every resource of a known type with a spec, and only those. Reported: repeated, missing and, in resources, unknown members. Refuted: resources without a spec, null resources, repeated resource names and unknown top-level members change nothing."
  },
  {
   "property": "C129",
   "status": "proved",
   "theorems": [
    "C129_runs",
    "C129_exact",
    "C129_last_counts",
    "C129_never_panics"
   ],
   "note": "Exact for every command line that mentions no help option; starting is proved for all. cobra and pflag are third party and modelled from their known behaviour."
  },
  {
   "property": "C130",
   "status": "partial",
   "theorems": [
    "C130_rejected_refuted",
    "C130_needed_refuted",
    "C130_one_file_refuted"
   ],
   "note": "Refuted in full: the option is rejected with every command, no other file is ever read, and no command runs without the default file."
  },
  {
   "property": "C131",
   "status": "partial",
   "theorems": [
    "C131_reported_partial",
    "C131_command_partial",
    "C131_builtin",
    "C131_words_refuted",
    "C131_unused_refuted"
   ],
   "note": "Unknown options are proved to be reported; words and three options are proved to make no difference."
  },
  {
   "property": "C132",
   "status": "partial",
   "theorems": [
    "C132_chosen",
    "C132_ends",
    "C132_given_refuted",
    "C132_question_refuted",
    "C132_shown"
   ],
   "note": "The widgets are parameters and may do anything with a message."
  },
  {
   "property": "C133",
   "status": "partial",
   "theorems": [
    "C133_shown",
    "C133_selected",
    "C133_refused",
    "C133_hidden_refuted",
    "C133_source_refuted"
   ],
   "note": "The widgets are parameters and may do anything with a message; that an Enter opens a directory is a fact about the third-party file picker and only part of the example."
  },
  {
   "property": "C134",
   "status": "partial",
   "theorems": [
    "C134_unusable_state",
    "C134_no_successor",
    "C134_input_path_caught",
    "C134_caught_in_vain",
    "C134_unsaved_start_refuted",
    "C134_unsaved_result_refuted",
    "C134_missing_successor_refuted",
    "C134_unsaved_end_refuted"
   ],
   "note": "Refuted by universal theorems: every reachable situation of the kind named has such a continuation. A missing successor or a state called unknown that already has a record is excluded: the failure is then attached to that record."
  },
  {
   "property": "C135",
   "status": "partial",
   "theorems": [
    "C135_http",
    "C135_websocket",
    "C135_api_tracing",
    "C135_settings",
    "C135_missing_refuted",
    "C135_rejects",
    "C135_hybrid_refuted",
    "C135_starts",
    "C135_quoted_refuted",
    "C135_format"
   ],
   "note": "Composition of the models of the YAML reader, the resolver and the setup; the YAML and JSON crates are parameters. With several handler configs linked to one handler the settings depend on the iteration order (C76) and nothing is claimed. The timeout is raised to an hour, as C46 states."
  },
  {
   "property": "C136",
   "status": "proved",
   "theorems": [
    "C136_refusals",
    "C136_signing"
   ],
   "note": "For signature headers whose values have at least two bytes; shorter ones crash (C40). The text \"Date header is invalid\" of the error conversion is never given: the code reports an unreadable date as \"Invalid date header\"."
  },
  {
   "property": "C137",
   "status": "proved",
   "theorems": [
    "C137_draws"
   ],
   "note": "The entries of a mapping are evaluated in its iteration order, which is the order of the list in the model."
  },
  {
   "property": "C138",
   "status": "partial",
   "theorems": [
    "C138_spec_partial",
    "C138_metadata_partial",
    "C138_fifo_refuted"
   ],
   "note": "Partial: only for portable documents, and when both readers accept; which documents each accepts is C112 and C123."
  },
  {
   "property": "C139",
   "status": "partial",
   "theorems": [
    "C139_document_partial",
    "C139_transform_refuted",
    "C139_metadata_refuted",
    "C139_types_refuted",
    "C139_reference_refuted"
   ],
   "note": "Partial: only for portable documents that both readers load. Each exclusion at the level of the document has its own _refuted theorem."
  },
  {
   "property": "C140",
   "status": "partial",
   "theorems": [
    "C140_next_number_partial",
    "C140_counted_refuted"
   ],
   "note": "Refuted: the number is one more than that of the first record of the state, so it never exceeds two unless a state names itself as the next. Proved: first records have number one, announced attempts one more than the record they follow."
  },
  {
   "property": "C141",
   "status": "partial",
   "theorems": [
    "C141_taken_for",
    "C141_http",
    "C141_outcome",
    "C141_refused",
    "C141_failures_refuted",
    "C141_failures_written_refuted",
    "C141_kind_refuted",
    "C141_delivered",
    "C141_not_delivered",
    "C141_back",
    "C141_workflow"
   ],
   "note": "Refuted for consumers, schedules and events: their results are taken for WebSocket outcomes and failed messages are lost. Proved: exactly what each document is taken for, what HTTP results and outcomes keep, and what is refused."
  },
  {
   "property": "C142",
   "status": "partial",
   "theorems": [
    "C142_back",
    "C142_members",
    "C142_type",
    "C142_null_attributes_refuted",
    "C142_poll",
    "C142_workflow"
   ],
   "note": "C142_type: exactly which values name a type. Proved for all events except that null message attributes read back as absent."
  },
  {
   "property": "C143",
   "status": "proved",
   "theorems": [
    "C143_back",
    "C143_distinct",
    "C143_acknowledgement"
   ],
   "note": "Documents are trees; the text of a document is the JSON library's."
  },
  {
   "property": "C144",
   "status": "partial",
   "theorems": [
    "C144_exact",
    "C144_sent",
    "C144_source_node_unused",
    "C144_source_node_refuted"
   ],
   "note": "Refuted: a field that is never used is required. Proved: exactly which batches are read and that they are then sent as C09 says."
  },
  {
   "property": "C145",
   "status": "proved",
   "theorems": [
    "C145_readable",
    "C145_exactly",
    "C145_distinct"
   ],
   "note": "The escape table of serde_json is transcribed; the JSON grammar of the specification is RFC 8259's."
  },
  {
   "property": "C146",
   "status": "partial",
   "theorems": [
    "C146_right",
    "C146_loads",
    "C146_unsupported",
    "C146_supported",
    "C146_installed_asked",
    "C146_installed_loaded",
    "C146_published_refuted",
    "C146_fallback_refuted"
   ],
   "note": "Refuted: targets without a published package, and no fallback from a broken file. Proved: which library is loaded, in every case. What require does is a parameter; a library is a truthy value."
  },
  {
   "property": "C147",
   "status": "partial",
   "theorems": [
    "C147_stalled_refuted",
    "C147_others_refuted",
    "C147_resumes",
    "C147_order"
   ],
   "note": "Refuted for every state, client and item: a session holds the lock of its socket while it waits for a frame (see C71), and the queue waits for the lock. Proved: order, and that the queue goes on between two frames of the client."
  },
  {
   "property": "C148",
   "status": "proved",
   "theorems": [
    "C148_acknowledged",
    "C148_received",
    "C148_effects",
    "C148_done"
   ],
   "note": "Over the sessions of WsModel; whether the write succeeds is not in this model (the node acknowledges anyway, see C62); the ack worker's answer is any; a locked socket can be written to."
  },
  {
   "property": "C149",
   "status": "partial",
   "theorems": [
    "C149_same",
    "C149_text_refuted",
    "C149_reference_refuted"
   ],
   "note": "Refuted for marks that are texts. The positive part is for portable documents (see C139) that both readers load, without the further exclusions of C139: transforms, other types of resources and missing shared settings make no difference here."
  },
  {
   "property": "C150",
   "status": "partial",
   "theorems": [
    "C150_task_dies_refuted",
    "C150_waits_forever_refuted",
    "C150_worked_off"
   ],
   "note": "Refuted: the task that consumes the actions of the tracker unwraps the result of the write. start_ack_worker is taken to be called once. The waiting call is released by an acknowledgement or by another call with the same message id."
  },
  {
   "property": "C151",
   "status": "partial",
   "theorems": [
    "C151_same_histories",
    "C151_within_capacity",
    "C151_stuck_only_in_a_jam",
    "C151_comes_to_rest",
    "C151_no_other_task_stops",
    "C151_jam_needs_full_channels",
    "C151_jam_reached_refuted",
    "C151_no_early_jam",
    "C151_code_jam_reached_refuted",
    "C151_jam_forever_refuted"
   ],
   "note": "Refuted: one task serves both directions of the bus and waits inside a branch of its select. The cluster of C34-C36 with the four bounded channels added; the Redis task does not end, and hearing a message and passing it to the tracker is one step. C36_settles is about unbounded channels; C151_comes_to_rest is its counterpart here. C151_no_other_task_stops: a node none of whose tasks can work is idle or jammed. C151_no_early_jam and C151_code_jam_reached_refuted give the numbers for the capacities of the code."
  },
  {
   "property": "C152",
   "status": "proved",
   "theorems": [
    "C152_hears",
    "C152_takes_in_order",
    "C152_heard_fun",
    "C152_survives",
    "C152_says",
    "C152_goes_on",
    "C152_across"
   ],
   "note": "Over any pushes in which a message has a channel and a payload, which every Redis server sends. Unbounded channels (C151 has the bounds). Documents are trees, as in C143."
  },
  {
   "property": "C153",
   "status": "partial",
   "theorems": [
    "C153_no_shutdown_refuted",
    "C153_tracker_stays_refuted",
    "C153_listener_ends",
    "C153_consumer_ends",
    "C153_idle_link_refuted",
    "C153_what_ends_a_link",
    "C153_end_is_seen",
    "C153_end_is_reported"
   ],
   "note": "Refuted: the tasks own each other. The owners of a registry are modelled as booleans: its handle, the consumer of actions, the listener and the tracker."
  },
  {
   "property": "C154",
   "status": "partial",
   "theorems": [
    "C154_loss_unnoticed_refuted",
    "C154_task_stays_refuted"
   ],
   "note": "Refuted. That a lost connection pushes and publishes nothing more is a fact about the redis client outside cluster mode."
  },
  {
   "property": "C155",
   "status": "partial",
   "theorems": [
    "C155_password_ignored_refuted",
    "C155_password_needed_refuted",
    "C155_no_nodes_refuted",
    "C155_no_other_panic",
    "C155_single_node",
    "C155_cluster"
   ],
   "note": "Partly refuted. What the redis client makes of URLs, nodes and passwords is transcribed from its documentation (0.32)."
  },
  {
   "property": "C156",
   "status": "partial",
   "theorems": [
    "C156_request_id",
    "C156_takeover_refuted",
    "C156_cut_off_refuted",
    "C156_never_listed_again_refuted",
    "C156_new_ids_distinct",
    "C156_own_messages"
   ],
   "note": "Refuted: an id can be chosen. The http crate's headers are lists of names and bytes; that nanoid does not repeat itself is the hypothesis new_ids of the positive theorems."
  },
  {
   "property": "C157",
   "status": "partial",
   "theorems": [
    "C157_each_run",
    "C157_record",
    "C157_stream",
    "C157_sequence",
    "C157_deployed_refuted",
    "C157_silent_refuted"
   ],
   "note": "C157_silent_refuted: what a client learns of a run that ended without a word. Holds of any workflow the application is given; refuted for the one that setup gives it, which is empty. A request is one step; a save that fails saves nothing."
  },
  {
   "property": "C158",
   "status": "partial",
   "theorems": [
    "C158_interrupted_refuted",
    "C158_forgotten_refuted",
    "C158_again_refuted",
    "C158_streams_refuted"
   ],
   "note": "Refuted. A stop of the process cuts every stream and ends every execution; whether the execution service keeps its records is a parameter of the stop."
  },
  {
   "property": "C159",
   "status": "proved",
   "theorems": [
    "C159_transparent",
    "C159_logged"
   ],
   "note": "axum's layers, extractors and their rejections (0.7) are transcribed from their documentation."
  },
  {
   "property": "C160",
   "status": "partial",
   "theorems": [
    "C160_fields",
    "C160_upstream_refuted",
    "C160_level",
    "C160_first",
    "C160_second_refuted",
    "C160_silent_refuted",
    "C160_serving"
   ],
   "note": "Partly refuted. The tracing crates are transcribed from their documentation: one global subscriber per process; a dropped guard undoes set_default; a span without a given parent begins a trace."
  },
  {
   "property": "C161",
   "status": "partial",
   "theorems": [
    "C161_piped",
    "C161_terminal",
    "C161_directory_refuted",
    "C161_crash_refuted",
    "C161_terminated_refuted",
    "C161_crashes",
    "C161_ends",
    "C161_others",
    "C161_reasons"
   ],
   "note": "Partly refuted. bubbletea's Run (1.3.5) is transcribed from its known behaviour: a message that ends the program is not given to Update, SIGTERM sends one, SIGINT and a failing terminal make Run fail. A signal without a terminal kills the process and is not modelled."
  },
  {
   "property": "C162",
   "status": "proved",
   "theorems": [
    "C162_answered",
    "C162_only",
    "C162_json",
    "C162_traced"
   ],
   "note": "A composition: loading and setup (C135), registration and routing (C89), the layers (C159, C160). The path matcher of axum is a parameter, as in C89. For JSON, through C149; the form of the answer is left to the handlers."
  },
  {
   "property": "C163",
   "status": "partial",
   "theorems": [
    "C163_answered",
    "C163_response",
    "C163_failure_refuted",
    "C163_only"
   ],
   "note": "A composition of C162 with C92-C94. Refuted for failures, which are answered with status 200, and for responses without a form in HTTP, which are not answered. What is logged for a request that is not answered is not claimed."
  }
 ]
}