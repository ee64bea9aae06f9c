{
 "claims": [
  {
   "property": "C01",
   "status": "proved",
   "theorems": [
    "C01_read_is_last_lines",
    "C01_log_exists_unique"
   ],
   "note": ""
  },
  {
   "property": "C02",
   "status": "proved",
   "theorems": [
    "C02_characters_conserved"
   ],
   "note": ""
  },
  {
   "property": "C03",
   "status": "proved",
   "theorems": [
    "C03_chunking",
    "C03_crlf_cut",
    "C03_always_refuted"
   ],
   "note": "C03_crlf_cut is the exact exception, C03_always_refuted the witness that the condition is needed."
  },
  {
   "property": "C04",
   "status": "proved",
   "theorems": [
    "C04_bounded"
   ],
   "note": ""
  },
  {
   "property": "C05",
   "status": "proved",
   "theorems": [
    "C05_read_n_is_suffix"
   ],
   "note": ""
  },
  {
   "property": "C06",
   "status": "proved",
   "theorems": [
    "C06_read_pure",
    "C06_read_invisible_later"
   ],
   "note": ""
  },
  {
   "property": "C07",
   "status": "proved",
   "theorems": [
    "C07_records_have_no_break"
   ],
   "note": ""
  },
  {
   "property": "C08",
   "status": "proved",
   "theorems": [
    "C08_new_line"
   ],
   "note": ""
  },
  {
   "property": "C09",
   "status": "proved",
   "theorems": [
    "C09_host_len",
    "C09_len",
    "C09_len_counts_items_refuted",
    "C09_proc_len"
   ],
   "note": "the shared base class, LineProcBuffer and LineHostBuffer (call and state \"curlen\"); docstring claim refuted."
  },
  {
   "property": "C10",
   "status": "proved",
   "theorems": [
    "C10_write_result",
    "C10_counts_lines_refuted",
    "C10_any_execution",
    "C10_any_exceptions",
    "C10_file",
    "C10_file_exceptions"
   ],
   "note": "exact result; docstring claim refuted."
  },
  {
   "property": "C11",
   "status": "proved",
   "theorems": [
    "C11_closed_forever",
    "C11_clear_always_succeeds_refuted"
   ],
   "note": "closed_answer lists the answer of every public call; 'clear() should always success' refuted."
  },
  {
   "property": "C12",
   "status": "proved",
   "theorems": [
    "C12_clear_resets"
   ],
   "note": ""
  },
  {
   "property": "C13",
   "status": "proved",
   "theorems": [
    "C13_end_line_break"
   ],
   "note": ""
  },
  {
   "property": "C14",
   "status": "proved",
   "theorems": [
    "C14_file_maxlen",
    "C14_file_maxlen_constant",
    "C14_maxlen_LineBuffer",
    "C14_proc_init",
    "C14_proc_maxlen"
   ],
   "note": "LineBuffer, LineProcBuffer and LineFileBuffer. The maxlen of a LineFileBuffer is a constant of the modelled object (no method of file.py assigns it)."
  },
  {
   "property": "C15",
   "status": "proved",
   "theorems": [
    "C15_override_sees_completed_lines",
    "C15_override_raises",
    "C15_locking_override_deadlocks"
   ],
   "note": ""
  },
  {
   "property": "C16",
   "status": "proved",
   "theorems": [
    "C16_linearizable"
   ],
   "note": "every complete interleaved execution, any number of threads; the order is also the order of completion, hence it respects real time."
  },
  {
   "property": "C17",
   "status": "proved",
   "theorems": [
    "C17_lock_released",
    "C17_no_deadlock"
   ],
   "note": ""
  },
  {
   "property": "C18",
   "status": "proved",
   "theorems": [
    "C18_clear_atomic_refuted",
    "C18_cleared_record_returns_refuted",
    "C18_read_n_succeeds_refuted",
    "C18_bound_always"
   ],
   "note": "thread-safety claim refuted by explicit schedules; the bound holds at every moment of every schedule."
  },
  {
   "property": "C19",
   "status": "proved",
   "theorems": [
    "C19_second_close_does_nothing_refuted",
    "C19_write_raises_OSError_refuted",
    "C19_never_reopened"
   ],
   "note": "claims refuted by explicit schedules; a closed buffer is never re-opened (every schedule)."
  },
  {
   "property": "C20",
   "status": "proved",
   "theorems": [
    "C20_item_survives_read_refuted",
    "C20_order_survives_read_n_refuted",
    "C20_receive_alone",
    "C20_read_alone"
   ],
   "note": "both losses refuted by explicit schedules; receive() and read() alone are exact."
  },
  {
   "property": "C21",
   "status": "proved",
   "theorems": [
    "C21_mirror_is_transparent"
   ],
   "note": ""
  },
  {
   "property": "C22",
   "status": "proved",
   "theorems": [
    "C22_write_returns_length",
    "C22_write_returns",
    "C22_number_of_lines_refuted",
    "C22_any_execution",
    "C22_any_exceptions",
    "C22_host",
    "C22_host_exceptions",
    "C22_host_number_of_lines_refuted"
   ],
   "note": "C22_write_returns gives a case in which write() always returns; docstring claim (number of lines) refuted."
  },
  {
   "property": "C23",
   "status": "proved",
   "theorems": [
    "C23_no_message_lost_or_reordered"
   ],
   "note": ""
  },
  {
   "property": "C24",
   "status": "proved",
   "theorems": [
    "C24_lines_stay_whole",
    "C24_records_mix_refuted"
   ],
   "note": ""
  },
  {
   "property": "C25",
   "status": "proved",
   "theorems": [
    "C25_wait_returns_after_everything",
    "C25_wait_returns",
    "C25_no_infinite_execution"
   ],
   "note": ""
  },
  {
   "property": "C26",
   "status": "proved",
   "theorems": [
    "C26_count_survives_reset",
    "C26_wait_exact",
    "C26_wait_for_all_refuted"
   ],
   "note": "C26_wait_exact gives exactly the messages handled by wait() for every queue and count; the documented behaviour is refuted by a concrete history."
  },
  {
   "property": "C27",
   "status": "proved",
   "theorems": [
    "C27_stop_stops_writes"
   ],
   "note": ""
  },
  {
   "property": "C28",
   "status": "proved",
   "theorems": [
    "C28_stopped_mirror_cannot_end",
    "C28_wait_blocks",
    "C28_empty_mirror_ends"
   ],
   "note": "wait() is modelled with a fuel bound larger than the queue; Block = waits for a message that nobody sends."
  },
  {
   "property": "C29",
   "status": "proved",
   "theorems": [
    "C29_close_flushes_and_signals_once",
    "C29_closed_forever"
   ],
   "note": ""
  },
  {
   "property": "C30",
   "status": "proved",
   "theorems": [
    "C30_force_stop_ends_wait"
   ],
   "note": ""
  },
  {
   "property": "C31",
   "status": "proved",
   "theorems": [
    "C31_reset_guard",
    "C31_reset",
    "C31_old_mirrors_detached"
   ],
   "note": ""
  },
  {
   "property": "C32",
   "status": "proved",
   "theorems": [
    "C32_read",
    "C32_last_items_refuted"
   ],
   "note": "docstring claim refuted."
  },
  {
   "property": "C33",
   "status": "proved",
   "theorems": [
    "C33_block_means_no_timeout",
    "C33_timeout_never_waits",
    "C33_no_timeout_waits",
    "C33_full_queue",
    "C33_other_calls",
    "C33_timeout_refuted"
   ],
   "note": "C33_block_means_no_timeout covers every put of every method in every state; C33_full_queue says which calls wait or fail on a full queue of the model, C33_other_calls that no other call does; std_put is the stdlib queue.put with time; documented meaning refuted."
  },
  {
   "property": "C34",
   "status": "proved",
   "theorems": [
    "C34_file_fileno_seek",
    "C34_host_write",
    "C34_host_fileno",
    "C34_proc_write",
    "C34_fileno_seek"
   ],
   "note": "LineBuffer, LineProcBuffer, LineFileBuffer and LineHostBuffer."
  },
  {
   "property": "C35",
   "status": "proved",
   "theorems": [
    "C35_order",
    "C35_error_order_refuted"
   ],
   "note": "order refuted by a concrete history; C35_order for one wait() call on any reachable system."
  },
  {
   "property": "C36",
   "status": "proved",
   "theorems": [
    "C36_lock_exists",
    "C36_progress",
    "C36_no_infinite_execution",
    "C36_created",
    "C36_host_first_use_is_safe_refuted",
    "C36_host_lock_exists",
    "C36_host_progress",
    "C36_host_created",
    "C36_host_alone",
    "C36_first_use_is_safe_refuted"
   ],
   "note": "Lock exists: any threads, any schedule, the calls write/read/new_line/clear/flush/closed/readable/writable are equivalent to one order (results, queue or server, held text, every prefix); send_eof/send_error/send_warning/close make several sections and are not covered by that theorem. For LineProcMirror the queue is unbounded or a timeout is set. C36_host_alone: without overlap the lazily created lock makes no difference, so C48-C55 may take the lock as given."
  },
  {
   "property": "C37",
   "status": "proved",
   "theorems": [
    "C37_same_answers",
    "C37_files"
   ],
   "note": "Texts are encodable (no lone surrogates, see C70); for clear() the name has no glob characters (see C42). len() and close() differ between the two classes and are covered by C38/C45."
  },
  {
   "property": "C38",
   "status": "proved",
   "theorems": [
    "C38_read_n_and_len"
   ],
   "note": "For every directory content, including gaps and records with CR. Lock table arbitrary, only the two locks of the buffer are free."
  },
  {
   "property": "C39",
   "status": "proved",
   "theorems": [
    "C39_shared_log",
    "C39_shared_log_all_calls",
    "C39_serializable",
    "C39_no_deadlock"
   ],
   "note": "One buffer object and one thread per process, distinct tmp_id, locks (fasteners.InterProcessReaderWriterLock) modelled as correct reader-writer locks. C39_shared_log: writes, new_line, send_exc and the reading calls with equal maxlen. C39_shared_log_all_calls: all calls, equal maxlen; for clear() the path must contain no glob characters (see C42 for what happens otherwise). C39_serializable and C39_no_deadlock: all calls, any maxlen."
  },
  {
   "property": "C40",
   "status": "proved",
   "theorems": [
    "C40_crash_in_write",
    "C40_crash_in_send_exc"
   ],
   "note": "Every file-system operation and every single written character is a command of the model; a crash is a prefix of the commands of the call. The operating system's own buffering (what a kill loses of an unflushed Python file buffer) is subsumed: a prefix of the text of the record being written."
  },
  {
   "property": "C41",
   "status": "proved",
   "theorems": [
    "C41_records_hidden_refuted",
    "C41_line_twice_refuted",
    "C41_torn_record_refuted",
    "C41_order_refuted"
   ],
   "note": "Witnesses: one crash inside write(), locks released, then a second process with the same path and tmp_id."
  },
  {
   "property": "C42",
   "status": "proved",
   "theorems": [
    "C42_clear",
    "C42_isolation_refuted",
    "C42_glob_name_refuted"
   ],
   "note": "Exact behaviour for names without *, ?, [; isolation refuted by a witness; a name with [ removes nothing (witness)."
  },
  {
   "property": "C43",
   "status": "proved",
   "theorems": [
    "C43_number",
    "C43_record_names",
    "C43_record_is_not_temp",
    "C43_temp_names_of_one_log",
    "C43_temp_names_refuted",
    "C43_text_leaks_refuted"
   ],
   "note": "Names are injective in (path, number); the collision of temporary names is a witness, together with its consequence (text leaks to the other log)."
  },
  {
   "property": "C44",
   "status": "proved",
   "theorems": [
    "C44_exception_is_one_record",
    "C44_order_refuted",
    "C44_close_with_exception"
   ],
   "note": "One record, exact place; order refuted by a witness. The text of the exception must be encodable."
  },
  {
   "property": "C45",
   "status": "proved",
   "theorems": [
    "C45_closed_answers",
    "C45_closed_forever",
    "C45_close_flushes"
   ],
   "note": "closed for ever: over any history of any family of buffers."
  },
  {
   "property": "C46",
   "status": "proved",
   "theorems": [
    "C46_sees_newest",
    "C46_write_keeps_order",
    "C46_drops_middle_refuted"
   ],
   "note": "For logs without gaps, of any length."
  },
  {
   "property": "C47",
   "status": "proved",
   "theorems": [
    "C47_message",
    "C47_text",
    "C47_other",
    "C47_marked",
    "C47_missing",
    "C47_json"
   ],
   "note": "for every message; C47_json goes through the JSON text (messages without surrogate pairs split in two)."
  },
  {
   "property": "C48",
   "status": "proved",
   "theorems": [
    "C48_read",
    "C48_wire",
    "C48_history",
    "C48_read_raw",
    "C48_read_closed",
    "C48_len",
    "C48_clear"
   ],
   "note": "exact items and answers of the reader for every state, also for a closed server buffer and for unreadable items; the trip through JSON joins surrogate pairs (C48_wire: nothing else)."
  },
  {
   "property": "C49",
   "status": "proved",
   "theorems": [
    "C49_open_holds_a_log",
    "C49_text",
    "C49_text_without_value",
    "C49_message",
    "C49_message_without_data",
    "C49_close",
    "C49_unknown_type",
    "C49_no_object",
    "C49_get",
    "C49_get_changes_nothing",
    "C49_get_bad_number",
    "C49_delete",
    "C49_closed",
    "C49_states_keep_the_buffer",
    "C49_history"
   ],
   "note": "the answer of every request and the log it leaves, from every reachable state; C49_history composes them. The application's error pages and the str() of lists and dicts are parameters."
  },
  {
   "property": "C50",
   "status": "proved",
   "theorems": [
    "C50_malformed_is_stored",
    "C50_get_fails",
    "C50_missing_key",
    "C50_no_tuple",
    "C50_tuple",
    "C50_robustness_refuted"
   ],
   "note": "exact behaviour; C50_robustness_refuted is the witness that one malformed request makes later GETs fail."
  },
  {
   "property": "C51",
   "status": "proved",
   "theorems": [
    "C51_maxlen_state",
    "C51_bound_unchanged",
    "C51_reader_maxlen",
    "C51_reader_reset"
   ],
   "note": "server part in PropHost.v, reader part in PropHostCli.v; the property states a defect, so the theorems are exact."
  },
  {
   "property": "C52",
   "status": "proved",
   "theorems": [
    "C52_flag",
    "C52_flag_total",
    "C52_reader_stop",
    "C52_reader_closed",
    "C52_flag_of_history",
    "C52_write_stopped",
    "C52_write_stopped_faults",
    "C52_until_reset",
    "C52_until_reset_threads"
   ],
   "note": "server part in PropHost.v; reader, mirrors, histories and concurrent executions in PropHostCli.v."
  },
  {
   "property": "C53",
   "status": "proved",
   "theorems": [
    "C53_close",
    "C53_close_stopped"
   ],
   "note": "both directions, for every held text and exception."
  },
  {
   "property": "C54",
   "status": "proved",
   "theorems": [
    "C54_any_time",
    "C54_no_infinite_execution",
    "C54_transparent",
    "C54_surrogates_refuted"
   ],
   "note": "every schedule of threads with mirrors and readers, at every moment (C54_any_time), no deadlock, no infinite execution; transparency for one mirror; the refuted theorem shows why surrogate pairs are excluded."
  },
  {
   "property": "C55",
   "status": "proved",
   "theorems": [
    "C55_write",
    "C55_writes",
    "C55_once",
    "C55_aggressive",
    "C55_lost_answer_refuted"
   ],
   "note": "exact behaviour for every pattern of failures; C55_once and C55_aggressive are consequences; the refuted theorem is the lost answer."
  },
  {
   "property": "C56",
   "status": "proved",
   "theorems": [
    "C56_serializable",
    "C56_no_deadlock",
    "C56_no_infinite_execution"
   ],
   "note": "every complete interleaved execution of requests and calls in the server process (except the base-class calls, which C18/C19 cover); order respects completion order."
  },
  {
   "property": "C57",
   "status": "proved",
   "theorems": [
    "C57_events",
    "C57_open_connections",
    "C57_number_of_pools",
    "C57_temporary_pool_refuted",
    "C57_reenter_refuted"
   ],
   "note": "docstring claim (temporary pool without a context) and re-entering refuted; the number of pools is exact."
  },
  {
   "property": "C58",
   "status": "proved",
   "theorems": [
    "C58_endpoint",
    "C58_same_endpoint_refuted",
    "C58_state_route_refuted"
   ],
   "note": "C58_endpoint gives the inferred name for every route; the refuted theorems are the collisions."
  },
  {
   "property": "C59",
   "status": "proved",
   "theorems": [
    "C59_text",
    "C59_kind",
    "C59_exception",
    "C59_type_error"
   ],
   "note": "every data value; the texts of the exceptions are those of the formatted traceback (traceback.format_exception is a parameter)."
  },
  {
   "property": "C60",
   "status": "proved",
   "theorems": [
    "C60_restored",
    "C60_threads",
    "C60_overlap_refuted",
    "C60_reenter_refuted"
   ],
   "note": "LineBuffer contexts, threads with the shared sys.stdout/sys.stderr; re-entering and overlapping contexts refuted."
  },
  {
   "property": "C61",
   "status": "proved",
   "theorems": [
    "C61_same_module",
    "C61_no_code"
   ],
   "note": "one thread; every history of the operations of the model between the calls."
  },
  {
   "property": "C62",
   "status": "proved",
   "theorems": [
    "C62_required",
    "C62_optional",
    "C62_available",
    "C62_attribute_of_placeholder",
    "C62_attribute_of_module",
    "C62_required_refuted"
   ],
   "note": "the two hypotheses missing/available exclude finders that raise; later required=True refuted."
  },
  {
   "property": "C63",
   "status": "proved",
   "theorems": [
    "C63_once",
    "C63_same_value",
    "C63_first_use",
    "C63_fuel",
    "C63_none_refuted"
   ],
   "note": "C63_fuel: the recursion bound of the model is no restriction; the value None is the exception (refuted)."
  },
  {
   "property": "C64",
   "status": "proved",
   "theorems": [
    "C64_round_trip",
    "C64_same_value",
    "C64_same_text",
    "C64_bodies",
    "C64_sent_body",
    "C64_answers",
    "C64_joined_refuted",
    "C64_all_texts_refuted"
   ],
   "note": "json.dumps and json.loads are modelled character by character (floats excluded) and compared with CPython on about a thousand texts; exact for every value; the refuted theorem is the witness for lone surrogates."
  },
  {
   "property": "C65",
   "status": "proved",
   "theorems": [
    "C65_len_atomic_refuted",
    "C65_len_range"
   ],
   "note": "atomicity refuted by an explicit schedule; the range holds for every schedule."
  },
  {
   "property": "C66",
   "status": "proved",
   "theorems": [
    "C66_aggressive_write",
    "C66_aggressive_new_line",
    "C66_aggressive_close_discards"
   ],
   "note": ""
  },
  {
   "property": "C67",
   "status": "proved",
   "theorems": [
    "C67_used_mirror_cannot_be_pickled",
    "C67_copy_is_fresh"
   ],
   "note": "pickling modelled as the default (attributes in order of definition)."
  },
  {
   "property": "C68",
   "status": "proved",
   "theorems": [
    "C68_closed_main_loses_text"
   ],
   "note": ""
  },
  {
   "property": "C69",
   "status": "proved",
   "theorems": [
    "C69_suffix_is_ignored",
    "C69_distinct_paths_refuted"
   ],
   "note": "Exact theorem for every directory, base name and suffixes without white space; witness."
  },
  {
   "property": "C70",
   "status": "proved",
   "theorems": [
    "C70_unencodable_line",
    "C70_failed_write_hides_records_refuted"
   ],
   "note": "Exact for one unfinished line; the loss of visibility is a witness."
  },
  {
   "property": "C71",
   "status": "proved",
   "theorems": [
    "C71_error_page",
    "C71_connection_error_refuted"
   ],
   "note": "exact exception for every error page; the refuted theorem is the witness with Flask's default pages (no JSON body)."
  },
  {
   "property": "C72",
   "status": "proved",
   "theorems": [
    "C72_placeholder_dependency"
   ],
   "note": "found while modelling; needs find_spec's ValueError for modules without __spec__ (CPython)."
  },
  {
   "property": "C73",
   "status": "proved",
   "theorems": [
    "C73_plain_afterwards",
    "C73_retry_refuted"
   ],
   "note": "holds for failed and successful loads; CPython 3.11.9 and later (is_loading is never reset)."
  },
  {
   "property": "C74",
   "status": "proved",
   "theorems": [
    "C74_not_loaded",
    "C74_rel_dependencies_refuted"
   ],
   "note": "docstring claim refuted."
  },
  {
   "property": "C75",
   "status": "proved",
   "theorems": [
    "C75_routing",
    "C75_streams",
    "C75_print",
    "C75_print_default"
   ],
   "note": "told (PrintSpec.v) has no state of the streams: the innermost context decides; C75_routing is for arbitrary objects."
  },
  {
   "property": "C76",
   "status": "proved",
   "theorems": [
    "C76_with_mirror",
    "C76_complete",
    "C76_stop_inside",
    "C76_catching_helps_refuted",
    "C76_not_catching_hurts_refuted"
   ],
   "note": "exact behaviour in both cases of the stop signal; two refuted theorems for the docstring of stop_all_mirrors(). Other methods are not called inside the block."
  },
  {
   "property": "C77",
   "status": "proved",
   "theorems": [
    "C77_with_file_buffer",
    "C77_order_refuted"
   ],
   "note": "records and unfinished line exactly; order of text and exception refuted."
  },
  {
   "property": "C78",
   "status": "proved",
   "theorems": [
    "C78_with_mirror",
    "C78_stop_inside",
    "C78_error_not_sent_refuted",
    "C78_catching_helps_refuted"
   ],
   "note": "exact behaviour; two refuted theorems for the docstring of stop_all_mirrors(); no failed requests inside the block (C55 has those)."
  },
  {
   "property": "C79",
   "status": "proved",
   "theorems": [
    "C79_close_closes",
    "C79_closed_means_signalled",
    "C79_signals_bounded",
    "C79_takes_effect_once_refuted",
    "C79_second_close_returns_refuted",
    "C79_wait_for_all_refuted"
   ],
   "note": "all calls, also on mirrors without a lock yet and with bounded queues; three refuted theorems."
  },
  {
   "property": "C80",
   "status": "proved",
   "theorems": [
    "C80_account",
    "C80_progress",
    "C80_written_text_arrives_refuted",
    "C80_nothing_after_end_refuted",
    "C80_closed_gives_OSError_refuted",
    "C80_aggressive_write_arrives_refuted"
   ],
   "note": "all calls except the setters of aggressive and timeout; lock exists (first use: C36); unbounded queue; four refuted theorems."
  },
  {
   "property": "C81",
   "status": "proved",
   "theorems": [
    "C81_count_bounds",
    "C81_handing_out",
    "C81_each_get_counts_refuted",
    "C81_wait_returns_refuted"
   ],
   "note": "all calls of all threads, any initial state; two refuted theorems, both need a thread switch inside n_mirrors += 1 / -= 1."
  },
  {
   "property": "C82",
   "status": "proved",
   "theorems": [
    "C82_stop",
    "C82_one_text_more"
   ],
   "note": "all calls but reset_states() and send_data(); any initial state in which every mirror has the shared state; the kind of exception is in C27 (calls one after the other)."
  },
  {
   "property": "C83",
   "status": "proved",
   "theorems": [
    "C83_account",
    "C83_lines",
    "C83_no_deadlock",
    "C83_unfinished_refuted"
   ],
   "note": "all calls; one open buffer object per process; the four things that go wrong with equal ids are witnessed in C83_unfinished_refuted."
  },
  {
   "property": "C84",
   "status": "proved",
   "theorems": [
    "C84_not_a_class",
    "C84_class_statement",
    "C84_isinstance",
    "C84_calls",
    "C84_afterwards",
    "C84_inherit_refuted",
    "C84_isinstance_refuted"
   ],
   "note": "semantics of class statements and isinstance() on objects that are no classes: CPython 3.11 (trusted). Docstring of parse_lines refuted for the exported name."
  },
  {
   "property": "C85",
   "status": "proved",
   "theorems": [
    "C85_init",
    "C85_optional_refuted"
   ],
   "note": "the branches for TYPE_CHECKING = False."
  },
  {
   "property": "C86",
   "status": "proved",
   "theorems": [
    "C86_account",
    "C86_progress",
    "C86_text",
    "C86_text_aggressive",
    "C86_written_text_arrives_refuted",
    "C86_nothing_after_end_refuted",
    "C86_closed_gives_OSError_refuted",
    "C86_aggressive_write_arrives_refuted"
   ],
   "note": "all methods of the mirror; the attribute aggressive keeps its value; lock exists (first use: C36); four refuted theorems."
  },
  {
   "property": "C87",
   "status": "proved",
   "theorems": [
    "C87_responses",
    "C87_temporary",
    "C87_stored",
    "C87_same_results",
    "C87_conversely",
    "C87_mirror",
    "C87_gone",
    "C87_reader",
    "C87_reader_any",
    "C87_outside_refuted",
    "C87_reenter_refuted",
    "C87_finalizer_refuted"
   ],
   "note": "all methods of mirrors and readers in any threads; the objects of urllib3 are taken as what the library documents (DESIGN.md); __del__ and finalizers happen as a step KGone; three refuted theorems."
  },
  {
   "property": "C88",
   "status": "proved",
   "theorems": [
    "C88_buffer",
    "C88_file",
    "C88_system",
    "C88_host",
    "C88_server",
    "C88_buffer_anywhere",
    "C88_file_anywhere",
    "C88_system_anywhere",
    "C88_host_anywhere",
    "C88_server_anywhere",
    "C88_buffer_progress",
    "C88_file_progress",
    "C88_host_progress",
    "C88_server_progress",
    "C88_file_write",
    "C88_wait_again_refuted",
    "C88_sent_once_refuted",
    "C88_records_seen_refuted"
   ],
   "note": "simplifications of Flaky.v (DESIGN.md section 4); three refuted theorems."
  },
  {
   "property": "C89",
   "status": "proved",
   "theorems": [
    "C89_write",
    "C89_new_line",
    "C89_read",
    "C89_clear",
    "C89_close",
    "C89_always",
    "C89_concurrent",
    "C89_read_pure_refuted",
    "C89_write_once_refuted",
    "C89_close_all_or_nothing_refuted"
   ],
   "note": "LineBuffer; exceptions before or after a command, not inside (deque.extend is one command); three refuted theorems."
  },
  {
   "property": "C90",
   "status": "proved",
   "theorems": [
    "C90_alone",
    "C90_everything_printed_arrives",
    "C90_lines_stay_whole",
    "C90_processes",
    "C90_ends",
    "C90_no_infinite_execution",
    "C90_print_is_whole",
    "C90_lines_mix_refuted"
   ],
   "note": "unbounded queue, one mirror per process, the mirrors are new; other streams accept every text; one refuted theorem."
  },
  {
   "property": "C91",
   "status": "proved",
   "theorems": [
    "C91_account",
    "C91_one_redirects",
    "C91_inside",
    "C91_complete_lines",
    "C91_ends",
    "C91_no_infinite_execution",
    "C91_print_stays_whole_refuted",
    "C91_own_buffers_refuted",
    "C91_same_buffer_refuted"
   ],
   "note": "one lookup of sys.stdout per print(); streams other than LineBuffers accept a text in one step; three refuted theorems."
  },
  {
   "property": "C92",
   "status": "proved",
   "theorems": [
    "C92_alone",
    "C92_any_time",
    "C92_no_infinite_execution",
    "C92_lines_stay_whole",
    "C92_lines_mix_refuted",
    "C92_aggressive_mix_refuted"
   ],
   "note": "no faults; one mirror per client, with an initialised lock (first use: C36); other streams accept every text; two refuted theorems."
  },
  {
   "property": "C93",
   "status": "proved",
   "theorems": [
    "C93_snapshots",
    "C93_read",
    "C93_len",
    "C93_closed",
    "C93_grows"
   ],
   "note": "no faults and nobody calls clear() (C47, C54 have it); the sequence of snapshots is also part of C54_any_time."
  },
  {
   "property": "C94",
   "status": "proved",
   "theorems": [
    "C94_alone",
    "C94_any_time",
    "C94_account",
    "C94_no_deadlock",
    "C94_no_infinite_execution",
    "C94_same_id_refuted"
   ],
   "note": "buffers that are not closed while processes print into them; other streams accept every text; a process between two steps of a change of the records holds their lock; one refuted theorem."
  },
  {
   "property": "C95",
   "status": "proved",
   "theorems": [
    "C95_once",
    "C95_values",
    "C95_same",
    "C95_exact",
    "C95_exceptions",
    "C95_depth",
    "C95_attributes"
   ],
   "note": "importlib of CPython 3.11.9 and later; lookups in __dict__ and type() are single steps; None as value of an attribute and lazy_import() next to the threads are left out; names that lookups treat specially (protected_kw) only where said."
  },
  {
   "property": "C96",
   "status": "proved",
   "theorems": [
    "C96_progress",
    "C96_no_infinite_execution",
    "C96_deadlock_refuted"
   ],
   "note": "force_load() and lazy attributes included; one refuted theorem."
  },
  {
   "property": "C97",
   "status": "proved",
   "theorems": [
    "C97_for_good",
    "C97_attribute_refuted",
    "C97_class_refuted",
    "C97_load_refuted"
   ],
   "note": "three refuted theorems for two threads; what the interpreter looks up before 'from module import name' is left out."
  },
  {
   "property": "C98",
   "status": "proved",
   "theorems": [
    "C98_killed_log",
    "C98_progress",
    "C98_seen_refuted",
    "C98_order_refuted"
   ],
   "note": "one thread per process; clear() and close() only in C98_progress; order and retention for calls that complete at most one line each (line_by_line); two refuted theorems."
  },
  {
   "property": "C99",
   "status": "proved",
   "theorems": [
    "C99_messages",
    "C99_progress",
    "C99_wait",
    "C99_state_lock",
    "C99_wait_returns_refuted",
    "C99_reset_refuted"
   ],
   "note": "one thread per process; the processes use one mirror each; a request to the manager is not cut by the death of its process (DESIGN.md section 4); two refuted theorems."
  },
  {
   "property": "C100",
   "status": "proved",
   "theorems": [
    "C100_any_time",
    "C100_lines_stay_whole",
    "C100_record_of_one_client_refuted",
    "C100_written_text_arrives_refuted"
   ],
   "note": "one thread per client; a request is one command, a client that dies while it waits for the answer died after the request (the server handles it completely); no faults of the network in the same execution; two refuted theorems."
  },
  {
   "property": "C101",
   "status": "proved",
   "theorems": [
    "C101_force_stop",
    "C101_queue_empty_refuted"
   ],
   "note": "the other processes make no step between force_stop() and the return of wait() (C110 is without this limit); the main process is not killed (DESIGN.md section 4); one refuted theorem."
  },
  {
   "property": "C102",
   "status": "proved",
   "theorems": [
    "C102_requests",
    "C102_separate",
    "C102_set",
    "C102_unchangeable_refuted",
    "C102_remove_refuted"
   ],
   "note": "what urllib3 adds to the headers is not modelled; two refuted theorems."
  },
  {
   "property": "C103",
   "status": "proved",
   "theorems": [
    "C103_text",
    "C103_message",
    "C103_close",
    "C103_get",
    "C103_delete",
    "C103_get_state",
    "C103_post_state",
    "C103_stop",
    "C103_reset",
    "C103_always",
    "C103_concurrent",
    "C103_failed_is_nothing_refuted",
    "C103_message_all_or_nothing_refuted",
    "C103_flag_exists_refuted"
   ],
   "note": "the simplifications of C88 apply; three refuted theorems."
  },
  {
   "property": "C104",
   "status": "proved",
   "theorems": [
    "C104_one_thread",
    "C104_objects",
    "C104_results",
    "C104_complete",
    "C104_known",
    "C104_alone",
    "C104_found",
    "C104_same_module_refuted",
    "C104_optional_refuted",
    "C104_usable_refuted"
   ],
   "note": "find_spec, the look at rel_dependencies and _LazyLoader.exec_module are single steps; three refuted theorems for two threads."
  },
  {
   "property": "C105",
   "status": "proved",
   "theorems": [
    "C105_only_packages",
    "C105_nothing_run",
    "C105_packages_are_run",
    "C105_package_loaded",
    "C105_package_lazy",
    "C105_plain_in_lazy",
    "C105_dependency",
    "C105_package_missing",
    "C105_after_use",
    "C105_once",
    "C105_once_refuted",
    "C105_optional_refuted",
    "C105_no_code_refuted",
    "C105_then_plain_refuted"
   ],
   "note": "The code of modules imports nothing itself and may raise; rel_dependencies are in Lazy.v (C72); four refuted theorems."
  },
  {
   "property": "C106",
   "status": "proved",
   "theorems": [
    "C106_write",
    "C106_new_line",
    "C106_send_data",
    "C106_signal",
    "C106_close",
    "C106_clear",
    "C106_stopped",
    "C106_receive",
    "C106_receive_some",
    "C106_wait",
    "C106_mirror",
    "C106_stop_all",
    "C106_reset",
    "C106_force_stop",
    "C106_read",
    "C106_clear_buffer",
    "C106_end_line",
    "C106_close_buffer",
    "C106_always",
    "C106_concurrent",
    "C106_no_loss_refuted",
    "C106_close_again_refuted",
    "C106_clear_again_refuted"
   ],
   "note": "the simplifications of C88 apply; the receiving theorems are for an open buffer; three refuted theorems."
  },
  {
   "property": "C107",
   "status": "proved",
   "theorems": [
    "C107_one_thread",
    "C107_one_setter",
    "C107_values",
    "C107_all_set",
    "C107_none_set",
    "C107_fits_refuted",
    "C107_mixtures",
    "C107_pair_refuted",
    "C107_interrupted_refuted"
   ],
   "note": "Timeout.v has the two attributes of a mirror only (Proc.v has one); float() of the argument succeeded; three refuted theorems."
  },
  {
   "property": "C108",
   "status": "proved",
   "theorems": [
    "C108_write",
    "C108_new_line",
    "C108_send_data",
    "C108_signal",
    "C108_close",
    "C108_clear",
    "C108_others",
    "C108_stopped",
    "C108_clear_works",
    "C108_reader",
    "C108_once_refuted",
    "C108_own_text_refuted"
   ],
   "note": "the simplifications of C88 apply; a request is one command and is handled completely; one call at a time; two refuted theorems."
  },
  {
   "property": "C109",
   "status": "proved",
   "theorems": [
    "C109_new_line",
    "C109_send_exc",
    "C109_close",
    "C109_close_exc",
    "C109_clear",
    "C109_looks",
    "C109_closed",
    "C109_clear_again_refuted"
   ],
   "note": "the simplifications of C40 and C88 apply; clear() for names without glob characters (as in C42); one call at a time; one refuted theorem."
  },
  {
   "property": "C110",
   "status": "proved",
   "theorems": [
    "C110_force_stop_ends_wait",
    "C110_second_receiver_refuted"
   ],
   "note": "no other thread reads from the main buffer or receives meanwhile (the refuted theorem shows why a second receiver is excluded)."
  },
  {
   "property": "C111",
   "status": "proved",
   "theorems": [
    "C111_module_no_effect",
    "C111_attribute_no_effect",
    "C111_module_text",
    "C111_placeholder_text",
    "C111_accessed_not_lazy",
    "C111_attribute_text",
    "C111_no_spec_refuted"
   ],
   "note": "the simplifications of C61 apply; the text of spec.origin is a parameter; the texts of ordinary modules, and of modules whose __name__ was set by a program, are not modelled; one refuted theorem."
  },
  {
   "property": "C112",
   "status": "proved",
   "theorems": [
    "C112_from_state",
    "C112_from_value",
    "C112_from_error",
    "C112_from_missing",
    "C112_from_never_attribute_error",
    "C112_from_placeholder",
    "C112_star_placeholder",
    "C112_star_loads",
    "C112_star_names",
    "C112_star_error",
    "C112_star_loaded",
    "C112_star_error_refuted",
    "C112_star_missing_refuted"
   ],
   "note": "the simplifications of C61 apply; from-imports as in CPython 3.11; an __all__ set by the code of a module, and loaded modules that are packages, are not modelled; two refuted theorems."
  }
 ]
}