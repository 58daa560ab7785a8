{
 "claims": [
  {
   "property": "C01",
   "status": "proved",
   "theorems": [
    "C01_control_round_trip",
    "C01_built_object"
   ],
   "note": ""
  },
  {
   "property": "C02",
   "status": "proved",
   "theorems": [
    "C02_control_wire_format"
   ],
   "note": ""
  },
  {
   "property": "C03",
   "status": "proved",
   "theorems": [
    "C03_encoded_size_exact"
   ],
   "note": ""
  },
  {
   "property": "C04",
   "status": "proved",
   "theorems": [
    "C04_decode_accepts_exactly_wellformed"
   ],
   "note": ""
  },
  {
   "property": "C05",
   "status": "proved",
   "theorems": [
    "C05_decode_memory_safe"
   ],
   "note": ""
  },
  {
   "property": "C06",
   "status": "partial",
   "theorems": [
    "C06_decode_canonical_partial",
    "C06_decode_injective",
    "C06_decode_canonical_refuted",
    "C06_reencode_exactly"
   ],
   "note": "Injectivity proved for every input; re-encoding is refuted for frames with header whose total length passes the limit. C06_reencode_exactly settles every decoded frame: it is refused exactly when the header is asked for and the frame is longer than 512 bytes, and otherwise re-encodes to itself."
  },
  {
   "property": "C07",
   "status": "proved",
   "theorems": [
    "C07_encodable_iff_fits",
    "C07_built_objects",
    "C07_every_history",
    "C07_every_legal_frame_encodable_refuted",
    "C07_untyped_object_encodes_undecodable"
   ],
   "note": "The exact condition is proved; the refutation theorem shows a documented-legal frame outside it."
  },
  {
   "property": "C08",
   "status": "proved",
   "theorems": [
    "C08_match_semantics"
   ],
   "note": ""
  },
  {
   "property": "C09",
   "status": "partial",
   "theorems": [
    "C09_accessors_on_decoded",
    "C09_accessors_agree_refuted",
    "C09_accessors_any",
    "C09_accessors_agree_exactly"
   ],
   "note": "Proved for decoded objects, refuted for hand-built ones. C09_accessors_any and C09_accessors_agree_exactly settle every object: what the accessors report, and exactly when they agree with the encoding."
  },
  {
   "property": "C10",
   "status": "proved",
   "theorems": [
    "C10_reader_legal_transport_use",
    "C10_reader_sends_only_handshake",
    "C10_writer_legal_transport_use"
   ],
   "note": ""
  },
  {
   "property": "C11",
   "status": "partial",
   "theorems": [
    "C11_reader_closed_at_destroy_refuted",
    "C11_reader_closed_at_destroy_partial",
    "C11_reader_left_open_only_after_refusal",
    "C11_writer_closed_at_destroy_refuted",
    "C11_writer_closed_at_destroy_partial",
    "C11_writer_left_open_only_in_handshake",
    "C11_one_way_writer_closed_at_destroy"
   ],
   "note": "Refuted as stated (transport left open by a reader after a failed call and by a writer refused by its peer). Proved: destroy closes the transport in histories without failed calls; over all histories a writer leaves it open only if its last session stopped before START without a transport failure; over all histories a reader leaves it open only if the bytes received in that session begin no stream it takes, or its own ACCEPT does not fit a frame; a one-way writer with content types within the limit always closes it."
  },
  {
   "property": "C12",
   "status": "proved",
   "theorems": [
    "C12_unidirectional_format"
   ],
   "note": ""
  },
  {
   "property": "C13",
   "status": "proved",
   "theorems": [
    "C13_batching_irrelevant",
    "C13_writev_emits_frames",
    "C13_write_size_bound"
   ],
   "note": ""
  },
  {
   "property": "C14",
   "status": "proved",
   "theorems": [
    "C14_crash_prefix"
   ],
   "note": ""
  },
  {
   "property": "C15",
   "status": "proved",
   "theorems": [
    "C15_results_explained_by_delivery",
    "C15_success_means_no_failure",
    "C15_silent_after_close"
   ],
   "note": ""
  },
  {
   "property": "C16",
   "status": "partial",
   "theorems": [
    "C16_empty_payload_refuted",
    "C16_long_payload_refuted",
    "C16_payloads_read_back_partial",
    "C16_read_back_exactly"
   ],
   "note": "Refuted for empty payloads and for payloads of 2^32 bytes or more. C16_read_back_exactly settles every sequence: the payloads come back exactly when each has length 1..2^32-1 and is within the limit of the reader."
  },
  {
   "property": "C17",
   "status": "proved",
   "theorems": [
    "C17_file_round_trip",
    "C17_file_round_trip_implicit_open",
    "C17_file_start_content_type",
    "C17_file_contents"
   ],
   "note": ""
  },
  {
   "property": "C18",
   "status": "proved",
   "theorems": [
    "C18_reader_meaning"
   ],
   "note": ""
  },
  {
   "property": "C19",
   "status": "partial",
   "theorems": [
    "C19_truncation",
    "C19_truncated_file",
    "C19_cut_looks_complete_refuted"
   ],
   "note": "What a reader of every truncation yields is proved exactly, for a source of bytes (C19_truncation) and for a file (C19_truncated_file); that it can be told from a complete stream is refuted."
  },
  {
   "property": "C20",
   "status": "partial",
   "theorems": [
    "C20_oversize_reported_refuted",
    "C20_reads_bounded_partial",
    "C20_buffer_bounded_partial",
    "C20_nothing_after_oversize_partial",
    "C20_unset_exactly"
   ],
   "note": "Bounds on reads and buffers are proved for all streams; that an oversize frame is reported as an error is refuted. C20_unset_exactly: a read reports success without setting data exactly when the stream ends in an oversize frame."
  },
  {
   "property": "C21",
   "status": "proved",
   "theorems": [
    "C21_no_undefined_behaviour",
    "C21_zero_length_array_only_on_announced_zero"
   ],
   "note": ""
  },
  {
   "property": "C22",
   "status": "proved",
   "theorems": [
    "C22_life_cycle",
    "C22_end_is_final"
   ],
   "note": ""
  },
  {
   "property": "C23",
   "status": "proved",
   "theorems": [
    "C23_open_implies_accepted",
    "C23_data_implies_accepted",
    "C23_open_iff_accepted"
   ],
   "note": ""
  },
  {
   "property": "C24",
   "status": "partial",
   "theorems": [
    "C24_reader_null_control_refuted",
    "C24_reader_wrong_type_refuted",
    "C24_reader_refused_frame_refuted",
    "C24_reader_control_truth_partial",
    "C24_reader_stop_truth",
    "C24_writer_null_control_refuted",
    "C24_writer_wrong_type_refuted",
    "C24_writer_control_truth_partial"
   ],
   "note": "Refuted as stated. The partial theorems prove that a frame handed out is the right one in every history whose last reopen did not fail (writer, FINISH: and no failed close); for the STOP of a reader in every history."
  },
  {
   "property": "C25",
   "status": "proved",
   "theorems": [
    "C25_outcome_is_a_function",
    "C25_handshake_outcome",
    "C25_outcome_reached",
    "C25_accept_answers_ready"
   ],
   "note": ""
  },
  {
   "property": "C26",
   "status": "partial",
   "theorems": [
    "C26_common_type_found_refuted",
    "C26_disjoint_types_rejected_refuted",
    "C26_single_type_negotiation_partial",
    "C26_opens_exactly"
   ],
   "note": "Both halves are refuted; which of the two opens succeeds is characterised exactly for all content types, and the negotiation is proved for writers with a single one."
  },
  {
   "property": "C27",
   "status": "proved",
   "theorems": [
    "C27_end_to_end_delivery"
   ],
   "note": ""
  },
  {
   "property": "C28",
   "status": "proved",
   "theorems": [
    "C28_read_success_is_exact",
    "C28_read_failure_has_a_cause",
    "C28_read_completes",
    "C28_chunking_is_irrelevant"
   ],
   "note": ""
  },
  {
   "property": "C29",
   "status": "partial",
   "theorems": [
    "C29_success_is_exact_partial",
    "C29_whole_send_succeeds_partial",
    "C29_single_buffer_in_order_partial",
    "C29_no_duplicates_refuted",
    "C29_memory_safe_refuted",
    "C29_short_send_never_completes",
    "C29_success_exactly"
   ],
   "note": "Refuted in two ways (resent buffers, out-of-bounds read). Proved: a defined success has sent exactly the buffers; interrupted then whole sends succeed; a single buffer is sent in order. C29_success_exactly says for every outcome of the socket calls when success is reported and what was sent."
  },
  {
   "property": "C30",
   "status": "proved",
   "theorems": [
    "C30_spsc_fifo",
    "C30_spsc_nothing_stuck"
   ],
   "note": ""
  },
  {
   "property": "C31",
   "status": "proved",
   "theorems": [
    "C31_capacity",
    "C31_answers_are_exact"
   ],
   "note": ""
  },
  {
   "property": "C32",
   "status": "proved",
   "theorems": [
    "C32_two_producers_lose_an_element"
   ],
   "note": ""
  },
  {
   "property": "C33",
   "status": "proved",
   "theorems": [
    "C33_mutex_queue_linearizable"
   ],
   "note": ""
  },
  {
   "property": "C34",
   "status": "proved",
   "theorems": [
    "C34_queue_sizes"
   ],
   "note": ""
  },
  {
   "property": "C35",
   "status": "partial",
   "theorems": [
    "C35_input_queue_size_refuted",
    "C35_setters_partial",
    "C35_documented_options_work"
   ],
   "note": "Every documented option setting is proved to work (documented_options_work); refuted for undocumented settings: an accepted input_queue_size of 6 leads to undefined behaviour in fstrm_iothr_init's failure path."
  },
  {
   "property": "C36",
   "status": "proved",
   "theorems": [
    "C36_hand_out",
    "C36_exclusive",
    "C36_by_index"
   ],
   "note": ""
  },
  {
   "property": "C37",
   "status": "proved",
   "theorems": [
    "C37_submit_results"
   ],
   "note": ""
  },
  {
   "property": "C38",
   "status": "proved",
   "theorems": [
    "C38_released_at_most_once",
    "C38_released_exactly_once",
    "C38_nothing_left_behind",
    "C38_left_over_released",
    "C38_no_use_after_release"
   ],
   "note": ""
  },
  {
   "property": "C39",
   "status": "proved",
   "theorems": [
    "C39_order"
   ],
   "note": ""
  },
  {
   "property": "C40",
   "status": "proved",
   "theorems": [
    "C40_lossless",
    "C40_unidirectional_healthy",
    "C40_early_clock_loss"
   ],
   "note": ""
  },
  {
   "property": "C41",
   "status": "partial",
   "theorems": [
    "C41_batch_exactly",
    "C41_batch_limits_partial",
    "C41_no_overrun",
    "C41_byte_limit_refuted"
   ],
   "note": "The exact bound is proved for all histories without any assumption on sizes (C41_batch_exactly: the first frame of a batch counts modulo 4 GiB, the others in full; entry bound and array bounds hold always); the documented byte bound is proved for frames below 4 GiB and refuted above."
  },
  {
   "property": "C42",
   "status": "proved",
   "theorems": [
    "C42_reopen_pacing",
    "C42_no_accumulation"
   ],
   "note": ""
  },
  {
   "property": "C43",
   "status": "proved",
   "theorems": [
    "C43_shutdown_terminates",
    "C43_shutdown_drains"
   ],
   "note": ""
  },
  {
   "property": "C44",
   "status": "partial",
   "theorems": [
    "C44_kept_only_by_wakeups",
    "C44_timeout_flushes_partial",
    "C44_flush_deadline_refuted"
   ],
   "note": "Refuted as stated: wake-ups that are not time-outs restart the wait without flushing, any number of times. Proved: every timed-out wait is followed by a flush of everything batched (C44_timeout_flushes_partial), so a buffer is held beyond the flush timeout only because every wait since it was taken was ended by a wake-up (C44_kept_only_by_wakeups). C82_waits_when_empty adds that every wait is for the configured time-out."
  },
  {
   "property": "C45",
   "status": "proved",
   "theorems": [
    "C45_reaction",
    "C45_reaction_unique",
    "C45_segmentation",
    "C45_any_stream",
    "C45_any_unique",
    "C45_any_agrees"
   ],
   "note": "For any stream, provided bufferevent_write() succeeds (C45_segmentation, C45_any_stream, C45_any_unique). If it may fail, C45_any_stream with lost=true: each failed answer closes the connection. C45_reaction is the simpler description for streams announcing no length of 2^32-4 or more (tame)."
  },
  {
   "property": "C46",
   "status": "partial",
   "theorems": [
    "C46_closed_files_partial",
    "C46_running_files_partial",
    "C46_verbatim_partial",
    "C46_any_files",
    "C46_any_verbatim",
    "C46_fragment_refuted"
   ],
   "note": "As stated for streams announcing no length of 2^32-4 or more; refuted with 2^32-3, whose size wraps to 1. C46_any_files and C46_any_verbatim say for any stream what the files then contain."
  },
  {
   "property": "C47",
   "status": "partial",
   "theorems": [
    "C47_data_before_handshake_refuted",
    "C47_answers",
    "C47_negotiated_partial",
    "C47_any_negotiated"
   ],
   "note": "Refuted as stated: data is stored before any handshake. Proved for any stream and failing answers: the answers and the order of the handshake; what is stored from any stream is given exactly by C45/C46."
  },
  {
   "property": "C48",
   "status": "proved",
   "theorems": [
    "C48_limit",
    "C48_unlimited",
    "C48_counter_in_range"
   ],
   "note": ""
  },
  {
   "property": "C49",
   "status": "partial",
   "theorems": [
    "C49_skip_partial",
    "C49_buffer_bound",
    "C49_never_stalls_partial",
    "C49_stall_refuted",
    "C49_stalls_exactly",
    "C49_wrapped_refuted"
   ],
   "note": "Exact skipping and the buffer bound are proved; the documented claim is refuted by a wrap and by stalls. Which connections stall is proved exactly (C49_stalls_exactly: the last read began before the size of the frame was known and filled the buffer with its beginning); none does if reads stay 8 bytes below the buffer size."
  },
  {
   "property": "C50",
   "status": "proved",
   "theorems": [
    "C50_dump_to_file",
    "C50_dump_is_idempotent",
    "C50_dump_any_output",
    "C50_dump_prints",
    "C50_dump_refuses_other_files",
    "C50_every_file_is_classified",
    "C50_replay_to_reader",
    "C50_replay_any_connection"
   ],
   "note": "Proved for files without a frame above 1 MiB (otherwise see C63), for any behaviour of the output or connection including crashes; end to end with a reader for replay. Files are regular files with the semantics of File.v; the same path for input and output is C86."
  },
  {
   "property": "C51",
   "status": "partial",
   "theorems": [
    "C51_truncation_goes_unnoticed",
    "C51_success_means_stop_refuted",
    "C51_success_partial",
    "C51_success_exactly"
   ],
   "note": "Refuted as stated: any truncation after START goes unnoticed (proved for every cut). Partial: success implies START, whole frames, then STOP or end of input. C51_success_exactly states when fstrm_dump succeeds on a stream, for every file content."
  },
  {
   "property": "C52",
   "status": "partial",
   "theorems": [
    "C52_text_spells_payload",
    "C52_printing_unambiguous_refuted",
    "C52_printing_unambiguous_partial",
    "C52_ambiguous_exactly"
   ],
   "note": "The text spells the payload byte by byte for every payload (C52_text_spells_payload); that it determines the payload is refuted for payloads with backslashes and proved for lists of payloads without. C52_ambiguous_exactly says exactly which payloads share their text with another."
  },
  {
   "property": "C53",
   "status": "proved",
   "theorems": [
    "C53_contents_preserved",
    "C53_growth_terminates",
    "C53_index_out_of_range_aborts",
    "C53_extend_by_itself_uses_freed_memory",
    "C53_extend_by_itself_after_reserve"
   ],
   "note": ""
  },
  {
   "property": "C54",
   "status": "proved",
   "theorems": [
    "C54_add_exact",
    "C54_sub_exact",
    "C54_add_defined",
    "C54_sub_defined",
    "C54_sleep_exact"
   ],
   "note": ""
  },
  {
   "property": "C55",
   "status": "partial",
   "theorems": [
    "C55_port_texts",
    "C55_tcp_options",
    "C55_port_is_a_number_refuted",
    "C55_unix_path_accepted",
    "C55_unix_path_stored"
   ],
   "note": "The exact accepted texts are proved (C55_port_texts, C55_tcp_options, C55_unix_path_*); the documented claim that a port is a number of 0..65535 is refuted."
  },
  {
   "property": "C56",
   "status": "partial",
   "theorems": [
    "C56_descriptor_accounting",
    "C56_results",
    "C56_destroy_releases_descriptor_refuted",
    "C56_after_destroy"
   ],
   "note": "Accounting proved for all histories; destroy of a connected transport refuted."
  },
  {
   "property": "C57",
   "status": "proved",
   "theorems": [
    "C57_printed_text_is_harmless",
    "C57_one_line_per_frame"
   ],
   "note": ""
  },
  {
   "property": "C58",
   "status": "proved",
   "theorems": [
    "C58_insert_is_wait_free"
   ],
   "note": ""
  },
  {
   "property": "C59",
   "status": "partial",
   "theorems": [
    "C59_sigusr1_overwrites_refuted",
    "C59_distinct_names_kept_partial",
    "C59_timed_rotation_partial",
    "C59_survivors_exactly",
    "C59_no_calendar_keeps_last",
    "C59_kept_exactly"
   ],
   "note": "Refuted for SIGUSR1 without calendar; proved when names differ and for timed rotation. C59_survivors_exactly and C59_kept_exactly say exactly which files remain."
  },
  {
   "property": "C60",
   "status": "partial",
   "theorems": [
    "C60_defined",
    "C60_keeps_running_partial",
    "C60_hang_refuted",
    "C60_hang_exactly",
    "C60_answers_fail"
   ],
   "note": "Definedness for all bytes; hang witness at length 2^32-4; C60_hang_exactly: no other stream stops the server, and C60_answers_fail: nor do failing answers."
  },
  {
   "property": "C61",
   "status": "proved",
   "theorems": [
    "C61_session",
    "C61_closes_after_finish"
   ],
   "note": ""
  },
  {
   "property": "C62",
   "status": "partial",
   "theorems": [
    "C62_replay_status_refuted",
    "C62_replay_status_partial",
    "C62_replay_exactly"
   ],
   "note": "Refuted as stated; the partial theorem says what a successful exit does imply. C62_replay_exactly gives the exact exit status and output for every run."
  },
  {
   "property": "C63",
   "status": "partial",
   "theorems": [
    "C63_oversize_is_undefined",
    "C63_dump_is_defined_refuted",
    "C63_dump_is_defined_partial",
    "C63_dump_is_defined_exactly"
   ],
   "note": "Refuted for every file with a data frame above the limit; proved for all others. C63_dump_is_defined_exactly states it as an equivalence."
  },
  {
   "property": "C64",
   "status": "partial",
   "theorems": [
    "C64_writer_options",
    "C64_reader_options",
    "C64_init",
    "C64_options_to_stream",
    "C64_options_bound_reads",
    "C64_accepted_options_usable_refuted",
    "C64_unsendable_types"
   ],
   "note": "All parts proved except the last, which is refuted; the exact consequence of over-long content types is proved (C64_unsendable_types)."
  },
  {
   "property": "C65",
   "status": "proved",
   "theorems": [
    "C65_queues_refine_lists",
    "C65_submissions",
    "C65_becomes_visible",
    "C65_order",
    "C65_released_exactly_once",
    "C65_shutdown_terminates",
    "C65_lossless"
   ],
   "note": "Single-producer lock-free queues on TSO memory (x86). The accepted submissions are those whose insert succeeded."
  },
  {
   "property": "C66",
   "status": "proved",
   "theorems": [
    "C66_submit_to_read",
    "C66_submit_to_read_shared"
   ],
   "note": "File transport; hypothesis: no file operation failed, and submissions were visible when destroy was called."
  },
  {
   "property": "C67",
   "status": "proved",
   "theorems": [
    "C67_queues_refine_lists",
    "C67_submissions",
    "C67_order",
    "C67_released_exactly_once",
    "C67_shutdown_terminates",
    "C67_lossless"
   ],
   "note": ""
  },
  {
   "property": "C68",
   "status": "proved",
   "theorems": [
    "C68_weak_memory_fifo",
    "C68_weak_memory_answers",
    "C68_weak_memory_nothing_stuck",
    "C68_acquire_loads_needed",
    "C68_store_barrier_needed"
   ],
   "note": ""
  },
  {
   "property": "C69",
   "status": "partial",
   "theorems": [
    "C69_wakes_at_threshold_refuted",
    "C69_signal_level",
    "C69_large_threshold_never_wakes",
    "C69_lost_wakeup_refuted",
    "C69_asleep_partial",
    "C69_shutdown_sleeps_at_most_once",
    "C69_shutdown_prompt_refuted",
    "C69_destroy_wakes",
    "C69_shutdown_ends",
    "C69_done_means_drained"
   ],
   "note": "The documented level, the reliability of wake-ups and the promptness of destroy are refuted; the exact signalling level, the state of the queues while the thread sleeps and the bound on destroy are proved for all schedules, and so is that destroy wakes a thread that was asleep, that the thread ends under any fair schedule and leaves no queue with an entry. Queue operations are single steps here, submit with its check of the flag included."
  },
  {
   "property": "C70",
   "status": "partial",
   "theorems": [
    "C70_starts_exactly",
    "C70_usage_error_changes_nothing",
    "C70_only_named_paths",
    "C70_running",
    "C70_failed_start_keeps_output_refuted",
    "C70_long_type_empties_output",
    "C70_failed_start_partial",
    "C70_removes_only_sockets_refuted",
    "C70_same_path"
   ],
   "note": "Exact conditions for starting, the effect on every file and the harmlessness of usage errors are proved; that a failed start keeps an existing output file and that only sockets are removed are refuted, with the exact damage characterised. Paths are names of distinct files; the text of the command line is C71."
  },
  {
   "property": "C71",
   "status": "partial",
   "theorems": [
    "C71_capture",
    "C71_capture_start",
    "C71_replay",
    "C71_as_documented",
    "C71_wrong_rejected",
    "C71_missing_rejected",
    "C71_stray_rejected",
    "C71_after_dashes",
    "C71_from_files",
    "C71_every_file_is_a_text",
    "C71_no_file",
    "C71_shows_and_ends",
    "C71_numbers",
    "C71_flag_with_value",
    "C71_bad_numbers_refuted",
    "C71_value_follows_refuted",
    "C71_numbers_exactly",
    "C71_from_open_files",
    "C71_enough_descriptors",
    "C71_standard_input"
   ],
   "note": "Good command lines are proved to mean what they say, for both tables (which are those of the manual pages), with environment; wrong, ambiguous, stray and incomplete options are proved to be turned down for every table; after \"--\" everything is a value. That bad numbers are rejected and that a value belongs to the option before it are refuted. GLOBAL_ARGV is taken to be unset; atoi() is that of the GNU C library. Options from files of arguments, nested to any depth, are proved to mean what they mean in place, exactly when the queue has room (C71_from_files); --version and the like end the program with status 0 (C71_shows_and_ends), an unreadable file with status 1. With the descriptors of such files and a standard input that is read once: C71_from_open_files, C71_enough_descriptors; the file named - is the standard input, which gives its arguments in place of its first naming (C71_standard_input). C71_numbers_exactly says which number every text is taken for."
  },
  {
   "property": "C72",
   "status": "partial",
   "theorems": [
    "C72_queue_overrun_refuted",
    "C72_orderly_file_refuted",
    "C72_null_refuted",
    "C72_self_file_refuted",
    "C72_reads_past_refuted",
    "C72_safe_partial",
    "C72_replay_has_settings",
    "C72_ends",
    "C72_circle"
   ],
   "note": "Memory safety of the parser is refuted (queue overrun for every long cluster, even for orderly options in a file, NULL dereference, read behind the table). Termination is proved (C72_ends: the nesting is at most the number of descriptors plus 2; C72_circle), the size of the stack aside; C72_self_file_refuted says that nothing else bounds the nesting. The parser is proved safe for all arguments without a file of arguments that ask for no more values than there are arguments. fstrm_replay never reaches its writer without settings: proved for every argument list."
  },
  {
   "property": "C73",
   "status": "proved",
   "theorems": [
    "C73_standard_output",
    "C73_only_on_request",
    "C73_every_request",
    "C73_not_early",
    "C73_not_late"
   ],
   "note": ""
  },
  {
   "property": "C74",
   "status": "proved",
   "theorems": [
    "C74_close_ends_session",
    "C74_close_means_stored",
    "C74_close_means_in_files",
    "C74_confirmed_is_read_back",
    "C74_oversize_lost_refuted"
   ],
   "note": "Proved as stated (payloads that fit, length below 2^32-4). The exception named in the statement is the witness C74_oversize_lost_refuted."
  },
  {
   "property": "C75",
   "status": "proved",
   "theorems": [
    "C75_results",
    "C75_never_stuck",
    "C75_bounded",
    "C75_can_finish",
    "C75_delivered"
   ],
   "note": "Proved for servers with a buffer of at least 512 bytes whose sends succeed; reads of the server bring at most m bytes with m + 7 below the buffer size (as evbuffer_read does). Kernel buffers are not limited in the model and a connection is not lost."
  },
  {
   "property": "C76",
   "status": "proved",
   "theorems": [
    "C76_thread_is_client",
    "C76_posted_is_stored",
    "C76_posted_is_in_files",
    "C76_posted_is_read_back"
   ],
   "note": ""
  },
  {
   "property": "C77",
   "status": "partial",
   "theorems": [
    "C77_accounted",
    "C77_released_partial",
    "C77_nothing_left_partial",
    "C77_data_stays",
    "C77_control_stays",
    "C77_others_untouched",
    "C77_released_refuted"
   ],
   "note": "Memory safety and the exact ledger are proved for every program; \"everything is released\" is refuted for a reader that reports the end of a stream twice, and proved for all other programs."
  },
  {
   "property": "C78",
   "status": "partial",
   "theorems": [
    "C78_released",
    "C78_accounted",
    "C78_clocks",
    "C78_failure_refuted",
    "C78_same_condition"
   ],
   "note": "Success condition, resource accounting and clocks are proved; \"reports failure otherwise\" is refuted: every failing creation is undefined behaviour."
  },
  {
   "property": "C79",
   "status": "partial",
   "theorems": [
    "C79_words",
    "C79_choice",
    "C79_supplied",
    "C79_variable",
    "C79_line",
    "C79_later_wins",
    "C79_reject",
    "C79_no_equals",
    "C79_resume",
    "C79_replay_settings",
    "C79_defined_refuted",
    "C79_overrides_refuted",
    "C79_files_stay_refuted"
   ],
   "note": "Words, names, settings and their effect are proved for every environment and argument list; that the variable only supplies defaults and that every call is defined are refuted."
  },
  {
   "property": "C80",
   "status": "proved",
   "theorems": [
    "C80_close_means_on_disk",
    "C80_destroy_means_on_disk",
    "C80_read_back",
    "C80_always_a_prefix",
    "C80_dump_on_disk",
    "C80_dump_prefix",
    "C80_without_errors"
   ],
   "note": "The disk is an arbitrary function from stdio calls to outcomes; fsync and the kernel's own cache are not part of it."
  },
  {
   "property": "C81",
   "status": "partial",
   "theorems": [
    "C81_clean_exit_stored_partial",
    "C81_confirmed_on_disk_partial",
    "C81_sighup_stores_partial",
    "C81_healthy_disk",
    "C81_write_errors_end",
    "C81_always_prefixes",
    "C81_exit_stores",
    "C81_nothing_else",
    "C81_clean_exit_stored_refuted",
    "C81_frames_intact_refuted"
   ],
   "note": "Completeness after status 0 and after SIGHUP is proved for runs in which the unchecked fflush() and fclose() meet no error, and refuted otherwise; prefixes are proved when no fflush() fails, order-preserving parts always."
  },
  {
   "property": "C82",
   "status": "proved",
   "theorems": [
    "C82_round_robin",
    "C82_waits_when_empty",
    "C82_served"
   ],
   "note": ""
  },
  {
   "property": "C83",
   "status": "proved",
   "theorems": [
    "C83_dump_reports",
    "C83_dump_reports_alone",
    "C83_dump_refusal",
    "C83_failure_is_explained",
    "C83_same_program",
    "C83_numbers",
    "C83_arguments"
   ],
   "note": "For frames above the limit fstrm_dump has undefined behaviour (C63). Messages are compared as the texts on each stream and on a terminal."
  },
  {
   "property": "C84",
   "status": "partial",
   "theorems": [
    "C84_stop_message_refuted",
    "C84_replay_truncation_refuted",
    "C84_replay_fails_silently",
    "C84_replay_explains_partial"
   ],
   "note": "The three claims are refuted by witnesses; what remains (a failing fstrm_replay has printed an error message unless its content type is too long) is proved."
  },
  {
   "property": "C85",
   "status": "proved",
   "theorems": [
    "C85_replay_reports",
    "C85_every_file_has_a_note",
    "C85_note_is_unique",
    "C85_same_program"
   ],
   "note": ""
  },
  {
   "property": "C86",
   "status": "partial",
   "theorems": [
    "C86_same_as_first_block",
    "C86_what_remains",
    "C86_first_ones",
    "C86_small_file_unchanged",
    "C86_success_means",
    "C86_in_place_refuted"
   ],
   "note": "The outcome is proved exactly for every file, disk and buffer size; that the frames are kept is refuted for every buffer size. The reading stream fetches a buffer full at a time from the file as it is then; reading does not fail."
  },
  {
   "property": "C87",
   "status": "partial",
   "theorems": [
    "C87_stdout",
    "C87_any_stdout",
    "C87_no_stream",
    "C87_oversize_refuted",
    "C87_copy_exactly",
    "C87_copy_refuted"
   ],
   "note": "The copy fails for every stream with a data frame (C87_copy_refuted); what is written, the status and when it is a copy are proved for a stdout that takes everything, and the order of writing, printing and closing for a stdout that may fail at any call (C87_any_stdout). An oversize frame is C20."
  },
  {
   "property": "C88",
   "status": "partial",
   "theorems": [
    "C88_any",
    "C88_any_covers",
    "C88_once",
    "C88_twice_exactly",
    "C88_twice_refuted"
   ],
   "note": "Two names - are undefined behaviour after a stream that closes stdin (C88_twice_refuted, C88_twice_exactly); one name is proved for every position (C88_once). C88_any says what any list of names does, each - going on where the one before stopped; C88_any_covers says that this describes all inputs without frames above the default maximum (for those see C20)."
  },
  {
   "property": "C89",
   "status": "partial",
   "theorems": [
    "C89_same_runs",
    "C89_same_end",
    "C89_files",
    "C89_all_files",
    "C89_connections",
    "C89_numbers",
    "C89_skips",
    "C89_failures_explained_partial",
    "C89_failures_explained_refuted"
   ],
   "note": "Failures at the shutdown are silent (C89_failures_explained_refuted); all other failures, the files, the connections and the frames skipped for their size are proved (C89_files, C89_all_files, C89_connections, C89_skips)."
  },
  {
   "property": "C90",
   "status": "proved",
   "theorems": [
    "C90_accounted",
    "C90_gone",
    "C90_others",
    "C90_end"
   ],
   "note": "The option parser's memory is not in the model; allocations do not fail (the program aborts if they do)."
  },
  {
   "property": "C91",
   "status": "proved",
   "theorems": [
    "C91_dump",
    "C91_replay"
   ],
   "note": "The option parser's memory is not in the model; allocations do not fail (the program aborts if they do); decisions that depend on data are arbitrary."
  },
  {
   "property": "C92",
   "status": "partial",
   "theorems": [
    "C92_parsed",
    "C92_cleaned_up_partial",
    "C92_nothing_left_partial",
    "C92_gives_back_refuted"
   ],
   "note": "C92_parsed: every parse is defined (no use or release after release) and afterwards exactly the options' strings and the counted remainder exist. C92_cleaned_up_partial: the strings may be read at any time before argv_cleanup, which frees each once; the number of blocks left is exactly the number of strings that replaced another plus what the environment leaves. C92_nothing_left_partial: nothing is left without those two. C92_gives_back_refuted: cleaning up does not always give back everything (-w a -w b). Left out: writing behind the queue and a NULL entry (C72), failing allocations (they end the process)."
  },
  {
   "property": "C93",
   "status": "proved",
   "theorems": [
    "C93_open_exactly",
    "C93_looked_up",
    "C93_for_good"
   ],
   "note": "C93_open_exactly: membership in the list of connections, in terms of the history and of what was done for the connection; C93_looked_up: the lookup other statements use finds exactly what is in the list; C93_for_good: the end is final. Left out: the descriptors themselves (C90 has the memory)."
  },
  {
   "property": "C94",
   "status": "proved",
   "theorems": [
    "C94_capacity",
    "C94_results",
    "C94_never_stuck",
    "C94_bounded",
    "C94_can_finish",
    "C94_delivered"
   ],
   "note": ""
  },
  {
   "property": "C95",
   "status": "proved",
   "theorems": [
    "C95_stored",
    "C95_never_stuck",
    "C95_bounded",
    "C95_can_finish",
    "C95_copy",
    "C95_identical"
   ],
   "note": ""
  },
  {
   "property": "C96",
   "status": "proved",
   "theorems": [
    "C96_works",
    "C96_stored",
    "C96_in_files",
    "C96_at_any_time",
    "C96_never_stuck",
    "C96_can_finish",
    "C96_ends"
   ],
   "note": ""
  },
  {
   "property": "C97",
   "status": "proved",
   "theorems": [
    "C97_tries_again"
   ],
   "note": ""
  },
  {
   "property": "C98",
   "status": "proved",
   "theorems": [
    "C98_legal",
    "C98_left_open_only_in_handshake",
    "C98_one_way_closed",
    "C98_write_size"
   ],
   "note": ""
  },
  {
   "property": "C99",
   "status": "partial",
   "theorems": [
    "C99_long_shows",
    "C99_programs",
    "C99_long_fits",
    "C99_long_fits_refuted",
    "C99_short_fits",
    "C99_short_shows_partial",
    "C99_short_shows_refuted"
   ],
   "note": "C99_long_shows with C99_programs: the text both programs print by default. Not true as stated: a line is too wide for an option without short name whose name has 30 characters and which takes a value (C99_long_fits_refuted; C99_long_fits gives the rest; no table of the programs has one), and the short text leaves out flags without a short name, --localtime and --gmtime of fstrm_capture (C99_short_shows_refuted; C99_short_shows_partial gives the rest). Left out: positional arguments, which no table has."
  },
  {
   "property": "C100",
   "status": "partial",
   "theorems": [
    "C100_usage",
    "C100_error",
    "C100_named",
    "C100_version",
    "C100_exits",
    "C100_fits",
    "C100_help_never",
    "C100_help_refuted"
   ],
   "note": "Not true as stated: the help message of a program is never displayed, although --usage-all says --help displays it (C100_help_refuted, C100_help_never). All the rest is proved: C100_usage, C100_error, C100_named, C100_version, C100_fits; C100_exits ties the names to the parser of Argv.v. The text of --argv-display is C101."
  },
  {
   "property": "C101",
   "status": "partial",
   "theorems": [
    "C101_shows",
    "C101_safe",
    "C101_tells_partial",
    "C101_tells_refuted"
   ],
   "note": "Not true as stated in its last part: the text of an unset string is also that of the string \"(null)\", a comma in a file name looks like two names (C101_tells_refuted with the Examples beside it). Proved: the text for any table and values (C101_shows), memory safety (C101_safe), and that what is shown of a string that is not cut tells the string (C101_tells_partial)."
  },
  {
   "property": "C102",
   "status": "partial",
   "theorems": [
    "C102_open_while_open",
    "C102_one_way_anew_partial",
    "C102_any_client",
    "C102_refuted"
   ],
   "note": "Not true as stated: after a handshake refused by a peer of a transport with a read method, the writer does not close, and the thread's next attempt finds the transport open (C102_refuted). Proved for one-way transports (C102_one_way_anew_partial); in general, an attempt on an open transport only follows a handshake that stopped before START (C102_open_while_open for the I/O thread, C102_any_client for any user of a writer)."
  },
  {
   "property": "C103",
   "status": "partial",
   "theorems": [
    "C103_one_descriptor",
    "C103_none_left_partial",
    "C103_any_client",
    "C103_same_connection",
    "C103_refuted"
   ],
   "note": "Not true as stated: a thread that ends after a refused handshake leaves the descriptor of that connection open (C103_refuted). Proved: at most one at any time, and exactly when the transport is open (C103_one_descriptor); at the end none unless the last handshake stopped before START (C103_none_left_partial; C103_any_client for any user of a writer); opening an open socket again changes nothing (C103_same_connection)."
  }
 ]
}