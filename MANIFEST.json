{
 "claims": [
  {
   "property": "C01",
   "status": "proved",
   "theorems": [
    "C01_varint_unsigned_roundtrip",
    "C01_varint_signed_roundtrip",
    "C01_byterange_roundtrips",
    "C01_fixed_length_roundtrip"
   ],
   "note": "Model of folly-derived varint code in util/SerializationUtil.cpp."
  },
  {
   "property": "C02",
   "status": "proved",
   "theorems": [
    "C02_decoders_safe",
    "C02_positional_decoder_safe",
    "C02_negative_frame_crashes",
    "C02_cut_integer_refused"
   ],
   "note": "Decoders are proved against the bytes alone; that folly's decoders behave as the model says is part of the trusted base. A frame with a negative length crashes (C02_negative_frame_crashes), it is not refused."
  },
  {
   "property": "C03",
   "status": "proved",
   "theorems": [
    "C03_encode_integer_frame",
    "C03_encode_string_frame"
   ],
   "note": "Buffers are lists of bytes; what lies outside the region is stated to be unchanged, byte for byte."
  },
  {
   "property": "C04",
   "status": "proved",
   "theorems": [
    "C04_string_roundtrip",
    "C04_hostile_length_refused"
   ],
   "note": "Full, for strings shorter than 2^63."
  },
  {
   "property": "C05",
   "status": "proved",
   "theorems": [
    "C05_header_roundtrip",
    "C05_header_fits",
    "C05_header_decoder_safe"
   ],
   "note": "header_visible says what a version carries."
  },
  {
   "property": "C06",
   "status": "proved",
   "theorems": [
    "C06_settings_roundtrip",
    "C06_settings_fit",
    "C06_checkpoints_roundtrip",
    "C06_local_checkpoint_fits",
    "C06_old_invalid_seq_id_understood",
    "C06_checkpoints_decoder_safe",
    "C06_done_roundtrip",
    "C06_done_fits",
    "C06_size_roundtrip",
    "C06_footer_roundtrip",
    "C06_abort_roundtrip",
    "C06_chunks_cmd_roundtrip",
    "C06_encryption_settings_roundtrip"
   ],
   "note": "All control messages of Protocol.cpp."
  },
  {
   "property": "C07",
   "status": "proved",
   "theorems": [
    "C07_chunk_list_exchange",
    "C07_oversized_last_never_ends",
    "C07_termination_refuted",
    "C07_exact_list_refuted",
    "C07_sender_memory_safety_refuted",
    "C07_received_as_announced",
    "C07_negative_announcement_refused",
    "C07_surplus_refused"
   ],
   "note": "Exact when every entry fits the receiver's buffer. Refuted in general: an oversized entry makes the exchange loop forever or repeat entries; a lying receiver overflows the sender's buffer."
  },
  {
   "property": "C08",
   "status": "proved",
   "theorems": [
    "C08_negotiation",
    "C08_negotiation_stable",
    "C08_symmetry_below_minimum_refuted"
   ],
   "note": "Refuted below version 10: only the requested version is compared with the minimum."
  },
  {
   "property": "C09",
   "status": "proved",
   "theorems": [
    "C09_merge_exact",
    "C09_merge_any_sort",
    "C09_remaining_exact",
    "C09_remaining_general",
    "C09_remaining_total",
    "C09_remaining_returns",
    "C09_unmerged_list_refuted"
   ],
   "note": "The missing pieces are exact for merged lists, which is what the code gives; for lists with overlaps they are not (C09_unmerged_list_refuted)."
  },
  {
   "property": "C10",
   "status": "proved",
   "theorems": [
    "C10_blocks_exact",
    "C10_run_exact",
    "C10_iterations_suffice",
    "C10_untrusted_pieces_refuted"
   ],
   "note": "Blocks for a file plus the received pieces cover every byte once. Refuted for received pieces that do not fit the file (endless loop)."
  },
  {
   "property": "C11",
   "status": "proved",
   "theorems": [
    "C11_conservation",
    "C11_handout_highest",
    "C11_order_irreflexive",
    "C11_order_transitive",
    "C11_order_total",
    "C11_comparator",
    "C11_handout_exists",
    "C11_handout_rank",
    "C11_return_accepted",
    "C11_block_count"
   ],
   "note": "Over every interleaving of discovery, resumption, hand-out, open failure and return."
  },
  {
   "property": "C12",
   "status": "proved",
   "theorems": [
    "C12_ids_distinct",
    "C12_no_collision",
    "C12_one_id_per_file",
    "C12_identity",
    "C12_ids_start_at_one_refuted"
   ],
   "note": "Refuted: ids start at 0 after an empty received list although the documentation says 1."
  },
  {
   "property": "C13",
   "status": "proved",
   "theorems": [
    "C13_no_unclaimed_block",
    "C13_no_sleep_at_end",
    "C13_no_more_only_at_end",
    "C13_stuck_only_for_lack_of_blocks",
    "C13_all_answered",
    "C13_waiters_counted",
    "C13_batch_end",
    "C13_blocks_accounted",
    "C13_block_status",
    "C13_late_resume_refuted"
   ],
   "note": "All schedules of any number of threads. The refutation needs the resume list after threads asked for work, an order the sender's start-up prevents. C13_blocks_accounted counts every block: queued, taken, being opened, read or returned; C13_block_status: a block carries the status that was set when it was popped."
  },
  {
   "property": "C14",
   "status": "proved",
   "theorems": [
    "C14_unconfirmed_blocks_return",
    "C14_no_crash",
    "C14_no_block_lost",
    "C14_overstated_bytes_refuted",
    "C14_old_receiver_refuted"
   ],
   "note": "Refuted for receivers before version 21 (partial bytes credited to two blocks) and for a receiver claiming more bytes than the block has."
  },
  {
   "property": "C15",
   "status": "proved",
   "theorems": [
    "C15_wrong_confirmation_refused",
    "C15_refused_changes_nothing",
    "C15_other_block_not_credited",
    "C15_other_block_refuted",
    "C15_truthful_confirmation_refuted"
   ],
   "note": "A confirmation naming another block is not refused but not credited. A truthful one can be refused after version negotiation (file 0, offset 0)."
  },
  {
   "property": "C16",
   "status": "proved",
   "theorems": [
    "C16_totals",
    "C16_attempts",
    "C16_thread_effective",
    "C16_block_effective",
    "C16_complete_means_sent",
    "C16_final_check_passes",
    "C16_final_check_refuted",
    "C16_report_after_failure_refuted",
    "C16_deletion_count_refuted"
   ],
   "note": "Refuted parts: final check aborts after a partial confirmation of file 0 offset 0; report after failure counts bytes taken back; deletion entries are over-counted."
  },
  {
   "property": "C17",
   "status": "proved",
   "theorems": [
    "C17_encode",
    "C17_decode",
    "C17_fits",
    "C17_long_header_refuted",
    "C17_long_name_refuted"
   ],
   "note": "Refuted at the limits: a recovery id that does not fit is silently not written, a name that does not fit stops the process."
  },
  {
   "property": "C18",
   "status": "proved",
   "theorems": [
    "C18_torn_tail"
   ],
   "note": "Entries of any content; system calls succeed in full."
  },
  {
   "property": "C19",
   "status": "proved",
   "theorems": [
    "C19_recovery",
    "C19_beyond_logged_size_refuted",
    "C19_block_overflow_refuted",
    "C19_stale_size_refuted",
    "C19_removed_resized_file_refuted"
   ],
   "note": "Refuted parts: a block beyond the logged size but inside the file on disk is reported; a block end beyond the signed range is undefined; an id invalidated and reused keeps its old size, so a truthful resize makes the log invalid."
  },
  {
   "property": "C20",
   "status": "proved",
   "theorems": [
    "C20_refused",
    "C20_restarts",
    "C20_sender_changed",
    "C20_marked"
   ],
   "note": "Full, over entries that parse; what becomes of bytes that do not is C19 and C57."
  },
  {
   "property": "C21",
   "status": "proved",
   "theorems": [
    "C21_compaction",
    "C21_empty_log_refuted"
   ],
   "note": "Needs a non-empty log and a header that fits. Refuted for an empty log: the compacted header has no sender address and is rejected later."
  },
  {
   "property": "C22",
   "status": "proved",
   "theorems": [
    "C22_one_allocates",
    "C22_opens_after_success",
    "C22_failure_for_all",
    "C22_sleeper_expected",
    "C22_all_answered",
    "C22_no_failed_check"
   ],
   "note": "Threads, the spin lock, allocationMutex_ and the per-thread condition variables are explicit; any number of files. What the allocation does on disk is separate."
  },
  {
   "property": "C23",
   "status": "proved",
   "theorems": [
    "C23_write_reported",
    "C23_elsewhere_unchanged",
    "C23_block_written",
    "C23_skip_writes_refuted"
   ],
   "note": "FileWriter::write and the descriptor's offset are modelled over every sequence of ::write answers. Success implies that exactly the given bytes are at the offset and nothing else changed. Refuted for skip_writes, a test option: success with nothing written."
  },
  {
   "property": "C24",
   "status": "proved",
   "theorems": [
    "C24_block_sent",
    "C24_never_wrong",
    "C24_shrunk_is_error",
    "C24_advance",
    "C24_direct_shrunk_refuted",
    "C24_direct_short_refuted"
   ],
   "note": "FileByteSource::read/open/advanceOffset and the read loop of sendOneByteSource over every sequence of pread answers. Proved for ordinary reads and for direct reads that return whole disk blocks. Refuted for direct reads of a file that shrank or of a short read inside the first disk block: the size becomes negative without error and WDT_CHECK aborts the sender."
  },
  {
   "property": "C25",
   "status": "proved",
   "theorems": [
    "C25_confirmed",
    "C25_damage_detected",
    "C25_checksum_is_crc32c"
   ],
   "note": "Model/RecvConn.v: the buffer and the command states of a receiver thread on one connection. For every traffic, segmentation and file-side failure, each confirmation in the record is preceded by its header, exactly its number of bytes written, the file closed, and the matching checksum or a verified tag; partial counts equal the bytes written. That the header is the one the sender sent is C26, and is false for headers over 256 bytes. C25_damage_detected: a block that differs from what was sent only within four neighbouring bytes always fails its checksum; C25_checksum_is_crc32c pins the function. The sum starts at 0, so leading zeros do not enter it."
  },
  {
   "property": "C26",
   "status": "proved",
   "theorems": [
    "C26_any_cut",
    "C26_sender_stream",
    "C26_long_header_refuted",
    "C26_long_header_fails_refuted"
   ],
   "note": "Refinement: for streams with headers and settings of at most 256 bytes (and at most 1000 bytes of settings and size commands between blocks) every segmentation, buffer content and size gives the meaning defined without a buffer (Spec/StreamSpec.v), and a sender's stream (Model/SendStream.v) means what was sent. Refuted beyond 256 bytes: ReceiverThread.cpp:431-435 adds the length twice, so a long header cut by the network is decoded from stale bytes; witness with checksums on where a block is confirmed at another block's offset."
  },
  {
   "property": "C27",
   "status": "proved",
   "theorems": [
    "C27_position",
    "C27_after",
    "C27_only_settings",
    "C27_ends",
    "C27_well_formed",
    "C27_long_header_refuted",
    "C27_long_settings_refuted",
    "C27_settings_late_refuted"
   ],
   "note": "Any traffic: position and unread bytes inside the buffer, socket reads inside it; the only access outside is the decoding limit of a settings command in the last 1066 bytes (refuted with a witness). Well-formed traffic within the limits of C26 never fails a check; refuted for long headers in a minimal buffer and for settings over 256 bytes."
  },
  {
   "property": "C28",
   "status": "proved",
   "theorems": [
    "C28_delivers",
    "C28_failed_write",
    "C28_prefix",
    "C28_verified",
    "C28_end",
    "C28_timeout_refuted",
    "C28_boundary_refuted"
   ],
   "note": "Proved for every plaintext, tag interval, IV limit, write and read segmentation and network segmentation, the cipher being any key stream and any 16-byte tag function. Refuted in two places: a timeout directly behind a tag, and the end of a message on a tag boundary (the bytes got are dropped)."
  },
  {
   "property": "C29",
   "status": "proved",
   "theorems": [
    "C29_limit",
    "C29_every_byte",
    "C29_same",
    "C29_no_tags_refuted",
    "C29_small_limit_refuted"
   ],
   "note": "Positions are proved to be the multiples of k*(limit/k) at both ends. Refuted for CTR (no tags): the limit is ignored."
  },
  {
   "property": "C30",
   "status": "proved",
   "theorems": [
    "C30_short",
    "C30_lucky",
    "C30_resumption_long",
    "C30_unlucky",
    "C30_long_refuted"
   ],
   "note": "Proved for every id up to 237 bytes with and without resumption and for every segmentation; longer ids only when the whole message arrives with its 256th byte. Refuted for long ids: with resumption the sender writes only 256 bytes; without it the receiver decodes settings beyond the bytes read."
  },
  {
   "property": "C31",
   "status": "proved",
   "theorems": [
    "C31_average",
    "C31_new_average"
   ],
   "note": "Any number of threads calling limit() in any interleaving, times exact rationals; the run starts when the first transfer registers (resetState) and the rates stay."
  },
  {
   "property": "C32",
   "status": "proved",
   "theorems": [
    "C32_options",
    "C32_constructed",
    "C32_lock_order",
    "C32_window",
    "C32_truncation_refuted",
    "C32_oversleep_refuted"
   ],
   "note": "C32_lock_order holds for all runs with no assumption on the clocks (charges oversleeping and one byte per truncation explicitly); C32_window is the claim as stated under exact clocks and whole tokens; both weaker hypotheses are shown necessary by C32_truncation_refuted and C32_oversleep_refuted. Bytes are counted per request (limitSingleRequest), not per call of limit() when the call is larger than single_request_limit."
  },
  {
   "property": "C33",
   "status": "proved",
   "theorems": [
    "C33_escape_safe",
    "C33_round_trip",
    "C33_unescape_exact",
    "C33_malformed_rejected"
   ],
   "note": "Full; denotes is given by the grammar of escapes, not by the parser."
  },
  {
   "property": "C34",
   "status": "proved",
   "theorems": [
    "C34_url_round_trip",
    "C34_port_zero_refuted",
    "C34_empty_key_refuted",
    "C34_host_refuted",
    "C34_number_exact",
    "C34_truth_exact",
    "C34_ports_exact",
    "C34_accepts_exactly",
    "C34_no_ports_refuted",
    "C34_port_range_refuted"
   ],
   "note": "Both ways: all valid requests (UriSpec.valid_request) survive printing and reading, the URL does not carry the directory; and a URL is accepted exactly if it can be taken apart and each parameter it has is well formed (UriTextSpec.means; how process takes a URL apart is the model's). Refuted outside: port list [0], key type set with empty key, host names containing delimiters; URLs without a port or with ports no machine has are accepted."
  },
  {
   "property": "C35",
   "status": "proved",
   "theorems": [
    "C35_log_only_hash",
    "C35_equal_hashes_equal_text"
   ],
   "note": "std::hash is an arbitrary function. Text logged by error paths of unserialize/process (which do print the key text) is not the loggable form."
  },
  {
   "property": "C36",
   "status": "proved",
   "theorems": [
    "C36_round_trip",
    "C36_accepts_exactly",
    "C36_rejected_unset",
    "C36_defined",
    "C36_no_key_left_refuted",
    "C36_defined_refuted"
   ],
   "note": "Exact grammar of accepted text. Refuted: key bytes decoded before the error stay in data_ (type is unset); a type of nine or more digits shifts out of int (undefined)."
  },
  {
   "property": "C37",
   "status": "proved",
   "theorems": [
    "C37_not_early",
    "C37_released",
    "C37_no_failed_check",
    "C37_thread_without_buffer_refuted"
   ],
   "note": "Barrier as a monitor; arbitrary scheduler, spurious wake-ups. Each thread executes at most once (SenderThread.cpp:872-884). Refuted when a thread returns from start() before deregistering (buffer allocation failed, SenderThread.cpp:957-961): the others sleep for ever."
  },
  {
   "property": "C38",
   "status": "proved",
   "theorems": [
    "C38_one_at_a_time",
    "C38_not_after_success",
    "C38_taken_over",
    "C38_waiters_answered"
   ],
   "note": "Funnel as a monitor with arbitrary notify_one choice, time-outs and threads leaving; termination of internal runs by a potential function."
  },
  {
   "property": "C39",
   "status": "proved",
   "theorems": [
    "C39_start_action",
    "C39_end_action",
    "C39_exactly_once",
    "C39_always_proceeds",
    "C39_next_session",
    "C39_thread_without_buffer_refuted"
   ],
   "note": "The action runs under the mutex as in the code. Refuted for the end action when a thread returns early from start() (SenderThread.cpp:957-961, ReceiverThread.cpp:984-988)."
  },
  {
   "property": "C40",
   "status": "proved",
   "theorems": [
    "C40_counter",
    "C40_counter_keeps",
    "C40_limit",
    "C40_ns_limit",
    "C40_available",
    "C40_reusable",
    "C40_dereg_refuted",
    "C40_shutdown_refuted",
    "C40_running_refuted"
   ],
   "note": "All calls of the resource controller, wdtSend and wdtReceive*, any number of threads, any interleaving of their critical sections. Counter equation, limits on the objects held, and availability of released slots proved (the last for runs without deRegisterWdtNamespace/shutdown). Refuted: deRegisterWdtNamespace racing with createSender loses a slot for ever (C40_dereg_refuted), shutdown racing with createSender fails its WDT_CHECK, and more transfers than the limit can be running since release is by key."
  },
  {
   "property": "C41",
   "status": "proved",
   "theorems": [
    "C41_send",
    "C41_recv",
    "C41_send_refuted",
    "C41_recv_refuted",
    "C41_released",
    "C41_says",
    "C41_replace_refuted"
   ],
   "note": "Proved: a returned wdtSend holds a slot only if init() failed; a returned wdtReceiveStart only if init() failed or the transfer started. Refuted as stated: both leave the slot taken when init() fails; and a wdtSend replaced through terminateExistingOne releases the slot of its replacement."
  },
  {
   "property": "C42",
   "status": "proved",
   "theorems": [
    "C42_sender_ok",
    "C42_failed_source_refuted",
    "C42_files"
   ],
   "note": "Proved for every combination: OK implies totals equal, no failed directory, every failed source has code OK, all threads OK or one OK with nothing failed (threads agree on announced totals). C42_failed_source_refuted: a failed source with code OK can be listed in an OK report."
  },
  {
   "property": "C43",
   "status": "proved",
   "theorems": [
    "C43_receiver_ok",
    "C43_no_encryption_error",
    "C43_encryption_error_refuted"
   ],
   "note": "Block/byte counts proved for every list of thread results; absence of encryption errors proved when threads agree on announced totals and no code outranks ENCRYPTION_ERROR. C43_encryption_error_refuted shows it is false without that."
  },
  {
   "property": "C44",
   "status": "proved",
   "theorems": [
    "C44_all_delivered",
    "C44_all_delivered_checked",
    "C44_confirmed",
    "C44_refused_checkpoint_refuted",
    "C44_old_checkpoints_refuted",
    "C44_silent_exit_refuted",
    "C44_verified_refuted"
   ],
   "note": "Both ends over all interleavings, any number of ports. Conditions: checkpoints name the block or there are checksums/tags; no receiver thread left after a non-retried socket error; the sender refused no global checkpoint (only possible without checksums). Each condition is shown necessary: C44_refused_checkpoint_refuted, C44_old_checkpoints_refuted, C44_silent_exit_refuted. With tags, delivered is not yet verified (C44_verified_refuted). Not in the model: abort, renegotiation of the protocol version, file system errors after a write returned."
  },
  {
   "property": "C45",
   "status": "proved",
   "theorems": [
    "C45_end_for_all",
    "C45_abandoned_port_refuted",
    "C45_keeps_waiting",
    "C45_end_after_all_blocks",
    "C45_end_after_all_verified"
   ],
   "note": "Receiver half: when a port is told the end, every other port waits after DONE, was told the end, or its checkpoint was confirmed by this port's sender (no abort). Sender half: before the first end is reported every found block is in some thread's history among the blocks that port has received (counted, without tags). Refuted for a thread that leaves after a non-retryable socket error. C45_keeps_waiting: a waiting port says so to its sender, or ends the transfer if no thread runs any more."
  },
  {
   "property": "C46",
   "status": "proved",
   "theorems": [
    "C46_without_progress",
    "C46_total",
    "C46_attempts",
    "C46_verdict",
    "C46_liar_refuted",
    "C46_wait_refuted",
    "C46_zero_refuted"
   ],
   "note": "Proved for receivers that only confirm what they were sent: between two real confirmations a thread makes at most max_transfer_retries+3 connections (one more round before its first checkpoint), all its connections are bounded by blocks+bytes found, and each takes at most max_retries attempts; other threads interleave arbitrarily. Refuted otherwise: validateCheckpoint only compares with the previous checkpoint, so a receiver that names two made-up blocks in turn counts as progress for ever (C46_liar); WAIT, heart beats and spurious checkpoints keep a thread in READ_RECEIVER_CMD for ever without reconnecting (C46_wait); max_transfer_retries <= 0 dereferences a null socket_ in connect's log line (C46_zero)."
  },
  {
   "property": "C47",
   "status": "proved",
   "theorems": [
    "C47_while_decreasing",
    "C47_ends",
    "C47_answer",
    "C47_no_crash",
    "C47_growth_refuted"
   ],
   "note": "The waiting loop continues exactly while unacknowledged bytes strictly decrease and stay positive, hence ends after at most that many time-outs. If the system ever reports more unacknowledged bytes than before, WDT_CHECK_GE stops the process (C47_growth_refuted)."
  },
  {
   "property": "C48",
   "status": "proved",
   "theorems": [
    "C48_only_extra_files",
    "C48_all_extra_files",
    "C48_list_kept"
   ],
   "note": "Queue side: which deletions are requested."
  },
  {
   "property": "C49",
   "status": "proved",
   "theorems": [
    "C49_confined",
    "C49_plain",
    "C49_no_crash",
    "C49_crash_refuted",
    "C49_status_refuted",
    "C49_kept",
    "C49_opened",
    "C49_anywhere_refuted"
   ],
   "note": "FileCreator and FileWriter::open, with every answer of the operating system, path resolution by components (no symbolic links). Proved: names that do not climb stay below the directory; well formed names do not crash. Refuted: a name with '..' reaches any file (deletion and opening for writing); empty names and names with a leading or trailing slash fail a CHECK; so does a header with allocation status 5-7 when the log is kept."
  },
  {
   "property": "C50",
   "status": "proved",
   "theorems": [
    "C50_resume_exact",
    "C50_counters"
   ],
   "note": "Assumes distinct file names and received pieces that lie inside the file (pieces_fit); without preallocation, or for a file that shrank, everything is sent again (C10)."
  },
  {
   "property": "C51",
   "status": "proved",
   "theorems": [
    "C51_abort_kept",
    "C51_stays_aborted",
    "C51_replaced_refuted"
   ],
   "note": "Version mismatch and clear never touch another abort; any abort with an error code keeps the transfer aborted. C51_replaced_refuted: the remote abort code (SenderThread.cpp:853) replaces or clears an application abort."
  },
  {
   "property": "C52",
   "status": "proved",
   "theorems": [
    "C52_reported_pieces_are_on_disk",
    "C52_shrunk_file_refuted",
    "C52_changed_file_refuted",
    "C52_resent_block_refuted",
    "C52_invalid_log_refuted"
   ],
   "note": "Model of disk, log and threads at the grain of one system call or log append (Model/CrashLog.v); for any number of sessions, each ended by death between two steps, every reported byte is on disk and is the sender's. Refuted without its hypotheses: shrinking file without preallocation, changed content, damaged re-send over a logged block, and an INVALID_LOG that fits again."
  },
  {
   "property": "C53",
   "status": "proved",
   "theorems": [
    "C53_told_in_order",
    "C53_told_not_own",
    "C53_end_after_all",
    "C53_told_again",
    "C53_other_session_refuted",
    "C53_mismatch"
   ],
   "note": "All interleavings of all receiver threads, with breaks, failed ports and sessions. For sessions that had a connection whenever they ended with failed ports. Refuted for an idle session of a long-running receiver: its checkpoints are told in the next session, even to the port itself."
  },
  {
   "property": "C54",
   "status": "proved",
   "theorems": [
    "C54_buffer_size",
    "C54_overflow_refuted"
   ],
   "note": "All sizes up to 2^31-4096; C54_overflow_refuted: the remaining 4095 int32 values become negative."
  },
  {
   "property": "C55",
   "status": "proved",
   "theorems": [
    "C55_order_irrelevant",
    "C55_most_serious",
    "C55_counters_order_irrelevant",
    "C55_encryption",
    "C55_order_refuted"
   ],
   "note": "Order independence and maximality when threads agree on announced totals; counters always. C55_order_refuted: otherwise the code depends on the order."
  },
  {
   "property": "C56",
   "status": "proved",
   "theorems": [
    "C56_only_wanted",
    "C56_once",
    "C56_all_wanted",
    "C56_no_error_means_examined",
    "C56_stopped_early_is_error",
    "C56_examined_no_error",
    "C56_unopened_listed",
    "C56_ends",
    "C56_one_result",
    "C56_queue",
    "C56_given_list",
    "C56_given_list_failure",
    "C56_unexamined_file_refuted",
    "C56_link_first_refuted",
    "C56_present_file_deleted_refuted",
    "C56_abort_refuted"
   ],
   "note": "Soundness, no duplicates, completeness, termination with link cycles, the blocks queued, and listing of unopened directories are proved. The last clause is refuted: unexaminable entries leave no trace in the report (C56_unexamined_file_refuted), a directory reached also by a link may not be sent under its own name (C56_link_first_refuted), deletion of files the sender has can be requested (C56_present_file_deleted_refuted), an abort while reading is no error (C56_abort_refuted). File system constant during exploration; patterns are predicates. C56_stopped_early_is_error: the only way for explore to stop with directories left is an error."
  },
  {
   "property": "C57",
   "status": "proved",
   "theorems": [
    "C57_on_disk",
    "C57_recovered",
    "C57_no_crash",
    "C57_not_started_refuted",
    "C57_early_creation_refuted"
   ],
   "note": "The entries taken are those after the header, and invalidations. Refuted: the writer thread is not started after a recovery that found another session's log, so nothing of the new session is kept; a creation logged while another thread is about to write the header is dropped and the log becomes invalid. Writes of single entries (header, directory invalidation) are assumed to succeed."
  },
  {
   "property": "C58",
   "status": "proved",
   "theorems": [
    "C58_reported_bytes_are_right",
    "C58_traversal",
    "C58_plan",
    "C58_log_names_no_file",
    "C58_only_valid",
    "C58_other_sender",
    "C58_header",
    "C58_existing_files_refuted",
    "C58_damaged_block_refuted",
    "C58_start_race_refuted",
    "C58_stale_file_refuted",
    "C58_retry"
   ],
   "note": "Proved for a directory that is right at first, files sent whole or continued while the log is valid, and right data. Each of these is needed: C58_existing_files_refuted (no log: wrong files are trusted), C58_damaged_block_refuted (a block refused for its checksum is already on disk), C58_start_race_refuted (a sender of blocks: the thread that is not elected writes before the directory is invalidated), C58_stale_file_refuted (a success makes wrong files it did not send trusted). The exploration is that of C56 without its failing calls."
  },
  {
   "property": "C59",
   "status": "proved",
   "theorems": [
    "C59_accepted",
    "C59_end",
    "C59_sent",
    "C59_roundtrip",
    "C59_no_crash",
    "C59_closed",
    "C59_plain_refuted",
    "C59_next_refuted",
    "C59_erased",
    "C59_stale_refuted",
    "C59_one_byte_refuted",
    "C59_shutdown_code",
    "C59_close_code"
   ],
   "note": "Proved over the whole life of a socket object. Refuted, and kept as theorems: a server socket takes unencrypted peers and then has no key any more, for all later connections; the settings decoder reads one byte of unfilled memory. Aborts and failing OpenSSL calls are not modelled."
  },
  {
   "property": "C60",
   "status": "proved",
   "theorems": [
    "C60_decided",
    "C60_time",
    "C60_found",
    "C60_returns",
    "C60_reachable_refuted",
    "C60_tag_refuted",
    "C60_stuck",
    "C60_interval_refuted",
    "C60_once",
    "C60_unknown",
    "C60_io"
   ],
   "note": "An address that does not answer in time ends the attempt without trying the others (C60_reachable_refuted); with GCM the time-out is followed by a busy wait for a tag (C60_tag_refuted, C60_stuck); a negative interval between checks for aborts means no time-out (C60_interval_refuted). Time-outs of single system calls other than poll and read are taken as zero."
  },
  {
   "property": "C61",
   "status": "proved",
   "theorems": [
    "C61_descriptors",
    "C61_addresses",
    "C61_accept",
    "C61_found",
    "C61_fair",
    "C61_defined",
    "C61_checks",
    "C61_timeout",
    "C61_timeout_refuted"
   ],
   "note": "A peer that announces a time-out near the limit of int and then breaks the connection aborts the receiver (C61_timeout_refuted). With tryCurAddressFirst an address that is always ready is always served first; fairness is proved for accepts without it. The table of descriptors supposes nothing about the numbers the system hands out; if it hands out one in use the rest of the trace is not judged."
  },
  {
   "property": "C62",
   "status": "proved",
   "theorems": [
    "C62_checks",
    "C62_no_crash",
    "C62_check_refuted",
    "C62_same_version",
    "C62_version",
    "C62_unanimous",
    "C62_once",
    "C62_one_round",
    "C62_verdict",
    "C62_failed",
    "C62_cleared",
    "C62_settles",
    "C62_rest",
    "C62_footer",
    "C62_footer_refuted"
   ],
   "note": "The states of a thread other than PROCESS_VERSION_MISMATCH are one state that returns any way at any time; handleVersionMismatch only says whether something had been acknowledged. A hostile receiver can stop the process (C62_check_refuted), and the threads that do not settle the mismatch keep a wrong footer type (C62_footer_refuted)."
  },
  {
   "property": "C63",
   "status": "proved",
   "theorems": [
    "C63_sender",
    "C63_receiver",
    "C63_usable",
    "C63_zero_refuted",
    "C63_url_refuted"
   ],
   "note": "The exact statements are for versions that fit 32 bits; C63_url_refuted shows what happens to others. Of Receiver::init only what precedes the negotiation is modelled here; opening and recovering the log is C18 to C21 and C56."
  },
  {
   "property": "C64",
   "status": "proved",
   "theorems": [
    "C64_figures",
    "C64_min",
    "C64_min_refuted",
    "C64_printed",
    "C64_slots",
    "C64_percentile_unique",
    "C64_defined",
    "C64_overflow_refuted"
   ],
   "note": "Count, sum, maximum, percentiles and histogram are proved to be those of the recorded calls for any sequence of additions and merges. The minimum is refuted for all types but the first (C64_min, C64_min_refuted). Printing stops the process exactly for times of -1 ms or less; recording is undefined for time-outs over 47.7 minutes."
  },
  {
   "property": "C65",
   "status": "proved",
   "theorems": [
    "C65_safe",
    "C65_status",
    "C65_answers",
    "C65_return",
    "C65_one_start",
    "C65_lock",
    "C65_race_refuted",
    "C65_unjoined_refuted",
    "C65_two_starts_refuted",
    "C65_code_refuted",
    "C65_forever"
   ],
   "note": "Proved for all numbers of threads and callers and all interleavings, for callers that call finish only after a start returned and start one at a time (C65_safe, _status, _answers, _return). Without that: C65_race_refuted, C65_unjoined_refuted, C65_two_starts_refuted; for a Sender at most one start succeeds in any case (C65_one_start). C65_code_refuted: the codes of first and later finish differ. C65_forever: status of a Receiver that runs for ever."
  },
  {
   "property": "C66",
   "status": "proved",
   "theorems": [
    "C66_counts",
    "C66_slots",
    "C66_table",
    "C66_figures",
    "C66_reset",
    "C66_merge",
    "C66_merge_new",
    "C66_merge_refuted",
    "C66_merge_new_refuted",
    "C66_percentile",
    "C66_recorded",
    "C66_merged_percentile",
    "C66_percentile_bounds",
    "C66_percentile_monotone",
    "C66_percentile_defined",
    "C66_negative_refuted",
    "C66_stale_min_refuted",
    "C66_scale_refuted",
    "C66_defined",
    "C66_overflow_refuted",
    "C66_deviation",
    "C66_deviation_refuted",
    "C66_rows"
   ],
   "note": "Counts are right for all orders of operations; percentiles for values that are not negative and the same scale. Refuted: minimum after merge and reset, other scales, negative values, large sums."
  },
  {
   "property": "C67",
   "status": "proved",
   "theorems": [
    "C67_line",
    "C67_grows",
    "C67_falls_refuted",
    "C67_overflow_refuted",
    "C67_claim_refuted",
    "C67_throughput",
    "C67_interval"
   ],
   "note": "Holds for all sizes below 92 PB. Refuted: percentage falls while files are found; a sender announcing too little makes the receiver's bar arbitrarily long or undefined."
  },
  {
   "property": "C68",
   "status": "proved",
   "theorems": [
    "C68_answers",
    "C68_waiting",
    "C68_abort",
    "C68_abort_lost",
    "C68_abort_refuted",
    "C68_swallowed_refuted",
    "C68_pace",
    "C68_apart",
    "C68_reads",
    "C68_data",
    "C68_off",
    "C68_overflow_refuted",
    "C68_defined"
   ],
   "note": "Refuted in one part: an abort behind an unread heart beat is not found (C68_abort_lost, C68_abort_refuted), and reading heart beats may swallow it (C68_swallowed_refuted)."
  },
  {
   "property": "C69",
   "status": "proved",
   "theorems": [
    "C69_kept",
    "C69_disk",
    "C69_flash",
    "C69_static_refuted",
    "C69_resumption",
    "C69_checks",
    "C69_disk_resumes",
    "C69_manifest",
    "C69_manifest_open",
    "C69_blank_refuted",
    "C69_columns_refuted",
    "C69_receives",
    "C69_sends",
    "C69_minus",
    "C69_minus_refuted",
    "C69_status",
    "C69_alarm"
   ],
   "note": "Refuted in parts: static ports (C69_static_refuted), blank lines and empty columns of file lists (C69_blank_refuted, C69_columns_refuted), bad flags (C69_minus_refuted)."
  },
  {
   "property": "C70",
   "status": "proved",
   "theorems": [
    "C70_never_fails",
    "C70_all_made",
    "C70_ends",
    "C70_removed_refuted",
    "C70_made",
    "C70_only",
    "C70_kept",
    "C70_in_the_way",
    "C70_excl",
    "C70_known",
    "C70_known_refuted",
    "C70_first_time"
   ],
   "note": "createFile and createDirRecursively run by any number of threads against a tree of directories and files, one system call or use of the mutex at a time, with a cache that may be wrong from the start; removals by others in some parts."
  },
  {
   "property": "C71",
   "status": "proved",
   "theorems": [
    "C71_specified",
    "C71_given",
    "C71_disk",
    "C71_flash",
    "C71_again",
    "C71_foreign_refuted"
   ],
   "note": "Refuted in part: flags of the host program with the bare name of an option count as given (C71_foreign_refuted)."
  },
  {
   "property": "C72",
   "status": "proved",
   "theorems": [
    "C72_told",
    "C72_wraps_refuted"
   ],
   "note": "The bound of 2^64 signals between two questions is needed (C72_wraps_refuted)."
  },
  {
   "property": "C73",
   "status": "proved",
   "theorems": [
    "C73_one",
    "C73_exclusive",
    "C73_no_exit",
    "C73_removed_refuted",
    "C73_invalid_refuted",
    "C73_stale",
    "C73_error_refuted",
    "C73_alone"
   ],
   "note": "Receivers without enable_download_resumption do not open the log and are not covered. flock is taken to work as documented (also on network file systems), inode numbers not to be reused while a file is open."
  },
  {
   "property": "C74",
   "status": "proved",
   "theorems": [
    "C74_stops_exactly",
    "C74_left",
    "C74_unlogged",
    "C74_empty_refuted",
    "C74_header_refuted"
   ],
   "note": "The session starts after parsing, with the log open; writes are at the end of the file. A failing write of the invalidation inside parseVerifyAndFix is the same function but is not part of the session."
  }
 ]
}