{
 "C01": {
  "note": "Model of folly-derived varint code in util/SerializationUtil.cpp."
 },
 "C02": {
  "note": "Decoders are proved against the bytes alone; that folly's decoders behave as the model says is part of the trusted base. A frame with a negative length crashes (C02_negative_frame_crashes), it is not refused."
 },
 "C03": {
  "note": "Buffers are lists of bytes; what lies outside the region is stated to be unchanged, byte for byte."
 },
 "C04": {
  "note": "Full, for strings shorter than 2^63."
 },
 "C05": {
  "note": "header_visible says what a version carries."
 },
 "C06": {
  "note": "All control messages of Protocol.cpp."
 },
 "C07": {
  "note": "Exact when every entry fits the receiver's buffer. Refuted in general: an oversized entry makes the exchange loop forever or repeat entries; a lying receiver overflows the sender's buffer."
 },
 "C08": {
  "note": "Refuted below version 10: only the requested version is compared with the minimum."
 },
 "C09": {
  "note": "The missing pieces are exact for merged lists, which is what the code gives; for lists with overlaps they are not (C09_unmerged_list_refuted)."
 },
 "C10": {
  "note": "Blocks for a file plus the received pieces cover every byte once. Refuted for received pieces that do not fit the file (endless loop)."
 },
 "C11": {
  "note": "Over every interleaving of discovery, resumption, hand-out, open failure and return."
 },
 "C12": {
  "note": "Refuted: ids start at 0 after an empty received list although the documentation says 1."
 },
 "C13": {
  "note": "All schedules of any number of threads. The refutation needs the resume list after threads asked for work, an order the sender's start-up prevents. C13_blocks_accounted counts every block: queued, taken, being opened, read or returned; C13_block_status: a block carries the status that was set when it was popped."
 },
 "C14": {
  "note": "Refuted for receivers before version 21 (partial bytes credited to two blocks) and for a receiver claiming more bytes than the block has."
 },
 "C15": {
  "note": "A confirmation naming another block is not refused but not credited. A truthful one can be refused after version negotiation (file 0, offset 0)."
 },
 "C16": {
  "note": "Refuted parts: final check aborts after a partial confirmation of file 0 offset 0; report after failure counts bytes taken back; deletion entries are over-counted."
 },
 "C17": {
  "note": "Refuted at the limits: a recovery id that does not fit is silently not written, a name that does not fit stops the process."
 },
 "C18": {
  "note": "Entries of any content; system calls succeed in full."
 },
 "C19": {
  "note": "Refuted parts: a block beyond the logged size but inside the file on disk is reported; a block end beyond the signed range is undefined; an id invalidated and reused keeps its old size, so a truthful resize makes the log invalid."
 },
 "C20": {
  "note": "Full, over entries that parse; what becomes of bytes that do not is C19 and C57."
 },
 "C21": {
  "note": "Needs a non-empty log and a header that fits. Refuted for an empty log: the compacted header has no sender address and is rejected later."
 },
 "C22": {
  "note": "Threads, the spin lock, allocationMutex_ and the per-thread condition variables are explicit; any number of files. What the allocation does on disk is separate."
 },
 "C23": {
  "note": "FileWriter::write and the descriptor's offset are modelled over every sequence of ::write answers. Success implies that exactly the given bytes are at the offset and nothing else changed. Refuted for skip_writes, a test option: success with nothing written."
 },
 "C24": {
  "note": "FileByteSource::read/open/advanceOffset and the read loop of sendOneByteSource over every sequence of pread answers. Proved for ordinary reads and for direct reads that return whole disk blocks. Refuted for direct reads of a file that shrank or of a short read inside the first disk block: the size becomes negative without error and WDT_CHECK aborts the sender."
 },
 "C25": {
  "note": "Model/RecvConn.v: the buffer and the command states of a receiver thread on one connection. For every traffic, segmentation and file-side failure, each confirmation in the record is preceded by its header, exactly its number of bytes written, the file closed, and the matching checksum or a verified tag; partial counts equal the bytes written. That the header is the one the sender sent is C26, and is false for headers over 256 bytes. C25_damage_detected: a block that differs from what was sent only within four neighbouring bytes always fails its checksum; C25_checksum_is_crc32c pins the function. The sum starts at 0, so leading zeros do not enter it."
 },
 "C26": {
  "note": "Refinement: for streams with headers and settings of at most 256 bytes (and at most 1000 bytes of settings and size commands between blocks) every segmentation, buffer content and size gives the meaning defined without a buffer (Spec/StreamSpec.v), and a sender's stream (Model/SendStream.v) means what was sent. Refuted beyond 256 bytes: ReceiverThread.cpp:431-435 adds the length twice, so a long header cut by the network is decoded from stale bytes; witness with checksums on where a block is confirmed at another block's offset."
 },
 "C27": {
  "note": "Any traffic: position and unread bytes inside the buffer, socket reads inside it; the only access outside is the decoding limit of a settings command in the last 1066 bytes (refuted with a witness). Well-formed traffic within the limits of C26 never fails a check; refuted for long headers in a minimal buffer and for settings over 256 bytes."
 },
 "C28": {
  "note": "Proved for every plaintext, tag interval, IV limit, write and read segmentation and network segmentation, the cipher being any key stream and any 16-byte tag function. Refuted in two places: a timeout directly behind a tag, and the end of a message on a tag boundary (the bytes got are dropped)."
 },
 "C29": {
  "note": "Positions are proved to be the multiples of k*(limit/k) at both ends. Refuted for CTR (no tags): the limit is ignored."
 },
 "C30": {
  "note": "Proved for every id up to 237 bytes with and without resumption and for every segmentation; longer ids only when the whole message arrives with its 256th byte. Refuted for long ids: with resumption the sender writes only 256 bytes; without it the receiver decodes settings beyond the bytes read."
 },
 "C31": {
  "note": "Any number of threads calling limit() in any interleaving, times exact rationals; the run starts when the first transfer registers (resetState) and the rates stay."
 },
 "C32": {
  "note": "C32_lock_order holds for all runs with no assumption on the clocks (charges oversleeping and one byte per truncation explicitly); C32_window is the claim as stated under exact clocks and whole tokens; both weaker hypotheses are shown necessary by C32_truncation_refuted and C32_oversleep_refuted. Bytes are counted per request (limitSingleRequest), not per call of limit() when the call is larger than single_request_limit."
 },
 "C33": {
  "note": "Full; denotes is given by the grammar of escapes, not by the parser."
 },
 "C34": {
  "note": "Both ways: all valid requests (UriSpec.valid_request) survive printing and reading, the URL does not carry the directory; and a URL is accepted exactly if it can be taken apart and each parameter it has is well formed (UriTextSpec.means; how process takes a URL apart is the model's). Refuted outside: port list [0], key type set with empty key, host names containing delimiters; URLs without a port or with ports no machine has are accepted."
 },
 "C35": {
  "note": "std::hash is an arbitrary function. Text logged by error paths of unserialize/process (which do print the key text) is not the loggable form."
 },
 "C36": {
  "note": "Exact grammar of accepted text. Refuted: key bytes decoded before the error stay in data_ (type is unset); a type of nine or more digits shifts out of int (undefined)."
 },
 "C37": {
  "note": "Barrier as a monitor; arbitrary scheduler, spurious wake-ups. Each thread executes at most once (SenderThread.cpp:872-884). Refuted when a thread returns from start() before deregistering (buffer allocation failed, SenderThread.cpp:957-961): the others sleep for ever."
 },
 "C38": {
  "note": "Funnel as a monitor with arbitrary notify_one choice, time-outs and threads leaving; termination of internal runs by a potential function."
 },
 "C39": {
  "note": "The action runs under the mutex as in the code. Refuted for the end action when a thread returns early from start() (SenderThread.cpp:957-961, ReceiverThread.cpp:984-988)."
 },
 "C40": {
  "note": "All calls of the resource controller, wdtSend and wdtReceive*, any number of threads, any interleaving of their critical sections. Counter equation, limits on the objects held, and availability of released slots proved (the last for runs without deRegisterWdtNamespace/shutdown). Refuted: deRegisterWdtNamespace racing with createSender loses a slot for ever (C40_dereg_refuted), shutdown racing with createSender fails its WDT_CHECK, and more transfers than the limit can be running since release is by key."
 },
 "C41": {
  "note": "Proved: a returned wdtSend holds a slot only if init() failed; a returned wdtReceiveStart only if init() failed or the transfer started. Refuted as stated: both leave the slot taken when init() fails; and a wdtSend replaced through terminateExistingOne releases the slot of its replacement."
 },
 "C42": {
  "note": "Proved for every combination: OK implies totals equal, no failed directory, every failed source has code OK, all threads OK or one OK with nothing failed (threads agree on announced totals). C42_failed_source_refuted: a failed source with code OK can be listed in an OK report."
 },
 "C43": {
  "note": "Block/byte counts proved for every list of thread results; absence of encryption errors proved when threads agree on announced totals and no code outranks ENCRYPTION_ERROR. C43_encryption_error_refuted shows it is false without that."
 },
 "C44": {
  "note": "Both ends over all interleavings, any number of ports. Conditions: checkpoints name the block or there are checksums/tags; no receiver thread left after a non-retried socket error; the sender refused no global checkpoint (only possible without checksums). Each condition is shown necessary: C44_refused_checkpoint_refuted, C44_old_checkpoints_refuted, C44_silent_exit_refuted. With tags, delivered is not yet verified (C44_verified_refuted). Not in the model: abort, renegotiation of the protocol version, file system errors after a write returned.",
  "status": "proved"
 },
 "C45": {
  "note": "Receiver half: when a port is told the end, every other port waits after DONE, was told the end, or its checkpoint was confirmed by this port's sender (no abort). Sender half: before the first end is reported every found block is in some thread's history among the blocks that port has received (counted, without tags). Refuted for a thread that leaves after a non-retryable socket error. C45_keeps_waiting: a waiting port says so to its sender, or ends the transfer if no thread runs any more.",
  "status": "proved"
 },
 "C46": {
  "note": "Proved for receivers that only confirm what they were sent: between two real confirmations a thread makes at most max_transfer_retries+3 connections (one more round before its first checkpoint), all its connections are bounded by blocks+bytes found, and each takes at most max_retries attempts; other threads interleave arbitrarily. Refuted otherwise: validateCheckpoint only compares with the previous checkpoint, so a receiver that names two made-up blocks in turn counts as progress for ever (C46_liar); WAIT, heart beats and spurious checkpoints keep a thread in READ_RECEIVER_CMD for ever without reconnecting (C46_wait); max_transfer_retries <= 0 dereferences a null socket_ in connect's log line (C46_zero)."
 },
 "C47": {
  "note": "The waiting loop continues exactly while unacknowledged bytes strictly decrease and stay positive, hence ends after at most that many time-outs. If the system ever reports more unacknowledged bytes than before, WDT_CHECK_GE stops the process (C47_growth_refuted)."
 },
 "C48": {
  "note": "Queue side: which deletions are requested."
 },
 "C49": {
  "note": "FileCreator and FileWriter::open, with every answer of the operating system, path resolution by components (no symbolic links). Proved: names that do not climb stay below the directory; well formed names do not crash. Refuted: a name with '..' reaches any file (deletion and opening for writing); empty names and names with a leading or trailing slash fail a CHECK; so does a header with allocation status 5-7 when the log is kept."
 },
 "C50": {
  "note": "Assumes distinct file names and received pieces that lie inside the file (pieces_fit); without preallocation, or for a file that shrank, everything is sent again (C10)."
 },
 "C51": {
  "note": "Version mismatch and clear never touch another abort; any abort with an error code keeps the transfer aborted. C51_replaced_refuted: the remote abort code (SenderThread.cpp:853) replaces or clears an application abort."
 },
 "C52": {
  "note": "Model of disk, log and threads at the grain of one system call or log append (Model/CrashLog.v); for any number of sessions, each ended by death between two steps, every reported byte is on disk and is the sender's. Refuted without its hypotheses: shrinking file without preallocation, changed content, damaged re-send over a logged block, and an INVALID_LOG that fits again."
 },
 "C53": {
  "note": "All interleavings of all receiver threads, with breaks, failed ports and sessions. For sessions that had a connection whenever they ended with failed ports. Refuted for an idle session of a long-running receiver: its checkpoints are told in the next session, even to the port itself."
 },
 "C54": {
  "note": "All sizes up to 2^31-4096; C54_overflow_refuted: the remaining 4095 int32 values become negative."
 },
 "C55": {
  "note": "Order independence and maximality when threads agree on announced totals; counters always. C55_order_refuted: otherwise the code depends on the order."
 },
 "C56": {
  "note": "Soundness, no duplicates, completeness, termination with link cycles, the blocks queued, and listing of unopened directories are proved. The last clause is refuted: unexaminable entries leave no trace in the report (C56_unexamined_file_refuted), a directory reached also by a link may not be sent under its own name (C56_link_first_refuted), deletion of files the sender has can be requested (C56_present_file_deleted_refuted), an abort while reading is no error (C56_abort_refuted). File system constant during exploration; patterns are predicates. C56_stopped_early_is_error: the only way for explore to stop with directories left is an error."
 },
 "C57": {
  "note": "The entries taken are those after the header, and invalidations. Refuted: the writer thread is not started after a recovery that found another session's log, so nothing of the new session is kept; a creation logged while another thread is about to write the header is dropped and the log becomes invalid. Writes of single entries (header, directory invalidation) are assumed to succeed."
 },
 "C58": {
  "note": "Proved for a directory that is right at first, files sent whole or continued while the log is valid, and right data. Each of these is needed: C58_existing_files_refuted (no log: wrong files are trusted), C58_damaged_block_refuted (a block refused for its checksum is already on disk), C58_start_race_refuted (a sender of blocks: the thread that is not elected writes before the directory is invalidated), C58_stale_file_refuted (a success makes wrong files it did not send trusted). The exploration is that of C56 without its failing calls."
 },
 "C59": {
  "note": "Proved over the whole life of a socket object. Refuted, and kept as theorems: a server socket takes unencrypted peers and then has no key any more, for all later connections; the settings decoder reads one byte of unfilled memory. Aborts and failing OpenSSL calls are not modelled."
 },
 "C60": {
  "note": "An address that does not answer in time ends the attempt without trying the others (C60_reachable_refuted); with GCM the time-out is followed by a busy wait for a tag (C60_tag_refuted, C60_stuck); a negative interval between checks for aborts means no time-out (C60_interval_refuted). Time-outs of single system calls other than poll and read are taken as zero."
 },
 "C61": {
  "note": "A peer that announces a time-out near the limit of int and then breaks the connection aborts the receiver (C61_timeout_refuted). With tryCurAddressFirst an address that is always ready is always served first; fairness is proved for accepts without it. The table of descriptors supposes nothing about the numbers the system hands out; if it hands out one in use the rest of the trace is not judged."
 },
 "C62": {
  "note": "The states of a thread other than PROCESS_VERSION_MISMATCH are one state that returns any way at any time; handleVersionMismatch only says whether something had been acknowledged. A hostile receiver can stop the process (C62_check_refuted), and the threads that do not settle the mismatch keep a wrong footer type (C62_footer_refuted)."
 },
 "C63": {
  "note": "The exact statements are for versions that fit 32 bits; C63_url_refuted shows what happens to others. Of Receiver::init only what precedes the negotiation is modelled here; opening and recovering the log is C18 to C21 and C56."
 },
 "C64": {
  "note": "Count, sum, maximum, percentiles and histogram are proved to be those of the recorded calls for any sequence of additions and merges. The minimum is refuted for all types but the first (C64_min, C64_min_refuted). Printing stops the process exactly for times of -1 ms or less; recording is undefined for time-outs over 47.7 minutes."
 },
 "C65": {
  "note": "Proved for all numbers of threads and callers and all interleavings, for callers that call finish only after a start returned and start one at a time (C65_safe, _status, _answers, _return). Without that: C65_race_refuted, C65_unjoined_refuted, C65_two_starts_refuted; for a Sender at most one start succeeds in any case (C65_one_start). C65_code_refuted: the codes of first and later finish differ. C65_forever: status of a Receiver that runs for ever."
 },
 "C66": {
  "note": "Counts are right for all orders of operations; percentiles for values that are not negative and the same scale. Refuted: minimum after merge and reset, other scales, negative values, large sums."
 },
 "C67": {
  "note": "Holds for all sizes below 92 PB. Refuted: percentage falls while files are found; a sender announcing too little makes the receiver's bar arbitrarily long or undefined."
 },
 "C68": {
  "note": "Refuted in one part: an abort behind an unread heart beat is not found (C68_abort_lost, C68_abort_refuted), and reading heart beats may swallow it (C68_swallowed_refuted)."
 },
 "C69": {
  "note": "Refuted in parts: static ports (C69_static_refuted), blank lines and empty columns of file lists (C69_blank_refuted, C69_columns_refuted), bad flags (C69_minus_refuted)."
 },
 "C70": {
  "note": "createFile and createDirRecursively run by any number of threads against a tree of directories and files, one system call or use of the mutex at a time, with a cache that may be wrong from the start; removals by others in some parts."
 },
 "C71": {
  "note": "Refuted in part: flags of the host program with the bare name of an option count as given (C71_foreign_refuted)."
 },
 "C72": {
  "note": "The bound of 2^64 signals between two questions is needed (C72_wraps_refuted)."
 },
 "C73": {
  "note": "Receivers without enable_download_resumption do not open the log and are not covered. flock is taken to work as documented (also on network file systems), inode numbers not to be reused while a file is open."
 },
 "C74": {
  "note": "The session starts after parsing, with the log open; writes are at the end of the file. A failing write of the invalidation inside parseVerifyAndFix is the same function but is not part of the session."
 }
}