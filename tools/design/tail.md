
## Findings

Each item is a proved `…_refuted` theorem unless marked (reading only).

**Data delivered wrongly or lost**

* C26: a header over 256 bytes (long file name) that the network cuts in two is
  decoded from stale bytes (ReceiverThread.cpp:431-435 counts the length twice).
  With checksums on, a block is confirmed at another block's offset.
* C44: without checksums a refused global checkpoint (INVALID_CHECKPOINT) loses
  blocks; with receivers before version 21 a partial block is credited to two
  blocks (also C14); a receiver thread that leaves after a non-retried socket
  error lets the transfer end well without its blocks; with encryption, the end
  can be reported before the last tag was verified.
* C52: what recovery reports may not be on disk: a file that shrinks between
  sessions without preallocation; content changed after the size grew by
  fallocate and the death came before the resize entry; a damaged re-send over a
  logged block; a log kept as invalid that fits again in a later session.
* C24: direct reads of a file that shrank make the block size negative, and the
  sender aborts on a check.
* C07: a received-files entry larger than the buffer makes the exchange run for
  ever or repeat entries; a receiver announcing a larger buffer than the sender's
  overruns the sender's memory.
* C30: with resumption a transfer id over 237 bytes is cut (the sender writes 256
  bytes whatever was encoded); without it the receiver decodes unread bytes.
* C28: a time-out directly behind a tag, or the end of a message on a tag
  boundary, drops bytes already received.
* C19: a block beyond the logged size is reported if the file on disk is larger;
  an id that was invalidated and used again keeps its old size; one removed file
  that had been resized makes the whole log invalid.
* C56: files and directories that lstat, stat, realpath or readdir could not
  handle are dropped without a trace in the report (explore's result is not used,
  only directories that cannot be opened are listed); with deletion of surplus
  files the receiver is then told to delete files the sender has. With links
  followed, a directory is sent under one of its names only, and which one depends
  on the order of readdir. An abort while a directory is read is no error.

* C58: without a log (or with an empty one) the directory is trusted, so files that
  were there before and have the right size are never sent. A block refused for its
  checksum is on disk already, and after a death of the receiver it is taken for
  good. A sender that sends blocks invalidates the directory, but only the thread
  elected for it waits for that; a death meanwhile leaves a valid log over a file
  with holes. A successful transfer makes the log valid again although files it did
  not send may be wrong.

* After falling back to a version without checksums, the threads that did not settle
  the mismatch themselves keep the old footer type, since only the branch for
  FUNNEL_START calls setFooterType: they send a footer the receiver takes for an unknown
  command (C62_footer_refuted). That sendOneByteSource encodes headers with the version
  of the parent and not of the thread does no harm (C62_same_version).

**Safety of the process**

* C49: names with `..` reach any file (open for writing, delete); empty names and
  names beginning or ending with a slash abort the receiver; so do allocation
  statuses 5-7 when a log is kept.
* C27: settings near the end of the buffer are decoded beyond it; long headers in
  a minimal buffer fail a check.
* C59: a receiver with a key takes a peer's first byte that is no settings command as
  the beginning of plaintext: it delivers the bytes as they are and answers in
  plaintext (ServerSocket always allows this, WdtSocket.cpp:325-334). The key is then
  gone for all later connections of that thread: one byte from anyone makes the right
  sender's ciphertext be taken for data.
* C59: the decoder of the settings is given 23 bytes of which 22 were read: with a type
  in two bytes the tag interval depends on memory that was not filled. A first read of
  one byte from an unencrypted peer leaves the socket unusable.
* C46: max_transfer_retries <= 0 dereferences a null socket; C47: if the system
  reports more unacknowledged bytes than before, a check stops the process.
* C17: a file name that does not fit a log entry stops the receiver; a recovery
  id that does not fit is silently not written.
* C54: buffer sizes in the last 4095 values of int32 become negative.
* C10: received pieces that do not fit the file make queueing endless.
* C36: a numeric encryption type of nine digits shifts out of int.
* C08: only the requested version is compared with the minimum.

* C61: the time a receiver waits for a sender to come back is the larger of the
  time-outs that sender announced plus 1000, cut to an int (ReceiverThread.cpp:207-212):
  a peer that announces more than 2^31 - 1001 ms and then breaks the connection makes
  it negative, and the check in acceptNextConnection aborts the receiver process.

* A receiver that answers VERSION_MISMATCH with a version the sender does not
  support stops the sender's process if it has a second thread; with version 0 it
  stops any: the abort code is set before the offer is looked at, and the check that
  somebody has an offer fails (C62_check_refuted).
* A URL with recpv of 0 or less, or a multiple of 2^32, is accepted and then stops the
  sender's process, because init negotiates before it validates; in a receiver, version
  0 does. A version from 1 to 9 is accepted as version 0 (C63_url_refuted,
  C63_zero_refuted).

* C74: invalidateDirectory closes the log when its write fails and then calls fsyncLog,
  whose check on the descriptor stops the receiver. A failed header write leaves the
  status at INCONSISTENT_DIRECTORY; fixAndCloseTransferLog then fails its check at
  the end of a good transfer (C74_header_refuted). The same check fails, without any
  failed write, if a receiver that found another session's log gets a sender that does
  not resume and has nothing to send (C74_empty_refuted).

**Threads and quotas**

* C37/C39: a thread that cannot allocate its buffer returns without deregistering:
  the others wait at the barrier for ever and the end action never runs.
* C40/C41: slots are lost when deRegisterWdtNamespace races with createSender, and
  when init() fails after creation; release is by key, so a replaced call releases
  the slot of its replacement; shutdown racing with create fails a check.
* C53: checkpoints of an idle session are told in the next session.
* C46: a receiver naming two made-up blocks in turn keeps a sender reconnecting
  for ever; WAIT commands keep it waiting for ever.
* C51: a remote abort replaces or clears an abort by the application.

* C60: an address that does not answer within the connect time-out ends the attempt
  with CONN_ERROR_RETRYABLE; further addresses are not tried, and the next attempt
  starts with the same one: a host whose first address is dead is never reached
  (ClientSocket.cpp:109-113 returns where the other failures continue). With GCM, the
  default, closing such a descriptor asks it for a tag in a busy loop for
  read_timeout_millis (for ever if that is not positive and aborts are not checked).
  A negative abort_check_interval_millis makes ::poll wait without a time-out.

* C65: finish() while another thread is in start() joins a thread that was not made yet,
  which stops the process; with two phases and no progress reports it returns a report
  instead, and the threads started afterwards run on under the status THREADS_JOINED.
  Two concurrent start() of a Receiver stop the process: unlike in a Sender, the status
  is not tested and set at once.
* C65: from its second transfer on a Receiver in runForever has the status NOT_STARTED.

* C70: mkdir's EEXIST counts as success also if a file is there, so a file gets into
  `createdDirs_` as a directory (C70_known_refuted); the open after it fails, so nothing
  is lost. A directory removed by someone else twice while a thread is at it makes the
  thread give up (C70_removed_refuted).

* C73: with keep_transfer_log off, `fixAndCloseTransferLog` closes the log, which gives up its lock, before it unlinks or
  renames it by name. A receiver that takes the log over in between loses it, and a third
  can start on a new log in the same directory: two receivers then write the same files
  (C73_removed_refuted). The loser notices only when it closes the log, by which time its
  transfer is over, and then calls `exit()` (C73_stale).
* C73: a receiver that finds the log invalid closes it at once and transfers without a lock;
  any number of others can do the same in the same directory (C73_invalid_refuted).
* C73: a receiver refused the lock calls `close()`, which calls `checkLog()`, which calls
  `exit()` if the owner has unlinked the log meanwhile: the application ends instead of
  getting an error from `init()` (C73_error_refuted).

**Reporting**

* C34: a URL that asks for no ports (`num_ports=-3`) or for port 65536 or -1
  is reported as OK by the parser.  The first is refused when a sender or
  receiver validates the request; the second only shows when connecting.
* C15/C16: a truthful confirmation can be refused after version negotiation (file
  0, offset 0), and the final check then aborts the sender; after a failure the
  report counts bytes taken back; deletions are counted as blocks.
* C42, C43, C55: a failed source with code OK is listed in an OK report; an
  encryption error is hidden by a later code; the combined code depends on the
  order when threads disagree on announced totals.
* C12: sequence ids start at 0 after an empty received list although documented
  to start at 1. C21: compacting an empty log writes a header without sender
  address, which is refused later. C29: CTR ignores the IV limit. C32: truncation
  to whole tokens and oversleeping exceed the bucket bound.

* C57: when recovery finds another session's log, startThread returns without
  starting the writer, but the session's header sets the status back to OK and
  entries are collected and never written: the session cannot be resumed. A thread
  whose first file arrives while another thread invalidates the directory does not
  wait for the header; its creation entry is dropped, its blocks are logged, and the
  next recovery refuses the whole log.
* C64: the initialiser of the array of smallest times sets its first element
  only, so the smallest time printed is 0 for every type of call but socket
  reads.  With a single call no percentiles are printed.  The
  times come from a clock that may be set back; a call that seems to take -1 ms or
  less stops the process when the report is printed.  A time-out over 47.7 minutes
  overflows an int in every recorded call.

* C65: a second finish() of a Sender can give another code than the first, in both
  directions (C65_code_refuted): the first uses failed sources, failed directories and
  the number of bytes, the following only the codes of the threads.

* C66: Counter::merge says it works as if all data had been set on one counter, but
  never takes over realMin_, and takes 0 for minimum and maximum of a counter that is
  still empty (C66_merge_refuted, C66_merge_new_refuted). Percentiles after merging
  values below the target's minimum are too high. reset() keeps realMin_, so the
  percentiles of a histogram that was reset and merged into can be above its greatest
  value (C66_stale_min_refuted), as can those of negative values.
* C66: ThreadLocalSwapableNode merges the histograms of threads, made with the scale
  asked for, into histograms of scale 1: ranges and percentiles printed are wrong by the
  scale (C66_scale_refuted). Nothing but a test uses it.
* C66: the standard deviation is 0 if the sum is no int (C66_deviation_refuted); two
  values of -2^31 overflow the sum of squares (C66_overflow_refuted).

* C67: the receiver takes the total size from the sender. If more arrives, the bar on a
  terminal grows without bound, and from 429497 times the announced size on the product
  of percentage and width overflows an int (C67_claim_refuted). The percentage overflows
  from 92 PB on.

* C68: checkForAbort reads one byte and gives up when it is not an abort, but heart beats
  sent before the abort are in front of it. The receiver sends one every fifth of the
  time-out, the sender reads them every ten time-outs, so with default options a receiver
  that was busy for more than a second and then aborts (a full disk, for instance) is
  not heard: the sender reconnects and in the end reports a connection error instead of
  the reason (C68_abort_lost). Reading heart beats may also swallow the abort; its error
  is ignored (C68_swallowed_refuted).

* C69: an explicit `static_ports=false` is overridden by a start port, and with the type
  disk a start port does not make the ports static (C69_static_refuted). In a list of
  files a blank line ends the process (C69_blank_refuted), an empty column is dropped so
  that the next one takes its place (C69_columns_refuted), and the comment in the code
  says the columns are separated by a space, but it is a tab. With
  `exit_on_bad_flags=false` a bad flag turns `wdt -` into a receiver
  (C69_minus_refuted).

* C71: in a program that links wdt, a flag of the program called `start_port` or
  `num_ports` (without `wdt_`) counts as if wdt's own was given: the ports become static,
  and the type disk leaves their number (C71_foreign_refuted).

**Reading only**

* traverseDestinationDir does not look at the result of buildQueueSynchronously.

* The throttler is created without configureOptions, and single_request_limit is
  the buffer size in practice; with both rates set, a call that slept for the
  average rate is not charged to the bucket.
* Error paths log key text or whole URLs (EncryptionUtils.cpp,
  WdtTransferRequest.cpp:313).
* After a failed partial write finalizeWrites still sends the tag.
* processErrCmd with a negative length declares an array of negative size;
  sendGlobalCheckpoint stores its length in an int16.
* DONE before SETTINGS (or a read time-out of zero or less) fails a check in the
  receiver.
* A sender can name one of its files like the transfer log.
* createSender for an id that exists takes a slot for a moment.
* `Checkpoint::hasPartialBlockInfo` and part of the negative checks of
  readFileChunks are dead code.
