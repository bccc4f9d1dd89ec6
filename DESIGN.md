# Formal model of facebook/wdt — design

The model and all proofs are Coq 8.16.1 sources below `rocq/theories` (logical
root `Verif`). Citations in comments are `file:lines` relative to `/repo`.
`properties.jsonl` lists the properties, `MANIFEST.json` the theorems claimed for
each, `seeded/LOG.jsonl` the wrong programs the theorems were tried on.

## Layout

| directory | content |
|---|---|
| `Model/` | total, computable functions and transition relations that follow the C++ function by function; every definition cites the lines it models and says where it simplifies; no proofs |
| `Spec/` | the small vocabulary the property theorems are stated in, independent of how the model computes |
| `Proofs/` | lemmas (`…Facts`), invariants, witnesses of refutations |
| `Props/` | only property theorems, each closed by `exact` of a lemma, with `Print Assumptions` below it and an `Example` showing a concrete non-trivial case that meets its hypotheses |

`tools/project.py` regenerates the file list of `_CoqProject`,
`tools/manifest.py` regenerates `MANIFEST.json` from the theorems in `Props/` and
the notes in `tools/notes.json`.

## Reading the theorems

* A theorem is named `Cnn_…` after its property. All are proved for all inputs,
  states and executions of the model; none is bounded by a computation.
* A statement (or part of one) that is false of the model is proved in negated
  form as `Cnn_…_refuted`, with a concrete witness. These are findings about the
  code; see "Findings". The positive theorems of the same property state the
  exact conditions under which the claim holds.
* No theorem carries the suffix `_partial`. Where a theorem needs a condition on
  the environment, the note below its property says so, and usually a refutation
  shows that it cannot be dropped.

## Modelling conventions

* `outcome A` is `Ret a`, `Crash` (a failed `WDT_CHECK`/`CHECK`, which aborts the
  process) or `Undef` (undefined behaviour: access out of bounds, signed overflow
  where it can occur, null dereference). Neither is assumed away.
* Bytes are integers in `[0,256)`, byte strings are lists. Machine integers are
  mathematical integers; wrapping or overflow is written out where a value can
  leave its type (`u64`, `s64`, `to_i32`, `sx`, explicit `Undef`).
* Arrays are lists with partial access (`rd`, `upd`), so an access outside is
  visible.
* Error codes are the numbers of `ErrorCodes.h`.
* Threads: small-step interleaving. One step is one stretch of code executed
  under a lock, or one access to shared state. The scheduler is arbitrary, and so
  are spurious wake-ups and the choice of `notify_one`. Threads are any number.
* Network, file system, clock, peer and user are inputs: lists of answers or
  events over which the theorems quantify.
* Loops are structural recursion, or recursion on fuel whose exhaustion is
  `Undef` (or excluded by a lemma that the fuel suffices).

## Code modelled

| model file | code | left out |
|---|---|---|
| `Varint` | util/SerializationUtil.{h,cpp} | — |
| `ProtocolCodec` | Protocol.{h,cpp} (all messages, negotiation) | — |
| `Intervals` | FileChunksInfo: merge, complement, totals | the choice std::sort makes among equal keys (all choices are covered by a theorem) |
| `ChunkList` | ReceiverThread::sendFileChunks, SenderThread::readFileChunks | sockets as reliable byte streams here |
| `SourceQueue` | DirectorySourceQueue: queue, comparator, cutting, sequence ids, deletions, resumption list | directory exploration (in `Explore`), symbolic links |
| `Explore` | DirectorySourceQueue: explore, enqueueFiles, buildQueueSynchronously | regular expressions are predicates |
| `QueueMonitor` | locking and condition variable of DirectorySourceQueue | — |
| `FileSource` | FileByteSource, read loop of sendOneByteSource | buffer allocation |
| `Stats`, `Report` | TransferStats, TransferReport, WdtBase abort codes and buffer size | printing; progress is in `Progress` |
| `History` | ThreadTransferHistory, Sender::validateTransferStats | — |
| `SenderRetry` | SenderThread connect/retry loops, waiting for the answer | sleeps take no step |
| `SendStream`, `Handshake` | bytes written by SenderThread | — |
| `RecvConn` | ReceiverThread: buffer handling, commands, blocks | heart beats (see `HeartBeat`), throttling calls |
| `RecvSession` | ReceiverThread states, global checkpoints, ThreadsController use, sessions | bytes (in `RecvConn`) |
| `ThreadsCtl` | ThreadsController, Barrier, Funnel, execute at start/end | — |
| `TransferLog` | TransferLogManager: codecs, parser, repair, compaction | failing system calls, locking of the log file; the writer thread is in `LogSession` |
| `LogSession` | the log's writer thread, header funnel, start and close of the log in Receiver | failed writes of single entries, compaction (in `TransferLog`) |
| `CrashLog` | FileCreator, FileWriter, block logging at the grain of single system calls | crash of the whole machine (fsync) |
| `TreeResume` | Receiver: init, traverseDestinationDir, addTransferLogHeader, fixAndCloseTransferLog; the log's header entries when resuming from the directory tree | threads race only where a theorem says so; entries in the log that are not headers or invalidations |
| `FileAlloc` | FileCreator: allocation map, mutex, condition variables | — |
| `PathOps` | FileCreator, FileWriter::open: paths given to the system | symbolic links |
| `DiskIO` | FileWriter::write | O_DIRECT alignment of the writer does not exist in the code |
| `Socket` | WdtSocket encrypted read/write, IV changes, tags | OpenSSL is a key stream and a tag function |
| `SocketLife` | WdtSocket: settings of a direction, unencrypted peers, ends of the directions, close, next connection | the key has the right length; OpenSSL calls succeed; no aborts |
| `Connect` | ClientSocket::connect, the loop around ::read and ::write | only waiting takes time; names, socket options and the peer's address left out |
| `Listen` | ServerSocket: listen, accept, close; acceptWithTimeout's time | only waiting takes time; socket options and the peer's name left out |
| `Negotiate` | processAbortCmd, processVersionMismatch, setFooterType, the loop in start(), negotiateProtocol, init | what a thread does with its connection is one state; a thread without a buffer left out |
| `Perf` | PerfStatReport: addPerfStat, +=, << | counters are mathematical integers; the layout of the text |
| `Life` | start, finish, progress reporting and status of Sender and Receiver, WdtThread::startThread/finish | what the threads do (they end at any time); reads of members while start() writes them |
| `Hist` | util/Stats.cpp, Counter and Histogram of util/Stats.h | doubles are rationals; the number format of what is printed; PeriodicCounters |
| `Progress` | ProgressReporter::progress/displayProgress, the loops of Sender::reportProgress and Receiver::progressTracker | throughputs are pairs of bytes and ticks; log10 of a double is exact (it is below 10^15 files); logProgress |
| `HeartBeat` | ReceiverThread::sendHeartBeat, SenderThread::readHeartBeats, checkForAbort, the first byte in readReceiverCmd, the switch in sendSettings, the loop of sendOneByteSource as far as the buffer is concerned | an answer, with the WAITs before it, is sent in one piece; the receiver sends heart beats only while it processes blocks of the current round; TCP delivers what was sent before a close |
| `CmdLine` | wdtCmdLine.cpp: main, readManifest, setupAbortChecker, cancelAbort; WdtOptions.cpp: modifyOptions and the predicates; the checks at the start of Receiver::init | gflags parses the flags; log and usage texts; fork |
| `DirTree` | FileCreator: createFile, createDirRecursively, dirCreated, by single system calls of many threads | names are numbers, no `.` or `..`; rights, links, full disks; createdDirs_ grows only (resetDirCache between sessions) |
| `Flags` | WdtFlags: initializeFromFlags, getUserSpecifiedOptions, names of flags; SignalSubscriber | gflags is a list of flags; only the options modifyOptions looks at |
| `LogLock` | TransferLogManager: openLog, checkLog, close, unlink, renameBuggyLog, as Receiver calls them | processes step one system call at a time; of a log only whether it is invalid |
| `LogChecks` | TransferLogManager: invalidateDirectory, writeLogHeader, fsyncLog, verifySenderIp with failing writes; Receiver: addTransferLogHeader, fixAndCloseTransferLog | one thread; the entries of the writer thread and the compaction are elsewhere |
| `Throttler` | Throttler | doubles are exact rationals |
| `Uri` | WdtTransferRequest, WdtUri, EncryptionParams text forms | reading key files, environment |
| `Resource` | WdtResourceController, Wdt.cpp | throttler objects |
| `Transfer` | sender threads, receiver threads and their connections together | abort, renegotiation of the protocol version, failures of the file system after a write returned |

Not modelled at all: PeriodicCounters (util/Stats.h),
bench, and everything outside the repository: TCP, the kernel's file systems,
OpenSSL, folly, gflags.

## Trusted base

* The Coq 8.16.1 kernel (including `vm_compute`, used for the witnesses and
  re-checked by `coqchk`).
* What `Print Assumptions` lists: every theorem in `Props/` is **closed under the
  global context** — no axiom at all, neither own nor from a library. (`coqchk -o`
  lists the axioms of `Coq.ssr.ssrunder`, an interface loaded with `lia`'s
  libraries; no theorem depends on them.)
* The faithfulness of the hand-written model to the cited lines. The code was
  read, not run.
* The behaviour granted to the environment, stated where it is used: POSIX
  `write`, `ftruncate`, `fallocate`, `rename` semantics on byte lists
  (`DiskIO`, `TransferLog`), mutexes and condition variables as in the C++
  standard, TCP delivering a prefix of what was written, in order.
* No assumption is made about the cipher beyond being a key stream with a tag of
  16 bytes, and none about CRC32C beyond being the function defined in `RecvConn`.

## Properties

### C01 — Variable-length integers survive encode/decode

*Model*: `Varint`. *Specification*: `CodecSpec` (round trip stated on byte lists). *Proof*: induction on the number of bytes, shifts and masks by arithmetic lemmas.
*Theorems* (`Props/PVarint`): `C01_varint_unsigned_roundtrip`, `C01_varint_signed_roundtrip`, `C01_byterange_roundtrips`, `C01_fixed_length_roundtrip`.
Model of folly-derived varint code in util/SerializationUtil.cpp.

### C02 — Integer decoders are safe on hostile input

*Model*: `Varint`. *Specification*: `CodecSpec` (`reads_inside`). *Proof*: induction on the bytes.
*Theorems* (`Props/PVarint`): `C02_decoders_safe`, `C02_positional_decoder_safe`, `C02_negative_frame_crashes`, `C02_cut_integer_refused`.
Decoders are proved against the bytes alone; that folly's decoders behave as the model says is part of the trusted base. A frame with a negative length crashes (C02_negative_frame_crashes), it is not refused.

### C03 — Encoders never write outside the room they were given

*Model*: `Varint` (buffer versions). *Specification*: `CodecSpec` (frame of a region). *Proof*: induction with a frame invariant.
*Theorems* (`Props/PVarint`): `C03_encode_integer_frame`, `C03_encode_string_frame`.
Buffers are lists of bytes; what lies outside the region is stated to be unchanged, byte for byte.

### C04 — Length-prefixed strings survive encode/decode and reject hostile lengths

*Model*: `Varint`. *Specification*: `CodecSpec`. *Proof*: from C01 and C02.
*Theorems* (`Props/PVarint`): `C04_string_roundtrip`, `C04_hostile_length_refused`.
Full, for strings shorter than 2^63.

### C05 — Block headers survive the wire at every protocol version

*Model*: `ProtocolCodec`. *Specification*: `ProtocolSpec` (`header_visible`). *Proof*: composition of codecs.
*Theorems* (`Props/PProtocol`): `C05_header_roundtrip`, `C05_header_fits`, `C05_header_decoder_safe`.
header_visible says what a version carries.

### C06 — Control messages survive the wire at every protocol version

*Model*: `ProtocolCodec`. *Specification*: `ProtocolSpec`. *Proof*: composition of codecs, arithmetic for the size bounds.
*Theorems* (`Props/PProtocol`): `C06_settings_roundtrip`, `C06_settings_fit`, `C06_checkpoints_roundtrip`, `C06_local_checkpoint_fits`, `C06_old_invalid_seq_id_understood`, `C06_checkpoints_decoder_safe`, `C06_done_roundtrip`, `C06_done_fits`, `C06_size_roundtrip`, `C06_footer_roundtrip`, `C06_abort_roundtrip`, `C06_chunks_cmd_roundtrip`, `C06_encryption_settings_roundtrip`.
All control messages of Protocol.cpp.

### C07 — The list of already received files reaches the sender complete

*Model*: `ChunkList`. *Specification*: `ChunkListSpec`. *Proof*: induction on the list; witnesses by computation.
*Theorems* (`Props/PChunkList`): `C07_chunk_list_exchange`, `C07_oversized_last_never_ends`, `C07_termination_refuted`, `C07_exact_list_refuted`, `C07_sender_memory_safety_refuted`, `C07_received_as_announced`, `C07_negative_announcement_refused`, `C07_surplus_refused`.
Exact when every entry fits the receiver's buffer. Refuted in general: an oversized entry makes the exchange loop forever or repeat entries; a lying receiver overflows the sender's buffer.

### C08 — Version negotiation picks one version both sides support

*Model*: `ProtocolCodec`. *Specification*: in the statement. *Proof*: case analysis.
*Theorems* (`Props/PProtocol`): `C08_negotiation`, `C08_negotiation_stable`, `C08_symmetry_below_minimum_refuted`.
Refuted below version 10: only the requested version is compared with the minimum.

### C09 — Merging received pieces and computing what is missing are exact

*Model*: `Intervals`. *Specification*: `IntervalSpec` (sets of bytes). *Proof*: invariants of the merge and complement loops.
*Theorems* (`Props/PIntervals`): `C09_merge_exact`, `C09_merge_any_sort`, `C09_remaining_exact`, `C09_remaining_general`, `C09_remaining_total`, `C09_remaining_returns`, `C09_unmerged_list_refuted`.
The missing pieces are exact for merged lists, which is what the code gives; for lists with overlaps they are not (C09_unmerged_list_refuted).

### C10 — A file is cut into blocks that cover it exactly once

*Model*: `SourceQueue`. *Specification*: `QueueSpec` (sets of bytes). *Proof*: induction on the cutting loop.
*Theorems* (`Props/PQueue`): `C10_blocks_exact`, `C10_run_exact`, `C10_iterations_suffice`, `C10_untrusted_pieces_refuted`.
Blocks for a file plus the received pieces cover every byte once. Refuted for received pieces that do not fit the file (endless loop).

### C11 — The send queue hands out every block once, in the documented priority order

*Model*: `SourceQueue`. *Specification*: `QueueSpec`. *Proof*: permutation invariant over operation sequences, order lemmas.
*Theorems* (`Props/PQueue`): `C11_conservation`, `C11_handout_highest`, `C11_order_irreflexive`, `C11_order_transitive`, `C11_order_total`, `C11_comparator`, `C11_handout_exists`, `C11_handout_rank`, `C11_return_accepted`, `C11_block_count`.
Over every interleaving of discovery, resumption, hand-out, open failure and return.

### C12 — Two files never share a sequence id

*Model*: `SourceQueue`. *Specification*: `QueueSpec`. *Proof*: invariant over operation sequences.
*Theorems* (`Props/PQueue`): `C12_ids_distinct`, `C12_no_collision`, `C12_one_id_per_file`, `C12_identity`, `C12_ids_start_at_one_refuted`.
Refuted: ids start at 0 after an empty received list although the documentation says 1.

### C13 — A sender thread asking for work neither sleeps forever nor gives up early

*Model*: `QueueMonitor` (transition system). *Specification*: `MonitorSpec`. *Proof*: inductive invariant, measure for internal runs.
*Theorems* (`Props/PMonitor`): `C13_no_unclaimed_block`, `C13_no_sleep_at_end`, `C13_no_more_only_at_end`, `C13_stuck_only_for_lack_of_blocks`, `C13_all_answered`, `C13_waiters_counted`, `C13_batch_end`, `C13_blocks_accounted`, `C13_block_status`, `C13_late_resume_refuted`.
All schedules of any number of threads. The refutation needs the resume list after threads asked for work, an order the sender's start-up prevents. C13_blocks_accounted counts every block: queued, taken, being opened, read or returned; C13_block_status: a block carries the status that was set when it was popped.

### C14 — After a reconnect exactly the unconfirmed blocks are sent again

*Model*: `History`. *Specification*: `HistorySpec`. *Proof*: functional specification by lists.
*Theorems* (`Props/PHistory`): `C14_unconfirmed_blocks_return`, `C14_no_crash`, `C14_no_block_lost`, `C14_overstated_bytes_refuted`, `C14_old_receiver_refuted`.
Refuted for receivers before version 21 (partial bytes credited to two blocks) and for a receiver claiming more bytes than the block has.

### C15 — A wrong confirmation is refused and changes nothing

*Model*: `History`. *Specification*: `HistorySpec`. *Proof*: case analysis.
*Theorems* (`Props/PHistory`): `C15_wrong_confirmation_refused`, `C15_refused_changes_nothing`, `C15_other_block_not_credited`, `C15_other_block_refuted`, `C15_truthful_confirmation_refuted`.
A confirmation naming another block is not refused but not credited. A truthful one can be refused after version negotiation (file 0, offset 0).

### C16 — Sent-byte statistics add up

*Model*: `History` (all sender threads). *Specification*: `HistorySpec`. *Proof*: invariant over runs.
*Theorems* (`Props/PHistory`): `C16_totals`, `C16_attempts`, `C16_thread_effective`, `C16_block_effective`, `C16_complete_means_sent`, `C16_final_check_passes`, `C16_final_check_refuted`, `C16_report_after_failure_refuted`, `C16_deletion_count_refuted`.
Refuted parts: final check aborts after a partial confirmation of file 0 offset 0; report after failure counts bytes taken back; deletion entries are over-counted.

### C17 — Transfer log entries survive encode/decode

*Model*: `TransferLog`. *Specification*: `LogSpec` (entries). *Proof*: composition of codecs.
*Theorems* (`Props/PLog`): `C17_encode`, `C17_decode`, `C17_fits`, `C17_long_header_refuted`, `C17_long_name_refuted`.
Refuted at the limits: a recovery id that does not fit is silently not written, a name that does not fit stops the process.

### C18 — A torn log tail never corrupts recovery

*Model*: `TransferLog` on byte files. *Specification*: `LogSpec`. *Proof*: induction on the framing loop.
*Theorems* (`Props/PLog`): `C18_torn_tail`.
Entries of any content; system calls succeed in full.

### C19 — Recovery reports only pieces that were logged as written

*Model*: `TransferLog`. *Specification*: `LogSpec` (declarative history of a file). *Proof*: parser state against the history, induction on entries.
*Theorems* (`Props/PLog`): `C19_recovery`, `C19_beyond_logged_size_refuted`, `C19_block_overflow_refuted`, `C19_stale_size_refuted`, `C19_removed_resized_file_refuted`.
Refuted parts: a block beyond the logged size but inside the file on disk is reported; a block end beyond the signed range is undefined; an id invalidated and reused keeps its old size, so a truthful resize makes the log invalid.

### C20 — Recovery is refused when the session does not match

*Model*: `TransferLog`. *Specification*: `LogSpec`. *Proof*: as C19.
*Theorems* (`Props/PLog`): `C20_refused`, `C20_restarts`, `C20_sender_changed`, `C20_marked`.
Full, over entries that parse; what becomes of bytes that do not is C19 and C57.

### C21 — Compacting the log does not change what is recovered

*Model*: `TransferLog`. *Specification*: `LogSpec`. *Proof*: composition of C17-C19.
*Theorems* (`Props/PLog`): `C21_compaction`, `C21_empty_log_refuted`.
Needs a non-empty log and a header that fits. Refuted for an empty log: the compacted header has no sender address and is rejected later.

### C22 — A destination file is allocated once and all blocks wait for it

*Model*: `FileAlloc` (transition system). *Specification*: `FileAllocSpec`. *Proof*: inductive invariant, measure.
*Theorems* (`Props/PFileAlloc`): `C22_one_allocates`, `C22_opens_after_success`, `C22_failure_for_all`, `C22_sleeper_expected`, `C22_all_answered`, `C22_no_failed_check`.
Threads, the spin lock, allocationMutex_ and the per-thread condition variables are explicit; any number of files. What the allocation does on disk is separate.

### C23 — A reported write put all bytes at the right place

*Model*: `DiskIO`. *Specification*: `DiskSpec`. *Proof*: induction on the answers of the operating system.
*Theorems* (`Props/PDisk`): `C23_write_reported`, `C23_elsewhere_unchanged`, `C23_block_written`, `C23_skip_writes_refuted`.
FileWriter::write and the descriptor's offset are modelled over every sequence of ::write answers. Success implies that exactly the given bytes are at the offset and nothing else changed. Refuted for skip_writes, a test option: success with nothing written.

### C24 — Reading a block yields exactly the file's bytes of the block

*Model*: `FileSource`. *Specification*: `FileSourceSpec`. *Proof*: induction on the answers of pread.
*Theorems* (`Props/PFileSource`): `C24_block_sent`, `C24_never_wrong`, `C24_shrunk_is_error`, `C24_advance`, `C24_direct_shrunk_refuted`, `C24_direct_short_refuted`.
FileByteSource::read/open/advanceOffset and the read loop of sendOneByteSource over every sequence of pread answers. Proved for ordinary reads and for direct reads that return whole disk blocks. Refuted for direct reads of a file that shrank or of a short read inside the first disk block: the size becomes negative without error and WDT_CHECK aborts the sender.

### C25 — A block counts as received only if all its bytes arrived and verify

*Model*: `RecvConn`. *Specification*: `BlockSpec`. *Proof*: invariant of the recorded trace.
*Theorems* (`Props/PRecvConn`): `C25_confirmed`, `C25_damage_detected`, `C25_checksum_is_crc32c`.
Model/RecvConn.v: the buffer and the command states of a receiver thread on one connection. For every traffic, segmentation and file-side failure, each confirmation in the record is preceded by its header, exactly its number of bytes written, the file closed, and the matching checksum or a verified tag; partial counts equal the bytes written. That the header is the one the sender sent is C26, and is false for headers over 256 bytes. C25_damage_detected: a block that differs from what was sent only within four neighbouring bytes always fails its checksum; C25_checksum_is_crc32c pins the function. The sum starts at 0, so leading zeros do not enter it.

### C26 — Header parsing does not depend on how the network cuts the stream

*Model*: `RecvConn`, `SendStream`. *Specification*: `StreamSpec`, `SentSpec` (meaning of a stream without a buffer). *Proof*: refinement.
*Theorems* (`Props/PRecvConn`): `C26_any_cut`, `C26_sender_stream`, `C26_long_header_refuted`, `C26_long_header_fails_refuted`.
Refinement: for streams with headers and settings of at most 256 bytes (and at most 1000 bytes of settings and size commands between blocks) every segmentation, buffer content and size gives the meaning defined without a buffer (Spec/StreamSpec.v), and a sender's stream (Model/SendStream.v) means what was sent. Refuted beyond 256 bytes: ReceiverThread.cpp:431-435 adds the length twice, so a long header cut by the network is decoded from stale bytes; witness with checksums on where a block is confirmed at another block's offset.

### C27 — The receive buffer is never overrun

*Model*: `RecvConn`. *Specification*: `BufferSpec`. *Proof*: invariant over steps.
*Theorems* (`Props/PRecvConn`): `C27_position`, `C27_after`, `C27_only_settings`, `C27_ends`, `C27_well_formed`, `C27_long_header_refuted`, `C27_long_settings_refuted`, `C27_settings_late_refuted`.
Any traffic: position and unread bytes inside the buffer, socket reads inside it; the only access outside is the decoding limit of a settings command in the last 1066 bytes (refuted with a witness). Well-formed traffic within the limits of C26 never fails a check; refuted for long headers in a minimal buffer and for settings over 256 bytes.

### C28 — The encrypted stream delivers the plaintext for every segmentation

*Model*: `Socket`. *Specification*: `SocketSpec`. *Proof*: stream refinement for writer and reader.
*Theorems* (`Props/PSocket`): `C28_delivers`, `C28_failed_write`, `C28_prefix`, `C28_verified`, `C28_end`, `C28_timeout_refuted`, `C28_boundary_refuted`.
Proved for every plaintext, tag interval, IV limit, write and read segmentation and network segmentation, the cipher being any key stream and any 16-byte tag function. Refuted in two places: a timeout directly behind a tag, and the end of a message on a tag boundary (the bytes got are dropped).

### C29 — Both ends change the encryption IV at the same stream position

*Model*: `Socket`. *Specification*: `SocketSpec`. *Proof*: as C28.
*Theorems* (`Props/PSocket`): `C29_limit`, `C29_every_byte`, `C29_same`, `C29_no_tags_refuted`, `C29_small_limit_refuted`.
Positions are proved to be the multiples of k*(limit/k) at both ends. Refuted for CTR (no tags): the limit is ignored.

### C30 — The settings handshake works for every allowed transfer id

*Model*: `Handshake`. *Specification*: `HandshakeSpec`. *Proof*: composition of C06 and C26.
*Theorems* (`Props/PHandshake`): `C30_short`, `C30_lucky`, `C30_resumption_long`, `C30_unlucky`, `C30_long_refuted`.
Proved for every id up to 237 bytes with and without resumption and for every segmentation; longer ids only when the whole message arrives with its 256th byte. Refuted for long ids: with resumption the sender writes only 256 bytes; without it the receiver decodes settings beyond the bytes read.

### C31 — The average-rate throttle holds for any number of threads

*Model*: `Throttler` (threads and clock). *Specification*: `ThrottlerSpec`. *Proof*: invariant over runs.
*Theorems* (`Props/PThrottler`): `C31_average`, `C31_new_average`.
Any number of threads calling limit() in any interleaving, times exact rationals; the run starts when the first transfer registers (resetState) and the rates stay.

### C32 — The peak-rate throttle bounds bursts

*Model*: `Throttler`. *Specification*: `ThrottlerSpec`. *Proof*: invariant over runs.
*Theorems* (`Props/PThrottler`): `C32_options`, `C32_constructed`, `C32_lock_order`, `C32_window`, `C32_truncation_refuted`, `C32_oversleep_refuted`.
C32_lock_order holds for all runs with no assumption on the clocks (charges oversleeping and one byte per truncation explicitly); C32_window is the claim as stated under exact clocks and whole tokens; both weaker hypotheses are shown necessary by C32_truncation_refuted and C32_oversleep_refuted. Bytes are counted per request (limitSingleRequest), not per call of limit() when the call is larger than single_request_limit.

### C33 — URL escaping is lossless and safe

*Model*: `Uri`. *Specification*: `UriSpec`. *Proof*: induction.
*Theorems* (`Props/PUri`): `C33_escape_safe`, `C33_round_trip`, `C33_unescape_exact`, `C33_malformed_rejected`.
Full; denotes is given by the grammar of escapes, not by the parser.

### C34 — A transfer request survives its connection URL

*Model*: `Uri`. *Specification*: `UriSpec`, `UriTextSpec`. *Proof*: printer and parser composed; exact readers piece by piece.
*Theorems* (`Props/PUri, PUriText`): `C34_url_round_trip`, `C34_port_zero_refuted`, `C34_empty_key_refuted`, `C34_host_refuted`, `C34_number_exact`, `C34_truth_exact`, `C34_ports_exact`, `C34_accepts_exactly`, `C34_no_ports_refuted`, `C34_port_range_refuted`.
Both ways: all valid requests (UriSpec.valid_request) survive printing and reading, the URL does not carry the directory; and a URL is accepted exactly if it can be taken apart and each parameter it has is well formed (UriTextSpec.means; how process takes a URL apart is the model's). Refuted outside: port list [0], key type set with empty key, host names containing delimiters; URLs without a port or with ports no machine has are accepted.

### C35 — Log-safe text does not reveal the encryption key

*Model*: `Uri`. *Specification*: in the statement. *Proof*: the text is a function of the hash.
*Theorems* (`Props/PUri`): `C35_log_only_hash`, `C35_equal_hashes_equal_text`.
std::hash is an arbitrary function. Text logged by error paths of unserialize/process (which do print the key text) is not the loggable form.

### C36 — Encryption parameters survive their text form

*Model*: `Uri`. *Specification*: `UriSpec` (grammar). *Proof*: induction.
*Theorems* (`Props/PUri`): `C36_round_trip`, `C36_accepts_exactly`, `C36_rejected_unset`, `C36_defined`, `C36_no_key_left_refuted`, `C36_defined_refuted`.
Exact grammar of accepted text. Refuted: key bytes decoded before the error stay in data_ (type is unset); a type of nine or more digits shifts out of int (undefined).

### C37 — No thread passes a barrier early and none is stuck

*Model*: `ThreadsCtl` (transition system). *Specification*: `ThreadsCtlSpec`. *Proof*: inductive invariant.
*Theorems* (`Props/PThreadsCtl`): `C37_not_early`, `C37_released`, `C37_no_failed_check`, `C37_thread_without_buffer_refuted`.
Barrier as a monitor; arbitrary scheduler, spurious wake-ups. Each thread executes at most once (SenderThread.cpp:872-884). Refuted when a thread returns from start() before deregistering (buffer allocation failed, SenderThread.cpp:957-961): the others sleep for ever.

### C38 — The funnel lets one thread at a time do the work

*Model*: `ThreadsCtl`. *Specification*: `ThreadsCtlSpec`. *Proof*: inductive invariant, potential.
*Theorems* (`Props/PThreadsCtl`): `C38_one_at_a_time`, `C38_not_after_success`, `C38_taken_over`, `C38_waiters_answered`.
Funnel as a monitor with arbitrary notify_one choice, time-outs and threads leaving; termination of internal runs by a potential function.

### C39 — Session start and end actions run exactly once

*Model*: `ThreadsCtl`. *Specification*: `ThreadsCtlSpec`. *Proof*: inductive invariant.
*Theorems* (`Props/PThreadsCtl`): `C39_start_action`, `C39_end_action`, `C39_exactly_once`, `C39_always_proceeds`, `C39_next_session`, `C39_thread_without_buffer_refuted`.
The action runs under the mutex as in the code. Refuted for the end action when a thread returns early from start() (SenderThread.cpp:957-961, ReceiverThread.cpp:984-988).

### C40 — Sender and receiver quotas hold under concurrency

*Model*: `Resource` (transition system). *Specification*: `ResourceSpec`. *Proof*: inductive invariants; witnesses by computation.
*Theorems* (`Props/PResource`): `C40_counter`, `C40_counter_keeps`, `C40_limit`, `C40_ns_limit`, `C40_available`, `C40_reusable`, `C40_dereg_refuted`, `C40_shutdown_refuted`, `C40_running_refuted`.
All calls of the resource controller, wdtSend and wdtReceive*, any number of threads, any interleaving of their critical sections. Counter equation, limits on the objects held, and availability of released slots proved (the last for runs without deRegisterWdtNamespace/shutdown). Refuted: deRegisterWdtNamespace racing with createSender loses a slot for ever (C40_dereg_refuted), shutdown racing with createSender fails its WDT_CHECK, and more transfers than the limit can be running since release is by key.

### C41 — A finished call leaves no quota behind

*Model*: `Resource`. *Specification*: `ResourceSpec`. *Proof*: as C40.
*Theorems* (`Props/PResource`): `C41_send`, `C41_recv`, `C41_send_refuted`, `C41_recv_refuted`, `C41_released`, `C41_says`, `C41_replace_refuted`.
Proved: a returned wdtSend holds a slot only if init() failed; a returned wdtReceiveStart only if init() failed or the transfer started. Refuted as stated: both leave the slot taken when init() fails; and a wdtSend replaced through terminateExistingOne releases the slot of its replacement.

### C42 — A sender that reports OK has sent everything

*Model*: `Report`. *Specification*: `ReportSpec`. *Proof*: case analysis, induction on the threads.
*Theorems* (`Props/PReport`): `C42_sender_ok`, `C42_failed_source_refuted`, `C42_files`.
Proved for every combination: OK implies totals equal, no failed directory, every failed source has code OK, all threads OK or one OK with nothing failed (threads agree on announced totals). C42_failed_source_refuted: a failed source with code OK can be listed in an OK report.

### C43 — A receiver that reports OK has received everything

*Model*: `Report`. *Specification*: `ReportSpec`. *Proof*: as C42.
*Theorems* (`Props/PReport`): `C43_receiver_ok`, `C43_no_encryption_error`, `C43_encryption_error_refuted`.
Block/byte counts proved for every list of thread results; absence of encryption errors proved when threads agree on announced totals and no code outranks ENCRYPTION_ERROR. C43_encryption_error_refuted shows it is false without that.

### C44 — A transfer that ends well delivered every byte

*Model*: `Transfer` (both ends and connections). *Specification*: `TransferSpec`. *Proof*: global inductive invariant.
*Theorems* (`Props/PTransfer`): `C44_all_delivered`, `C44_all_delivered_checked`, `C44_confirmed`, `C44_refused_checkpoint_refuted`, `C44_old_checkpoints_refuted`, `C44_silent_exit_refuted`, `C44_verified_refuted`.
Both ends over all interleavings, any number of ports. Conditions: checkpoints name the block or there are checksums/tags; no receiver thread left after a non-retried socket error; the sender refused no global checkpoint (only possible without checksums). Each condition is shown necessary: C44_refused_checkpoint_refuted, C44_old_checkpoints_refuted, C44_silent_exit_refuted. With tags, delivered is not yet verified (C44_verified_refuted). Not in the model: abort, renegotiation of the protocol version, file system errors after a write returned.

### C45 — A dead port does not lose data

*Model*: `RecvSession`, `Transfer`. *Specification*: `RecvSessionSpec`, `TransferSpec`. *Proof*: inductive invariants.
*Theorems* (`Props/PRecvSession, PTransfer`): `C45_end_for_all`, `C45_abandoned_port_refuted`, `C45_keeps_waiting`, `C45_end_after_all_blocks`, `C45_end_after_all_verified`.
Receiver half: when a port is told the end, every other port waits after DONE, was told the end, or its checkpoint was confirmed by this port's sender (no abort). Sender half: before the first end is reported every found block is in some thread's history among the blocks that port has received (counted, without tags). Refuted for a thread that leaves after a non-retryable socket error. C45_keeps_waiting: a waiting port says so to its sender, or ends the transfer if no thread runs any more.

### C46 — A sender thread cannot reconnect forever without progress

*Model*: `SenderRetry`. *Specification*: `SenderRetrySpec`. *Proof*: measure.
*Theorems* (`Props/PSenderRetry`): `C46_without_progress`, `C46_total`, `C46_attempts`, `C46_verdict`, `C46_liar_refuted`, `C46_wait_refuted`, `C46_zero_refuted`.
Proved for receivers that only confirm what they were sent: between two real confirmations a thread makes at most max_transfer_retries+3 connections (one more round before its first checkpoint), all its connections are bounded by blocks+bytes found, and each takes at most max_retries attempts; other threads interleave arbitrarily. Refuted otherwise: validateCheckpoint only compares with the previous checkpoint, so a receiver that names two made-up blocks in turn counts as progress for ever (C46_liar); WAIT, heart beats and spurious checkpoints keep a thread in READ_RECEIVER_CMD for ever without reconnecting (C46_wait); max_transfer_retries <= 0 dereferences a null socket_ in connect's log line (C46_zero).

### C47 — Waiting for a slow receiver ends

*Model*: `SenderRetry`. *Specification*: in the statement. *Proof*: induction on the answers.
*Theorems* (`Props/PSenderRetry`): `C47_while_decreasing`, `C47_ends`, `C47_answer`, `C47_no_crash`, `C47_growth_refuted`.
The waiting loop continues exactly while unacknowledged bytes strictly decrease and stay positive, hence ends after at most that many time-outs. If the system ever reports more unacknowledged bytes than before, WDT_CHECK_GE stops the process (C47_growth_refuted).

### C48 — Only extra files are deleted on the receiver

*Model*: `SourceQueue`. *Specification*: `QueueSpec`. *Proof*: list lemmas.
*Theorems* (`Props/PQueue`): `C48_only_extra_files`, `C48_all_extra_files`, `C48_list_kept`.
Queue side: which deletions are requested.

### C49 — The receiver only touches files below its directory

*Model*: `PathOps`. *Specification*: `PathSpec` (path resolution). *Proof*: induction on components; witnesses.
*Theorems* (`Props/PPath`): `C49_confined`, `C49_plain`, `C49_no_crash`, `C49_crash_refuted`, `C49_status_refuted`, `C49_kept`, `C49_opened`, `C49_anywhere_refuted`.
FileCreator and FileWriter::open, with every answer of the operating system, path resolution by components (no symbolic links). Proved: names that do not climb stay below the directory; well formed names do not crash. Refuted: a name with '..' reaches any file (deletion and opening for writing); empty names and names with a leading or trailing slash fail a CHECK; so does a header with allocation status 5-7 when the log is kept.

### C50 — Resumption sends exactly what is missing

*Model*: `SourceQueue`. *Specification*: `QueueSpec`. *Proof*: from C10.
*Theorems* (`Props/PQueue`): `C50_resume_exact`, `C50_counters`.
Assumes distinct file names and received pieces that lie inside the file (pieces_fit); without preallocation, or for a file that shrank, everything is sent again (C10).

### C51 — Abort codes keep their priority

*Model*: `Report`. *Specification*: `ReportSpec`. *Proof*: induction on operations.
*Theorems* (`Props/PReport`): `C51_abort_kept`, `C51_stays_aborted`, `C51_replaced_refuted`.
Version mismatch and clear never touch another abort; any abort with an error code keeps the transfer aborted. C51_replaced_refuted: the remote abort code (SenderThread.cpp:853) replaces or clears an application abort.

### C52 — Crash between writing data and logging it is safe

*Model*: `CrashLog`. *Specification*: `CrashSpec`. *Proof*: inductive invariant relating log, memory and disk, composed over sessions.
*Theorems* (`Props/PCrashLog`): `C52_reported_pieces_are_on_disk`, `C52_shrunk_file_refuted`, `C52_changed_file_refuted`, `C52_resent_block_refuted`, `C52_invalid_log_refuted`.
Model of disk, log and threads at the grain of one system call or log append (Model/CrashLog.v); for any number of sessions, each ended by death between two steps, every reported byte is on disk and is the sender's. Refuted without its hypotheses: shrinking file without preallocation, changed content, damaged re-send over a logged block, and an INVALID_LOG that fits again.

### C53 — The receiver tells each port every global checkpoint exactly until it is acknowledged

*Model*: `RecvSession`. *Specification*: `RecvSessionSpec`. *Proof*: inductive invariant.
*Theorems* (`Props/PRecvSession`): `C53_told_in_order`, `C53_told_not_own`, `C53_end_after_all`, `C53_told_again`, `C53_other_session_refuted`, `C53_mismatch`.
All interleavings of all receiver threads, with breaks, failed ports and sessions. For sessions that had a connection whenever they ended with failed ports. Refuted for an idle session of a long-running receiver: its checkpoints are told in the next session, even to the port itself.

### C54 — Buffer size adjustment yields a usable buffer

*Model*: `Report`. *Specification*: in the statement. *Proof*: arithmetic.
*Theorems* (`Props/PReport`): `C54_buffer_size`, `C54_overflow_refuted`.
All sizes up to 2^31-4096; C54_overflow_refuted: the remaining 4095 int32 values become negative.

### C55 — Aggregated error codes do not depend on thread order

*Model*: `Report`. *Specification*: `ReportSpec`. *Proof*: fold lemmas.
*Theorems* (`Props/PReport`): `C55_order_irrelevant`, `C55_most_serious`, `C55_counters_order_irrelevant`, `C55_encryption`, `C55_order_refuted`.
Order independence and maximality when threads agree on announced totals; counters always. C55_order_refuted: otherwise the code depends on the order.

### C56 — Discovery finds exactly the files the patterns select

*Model*: `Explore`. *Specification*: `ExploreSpec`. *Proof*: induction over the list of directories to read; for the end, a measure that counts directories not yet entered by a link.
*Theorems* (`Props/PExplore`): `C56_only_wanted`, `C56_once`, `C56_all_wanted`, `C56_no_error_means_examined`, `C56_stopped_early_is_error`, `C56_examined_no_error`, `C56_unopened_listed`, `C56_ends`, `C56_one_result`, `C56_queue`, `C56_given_list`, `C56_given_list_failure`, `C56_unexamined_file_refuted`, `C56_link_first_refuted`, `C56_present_file_deleted_refuted`, `C56_abort_refuted`.
Soundness, no duplicates, completeness, termination with link cycles, the blocks queued, and listing of unopened directories are proved. The last clause is refuted: unexaminable entries leave no trace in the report (C56_unexamined_file_refuted), a directory reached also by a link may not be sent under its own name (C56_link_first_refuted), deletion of files the sender has can be requested (C56_present_file_deleted_refuted), an abort while reading is no error (C56_abort_refuted). File system constant during exploration; patterns are predicates. C56_stopped_early_is_error: the only way for explore to stop with directories left is an error.

### C57 — What is logged during a session is on disk when the log is closed

*Model*: `LogSession`. *Specification*: `LogSessionSpec`. *Proof*: inductive invariant: disk, batch of the writer and memory together are what was taken; torn files by C18, reports by C19.
*Theorems* (`Props/PLogSession`): `C57_on_disk`, `C57_recovered`, `C57_no_crash`, `C57_not_started_refuted`, `C57_early_creation_refuted`.
The entries taken are those after the header, and invalidations. Refuted: the writer thread is not started after a recovery that found another session's log, so nothing of the new session is kept; a creation logged while another thread is about to write the header is dropped and the log becomes invalid. Writes of single entries (header, directory invalidation) are assumed to succeed.

### C58 — A receiver that resumes from its directory tree reports only bytes that are right

*Model*: `TreeResume`, `Explore`, `CrashLog`, `TransferLog`. *Specification*: `TreeResumeSpec`. *Proof*: inductive invariant over system calls of a session, composed over sessions; the traversal by C56.
*Theorems* (`Props/PTreeResume`): `C58_reported_bytes_are_right`, `C58_traversal`, `C58_plan`, `C58_log_names_no_file`, `C58_only_valid`, `C58_other_sender`, `C58_header`, `C58_existing_files_refuted`, `C58_damaged_block_refuted`, `C58_start_race_refuted`, `C58_stale_file_refuted`, `C58_retry`.
Proved for a directory that is right at first, files sent whole or continued while the log is valid, and right data. Each of these is needed: C58_existing_files_refuted (no log: wrong files are trusted), C58_damaged_block_refuted (a block refused for its checksum is already on disk), C58_start_race_refuted (a sender of blocks: the thread that is not elected writes before the directory is invalidated), C58_stale_file_refuted (a success makes wrong files it did not send trusted). The exploration is that of C56 without its failing calls.

### C59 — A socket with a key delivers and sends only what the key protects

*Model*: `SocketLife`, `Socket`, `ProtocolCodec`. *Specification*: `SocketLifeSpec`, `SocketSpec`. *Proof*: the directions commute; after the settings the reads are those of C14; induction over calls and connections.
*Theorems* (`Props/PSocketLife`): `C59_accepted`, `C59_end`, `C59_sent`, `C59_roundtrip`, `C59_no_crash`, `C59_closed`, `C59_plain_refuted`, `C59_next_refuted`, `C59_erased`, `C59_stale_refuted`, `C59_one_byte_refuted`, `C59_shutdown_code`, `C59_close_code`.
Proved over the whole life of a socket object. Refuted, and kept as theorems: a server socket takes unencrypted peers and then has no key any more, for all later connections; the settings decoder reads one byte of unfilled memory. Aborts and failing OpenSSL calls are not modelled.

### C60 — Connecting picks the first address that works and loses no descriptor

*Model*: `Connect`. *Specification*: `ConnectSpec`. *Proof*: the trace is replayed along the loops; time and time-outs by induction over the answers.
*Theorems* (`Props/PConnect`): `C60_decided`, `C60_time`, `C60_found`, `C60_returns`, `C60_reachable_refuted`, `C60_tag_refuted`, `C60_stuck`, `C60_interval_refuted`, `C60_once`, `C60_unknown`, `C60_io`.
An address that does not answer in time ends the attempt without trying the others (C60_reachable_refuted); with GCM the time-out is followed by a busy wait for a tag (C60_tag_refuted, C60_stuck); a negative interval between checks for aborts means no time-out (C60_interval_refuted). Time-outs of single system calls other than poll and read are taken as zero.

### C61 — A server socket keeps track of its descriptors, listens on one port and starves no address

*Model*: `Listen`, `Connect`. *Specification*: `ListenSpec`. *Proof*: the trace is replayed on a table of descriptors; the distance to an address that is ready falls with every accept.
*Theorems* (`Props/PListen`): `C61_descriptors`, `C61_addresses`, `C61_accept`, `C61_found`, `C61_fair`, `C61_defined`, `C61_checks`, `C61_timeout`, `C61_timeout_refuted`.
A peer that announces a time-out near the limit of int and then breaks the connection aborts the receiver (C61_timeout_refuted). With tryCurAddressFirst an address that is always ready is always served first; fairness is proved for accepts without it. The table of descriptors supposes nothing about the numbers the system hands out; if it hands out one in use the rest of the trace is not judged.

### C62 — A version mismatch is settled once and every thread that goes on agrees

*Model*: `Negotiate`, `ThreadsCtl`, `Report`. *Specification*: `NegotiateSpec`. *Proof*: one invariant ties every thread to its state in barrier and funnel and to the shared status; a rank of the threads falls with every step they take by themselves.
*Theorems* (`Props/PNegotiate`): `C62_checks`, `C62_no_crash`, `C62_check_refuted`, `C62_same_version`, `C62_version`, `C62_unanimous`, `C62_once`, `C62_one_round`, `C62_verdict`, `C62_failed`, `C62_cleared`, `C62_settles`, `C62_rest`, `C62_footer`, `C62_footer_refuted`.
The states of a thread other than PROCESS_VERSION_MISMATCH are one state that returns any way at any time; handleVersionMismatch only says whether something had been acknowledged. A hostile receiver can stop the process (C62_check_refuted), and the threads that do not settle the mismatch keep a wrong footer type (C62_footer_refuted).

### C63 — Initialisation leaves a usable protocol version or an error

*Model*: `Negotiate`, `Uri`. *Specification*: none needed. *Proof*: case analysis.
*Theorems* (`Props/PNegotiate`): `C63_sender`, `C63_receiver`, `C63_usable`, `C63_zero_refuted`, `C63_url_refuted`.
The exact statements are for versions that fit 32 bits; C63_url_refuted shows what happens to others. Of Receiver::init only what precedes the negotiation is modelled here; opening and recovering the log is C18 to C21 and C56.

### C64 — The performance report says what was measured

*Model*: `Perf`. *Specification*: `Spec.PerfSpec`: the calls recorded, ranks and slots of a list. *Proof*: induction over the operations; the sorted keys of the map.
*Theorems* (`Props/PPerf`): `C64_figures`, `C64_min`, `C64_min_refuted`, `C64_printed`, `C64_slots`, `C64_percentile_unique`, `C64_defined`, `C64_overflow_refuted`.
Count, sum, maximum, percentiles and histogram are proved to be those of the recorded calls for any sequence of additions and merges. The minimum is refuted for all types but the first (C64_min, C64_min_refuted). Printing stops the process exactly for times of -1 ms or less; recording is undefined for time-outs over 47.7 minutes.

### C65 — start and finish of a Sender or Receiver join every thread and return

*Model*: `Life`. *Specification*: `Spec.LifeSpec`: callers that keep to the order, stages of the status, the answers given. *Proof*: invariant over the moves of threads and callers; a measure that falls with every move but a call.
*Theorems* (`Props/PLife`): `C65_safe`, `C65_status`, `C65_answers`, `C65_return`, `C65_one_start`, `C65_lock`, `C65_race_refuted`, `C65_unjoined_refuted`, `C65_two_starts_refuted`, `C65_code_refuted`, `C65_forever`.
Proved for all numbers of threads and callers and all interleavings, for callers that call finish only after a start returned and start one at a time (C65_safe, _status, _answers, _return). Without that: C65_race_refuted, C65_unjoined_refuted, C65_two_starts_refuted; for a Sender at most one start succeeds in any case (C65_one_start). C65_code_refuted: the codes of first and later finish differ. C65_forever: status of a Receiver that runs for ever.

### C66 — counters and histograms say what was recorded

*Model*: `Hist`. *Specification*: `Spec.HistSpec`: the values that went in, counted per slot; a percentile right as far as the slots can tell. *Proof*: each operation keeps the counts; the table of slots by induction; the loop over the slots by its state; linear interpolation over the rationals.
*Theorems* (`Props/PHist`): `C66_counts`, `C66_slots`, `C66_table`, `C66_figures`, `C66_reset`, `C66_merge`, `C66_merge_new`, `C66_merge_refuted`, `C66_merge_new_refuted`, `C66_percentile`, `C66_recorded`, `C66_merged_percentile`, `C66_percentile_bounds`, `C66_percentile_monotone`, `C66_percentile_defined`, `C66_negative_refuted`, `C66_stale_min_refuted`, `C66_scale_refuted`, `C66_defined`, `C66_overflow_refuted`, `C66_deviation`, `C66_deviation_refuted`, `C66_rows`.
Counts are right for all orders of operations; percentiles for values that are not negative and the same scale. Refuted: minimum after merge and reset, other scales, negative values, large sums.

### C67 — reports on progress show the right percentage in a line of fixed length

*Model*: `Progress`. *Specification*: `Spec.ProgressSpec`: a bar filled to the right point, the last complete interval of samples. *Proof*: arithmetic; the number of digits printed against the logarithm; the state of the loop as a function of the number of samples.
*Theorems* (`Props/PProgress`): `C67_line`, `C67_grows`, `C67_falls_refuted`, `C67_overflow_refuted`, `C67_claim_refuted`, `C67_throughput`, `C67_interval`.
Holds for all sizes below 92 PB. Refuted: percentage falls while files are found; a sender announcing too little makes the receiver's bar arbitrarily long or undefined.

### C68 — heart beats do not disturb the exchange, except that they hide aborts

*Model*: `HeartBeat`. *Specification*: `Spec.HeartBeatSpec`: the answers given in a run, neighbours in a list of times. *Proof*: invariants over all runs of the connection: only heart beats are unread while blocks are sent; what is unread is a suffix of what was sent; arithmetic on times.
*Theorems* (`Props/PHeartBeat`): `C68_answers`, `C68_waiting`, `C68_abort`, `C68_abort_lost`, `C68_abort_refuted`, `C68_swallowed_refuted`, `C68_pace`, `C68_apart`, `C68_reads`, `C68_data`, `C68_off`, `C68_overflow_refuted`, `C68_defined`.
Refuted in one part: an abort behind an unread heart beat is not found (C68_abort_lost, C68_abort_refuted), and reading heart beats may swallow it (C68_swallowed_refuted).

### C69 — the command line means what it says

*Model*: `CmdLine`. *Specification*: `Spec.CmdLineSpec`: values of options by name, the text of a list of files. *Proof*: case analysis; splitting of concatenated lines; an invariant of the abort thread.
*Theorems* (`Props/PCmdLine`): `C69_kept`, `C69_disk`, `C69_flash`, `C69_static_refuted`, `C69_resumption`, `C69_checks`, `C69_disk_resumes`, `C69_manifest`, `C69_manifest_open`, `C69_blank_refuted`, `C69_columns_refuted`, `C69_receives`, `C69_sends`, `C69_minus`, `C69_minus_refuted`, `C69_status`, `C69_alarm`.
Refuted in parts: static ports (C69_static_refuted), blank lines and empty columns of file lists (C69_blank_refuted, C69_columns_refuted), bad flags (C69_minus_refuted).

### C70 — the directories a file needs are made

*Model*: `DirTree`. *Specification*: `Spec.DirTreeSpec`: trees, clashes and requests as sets of paths. *Proof*: two invariants over all interleavings (with and without removals), a decreasing measure.
*Theorems* (`Props/PDirTree`): `C70_never_fails`, `C70_all_made`, `C70_ends`, `C70_removed_refuted`, `C70_made`, `C70_only`, `C70_kept`, `C70_in_the_way`, `C70_excl`, `C70_known`, `C70_known_refuted`, `C70_first_time`.
createFile and createDirRecursively run by any number of threads against a tree of directories and files, one system call or use of the mutex at a time, with a cache that may be wrong from the start; removals by others in some parts.

### C71 — options come from their flags

*Model*: `Flags`, `CmdLine`. *Specification*: `Spec.FlagsSpec`: flags as a set of names and values. *Proof*: equivalences on names; the theorems of C69.
*Theorems* (`Props/PFlags`): `C71_specified`, `C71_given`, `C71_disk`, `C71_flash`, `C71_again`, `C71_foreign_refuted`.
Refuted in part: flags of the host program with the bare name of an option count as given (C71_foreign_refuted).

### C72 — a signal asks each transfer for one report

*Model*: `Flags`. *Specification*: `Spec.FlagsSpec`: histories, split at the last look. *Proof*: induction over histories, arithmetic modulo 2^64.
*Theorems* (`Props/PFlags`): `C72_told`, `C72_wraps_refuted`.
The bound of 2^64 signals between two questions is needed (C72_wraps_refuted).

### C73 — one receiver at a time works in a directory

*Model*: `LogLock`. *Specification*: `Spec.LogLockSpec`: who works, which file is open. *Proof*: invariants over all interleavings; concrete runs for what is refuted.
*Theorems* (`Props/PLogLock`): `C73_one`, `C73_exclusive`, `C73_no_exit`, `C73_removed_refuted`, `C73_invalid_refuted`, `C73_stale`, `C73_error_refuted`, `C73_alone`.
Receivers without enable_download_resumption do not open the log and are not covered. flock is taken to work as documented (also on network file systems), inode numbers not to be reused while a file is open.

### C74 — a failed write to the log ends the receiver only in known cases

*Model*: `LogChecks`, `TransferLog`. *Specification*: `Spec.LogChecksSpec`: when the directory is to be invalidated, what a torn log is. *Proof*: case analysis of the session; the theorem on torn tails (C18).
*Theorems* (`Props/PLogChecks`): `C74_stops_exactly`, `C74_left`, `C74_unlogged`, `C74_empty_refuted`, `C74_header_refuted`.
The session starts after parsing, with the log open; writes are at the end of the file. A failing write of the invalidation inside parseVerifyAndFix is the same function but is not part of the session.

## Findings

Each item is a proved `…_refuted` theorem unless marked (reading only).

**Data delivered wrongly or lost**

* C26: a header over 256 bytes (long file name) that the network cuts in two is
  decoded from stale bytes (ReceiverThread.cpp:431-435 counts the length twice).
  With checksums on, a block is confirmed at another block's offset.
* C44: without checksums a refused global checkpoint (INVALID_CHECKPOINT) loses
  blocks; with receivers before version 21 a partial block is credited to two
  blocks (also C14); a receiver thread that leaves after a non-retried socket
  error lets the transfer end well without its blocks; with encryption, the end
  can be reported before the last tag was verified.
* C52: what recovery reports may not be on disk: a file that shrinks between
  sessions without preallocation; content changed after the size grew by
  fallocate and the death came before the resize entry; a damaged re-send over a
  logged block; a log kept as invalid that fits again in a later session.
* C24: direct reads of a file that shrank make the block size negative, and the
  sender aborts on a check.
* C07: a received-files entry larger than the buffer makes the exchange run for
  ever or repeat entries; a receiver announcing a larger buffer than the sender's
  overruns the sender's memory.
* C30: with resumption a transfer id over 237 bytes is cut (the sender writes 256
  bytes whatever was encoded); without it the receiver decodes unread bytes.
* C28: a time-out directly behind a tag, or the end of a message on a tag
  boundary, drops bytes already received.
* C19: a block beyond the logged size is reported if the file on disk is larger;
  an id that was invalidated and used again keeps its old size; one removed file
  that had been resized makes the whole log invalid.
* C56: files and directories that lstat, stat, realpath or readdir could not
  handle are dropped without a trace in the report (explore's result is not used,
  only directories that cannot be opened are listed); with deletion of surplus
  files the receiver is then told to delete files the sender has. With links
  followed, a directory is sent under one of its names only, and which one depends
  on the order of readdir. An abort while a directory is read is no error.

* C58: without a log (or with an empty one) the directory is trusted, so files that
  were there before and have the right size are never sent. A block refused for its
  checksum is on disk already, and after a death of the receiver it is taken for
  good. A sender that sends blocks invalidates the directory, but only the thread
  elected for it waits for that; a death meanwhile leaves a valid log over a file
  with holes. A successful transfer makes the log valid again although files it did
  not send may be wrong.

* After falling back to a version without checksums, the threads that did not settle
  the mismatch themselves keep the old footer type, since only the branch for
  FUNNEL_START calls setFooterType: they send a footer the receiver takes for an unknown
  command (C62_footer_refuted). That sendOneByteSource encodes headers with the version
  of the parent and not of the thread does no harm (C62_same_version).

**Safety of the process**

* C49: names with `..` reach any file (open for writing, delete); empty names and
  names beginning or ending with a slash abort the receiver; so do allocation
  statuses 5-7 when a log is kept.
* C27: settings near the end of the buffer are decoded beyond it; long headers in
  a minimal buffer fail a check.
* C59: a receiver with a key takes a peer's first byte that is no settings command as
  the beginning of plaintext: it delivers the bytes as they are and answers in
  plaintext (ServerSocket always allows this, WdtSocket.cpp:325-334). The key is then
  gone for all later connections of that thread: one byte from anyone makes the right
  sender's ciphertext be taken for data.
* C59: the decoder of the settings is given 23 bytes of which 22 were read: with a type
  in two bytes the tag interval depends on memory that was not filled. A first read of
  one byte from an unencrypted peer leaves the socket unusable.
* C46: max_transfer_retries <= 0 dereferences a null socket; C47: if the system
  reports more unacknowledged bytes than before, a check stops the process.
* C17: a file name that does not fit a log entry stops the receiver; a recovery
  id that does not fit is silently not written.
* C54: buffer sizes in the last 4095 values of int32 become negative.
* C10: received pieces that do not fit the file make queueing endless.
* C36: a numeric encryption type of nine digits shifts out of int.
* C08: only the requested version is compared with the minimum.

* C61: the time a receiver waits for a sender to come back is the larger of the
  time-outs that sender announced plus 1000, cut to an int (ReceiverThread.cpp:207-212):
  a peer that announces more than 2^31 - 1001 ms and then breaks the connection makes
  it negative, and the check in acceptNextConnection aborts the receiver process.

* A receiver that answers VERSION_MISMATCH with a version the sender does not
  support stops the sender's process if it has a second thread; with version 0 it
  stops any: the abort code is set before the offer is looked at, and the check that
  somebody has an offer fails (C62_check_refuted).
* A URL with recpv of 0 or less, or a multiple of 2^32, is accepted and then stops the
  sender's process, because init negotiates before it validates; in a receiver, version
  0 does. A version from 1 to 9 is accepted as version 0 (C63_url_refuted,
  C63_zero_refuted).

* C74: invalidateDirectory closes the log when its write fails and then calls fsyncLog,
  whose check on the descriptor stops the receiver. A failed header write leaves the
  status at INCONSISTENT_DIRECTORY; fixAndCloseTransferLog then fails its check at
  the end of a good transfer (C74_header_refuted). The same check fails, without any
  failed write, if a receiver that found another session's log gets a sender that does
  not resume and has nothing to send (C74_empty_refuted).

**Threads and quotas**

* C37/C39: a thread that cannot allocate its buffer returns without deregistering:
  the others wait at the barrier for ever and the end action never runs.
* C40/C41: slots are lost when deRegisterWdtNamespace races with createSender, and
  when init() fails after creation; release is by key, so a replaced call releases
  the slot of its replacement; shutdown racing with create fails a check.
* C53: checkpoints of an idle session are told in the next session.
* C46: a receiver naming two made-up blocks in turn keeps a sender reconnecting
  for ever; WAIT commands keep it waiting for ever.
* C51: a remote abort replaces or clears an abort by the application.

* C60: an address that does not answer within the connect time-out ends the attempt
  with CONN_ERROR_RETRYABLE; further addresses are not tried, and the next attempt
  starts with the same one: a host whose first address is dead is never reached
  (ClientSocket.cpp:109-113 returns where the other failures continue). With GCM, the
  default, closing such a descriptor asks it for a tag in a busy loop for
  read_timeout_millis (for ever if that is not positive and aborts are not checked).
  A negative abort_check_interval_millis makes ::poll wait without a time-out.

* C65: finish() while another thread is in start() joins a thread that was not made yet,
  which stops the process; with two phases and no progress reports it returns a report
  instead, and the threads started afterwards run on under the status THREADS_JOINED.
  Two concurrent start() of a Receiver stop the process: unlike in a Sender, the status
  is not tested and set at once.
* C65: from its second transfer on a Receiver in runForever has the status NOT_STARTED.

* C70: mkdir's EEXIST counts as success also if a file is there, so a file gets into
  `createdDirs_` as a directory (C70_known_refuted); the open after it fails, so nothing
  is lost. A directory removed by someone else twice while a thread is at it makes the
  thread give up (C70_removed_refuted).

* C73: with keep_transfer_log off, `fixAndCloseTransferLog` closes the log, which gives up its lock, before it unlinks or
  renames it by name. A receiver that takes the log over in between loses it, and a third
  can start on a new log in the same directory: two receivers then write the same files
  (C73_removed_refuted). The loser notices only when it closes the log, by which time its
  transfer is over, and then calls `exit()` (C73_stale).
* C73: a receiver that finds the log invalid closes it at once and transfers without a lock;
  any number of others can do the same in the same directory (C73_invalid_refuted).
* C73: a receiver refused the lock calls `close()`, which calls `checkLog()`, which calls
  `exit()` if the owner has unlinked the log meanwhile: the application ends instead of
  getting an error from `init()` (C73_error_refuted).

**Reporting**

* C34: a URL that asks for no ports (`num_ports=-3`) or for port 65536 or -1
  is reported as OK by the parser.  The first is refused when a sender or
  receiver validates the request; the second only shows when connecting.
* C15/C16: a truthful confirmation can be refused after version negotiation (file
  0, offset 0), and the final check then aborts the sender; after a failure the
  report counts bytes taken back; deletions are counted as blocks.
* C42, C43, C55: a failed source with code OK is listed in an OK report; an
  encryption error is hidden by a later code; the combined code depends on the
  order when threads disagree on announced totals.
* C12: sequence ids start at 0 after an empty received list although documented
  to start at 1. C21: compacting an empty log writes a header without sender
  address, which is refused later. C29: CTR ignores the IV limit. C32: truncation
  to whole tokens and oversleeping exceed the bucket bound.

* C57: when recovery finds another session's log, startThread returns without
  starting the writer, but the session's header sets the status back to OK and
  entries are collected and never written: the session cannot be resumed. A thread
  whose first file arrives while another thread invalidates the directory does not
  wait for the header; its creation entry is dropped, its blocks are logged, and the
  next recovery refuses the whole log.
* C64: the initialiser of the array of smallest times sets its first element
  only, so the smallest time printed is 0 for every type of call but socket
  reads.  With a single call no percentiles are printed.  The
  times come from a clock that may be set back; a call that seems to take -1 ms or
  less stops the process when the report is printed.  A time-out over 47.7 minutes
  overflows an int in every recorded call.

* C65: a second finish() of a Sender can give another code than the first, in both
  directions (C65_code_refuted): the first uses failed sources, failed directories and
  the number of bytes, the following only the codes of the threads.

* C66: Counter::merge says it works as if all data had been set on one counter, but
  never takes over realMin_, and takes 0 for minimum and maximum of a counter that is
  still empty (C66_merge_refuted, C66_merge_new_refuted). Percentiles after merging
  values below the target's minimum are too high. reset() keeps realMin_, so the
  percentiles of a histogram that was reset and merged into can be above its greatest
  value (C66_stale_min_refuted), as can those of negative values.
* C66: ThreadLocalSwapableNode merges the histograms of threads, made with the scale
  asked for, into histograms of scale 1: ranges and percentiles printed are wrong by the
  scale (C66_scale_refuted). Nothing but a test uses it.
* C66: the standard deviation is 0 if the sum is no int (C66_deviation_refuted); two
  values of -2^31 overflow the sum of squares (C66_overflow_refuted).

* C67: the receiver takes the total size from the sender. If more arrives, the bar on a
  terminal grows without bound, and from 429497 times the announced size on the product
  of percentage and width overflows an int (C67_claim_refuted). The percentage overflows
  from 92 PB on.

* C68: checkForAbort reads one byte and gives up when it is not an abort, but heart beats
  sent before the abort are in front of it. The receiver sends one every fifth of the
  time-out, the sender reads them every ten time-outs, so with default options a receiver
  that was busy for more than a second and then aborts (a full disk, for instance) is
  not heard: the sender reconnects and in the end reports a connection error instead of
  the reason (C68_abort_lost). Reading heart beats may also swallow the abort; its error
  is ignored (C68_swallowed_refuted).

* C69: an explicit `static_ports=false` is overridden by a start port, and with the type
  disk a start port does not make the ports static (C69_static_refuted). In a list of
  files a blank line ends the process (C69_blank_refuted), an empty column is dropped so
  that the next one takes its place (C69_columns_refuted), and the comment in the code
  says the columns are separated by a space, but it is a tab. With
  `exit_on_bad_flags=false` a bad flag turns `wdt -` into a receiver
  (C69_minus_refuted).

* C71: in a program that links wdt, a flag of the program called `start_port` or
  `num_ports` (without `wdt_`) counts as if wdt's own was given: the ports become static,
  and the type disk leaves their number (C71_foreign_refuted).

**Reading only**

* traverseDestinationDir does not look at the result of buildQueueSynchronously.

* The throttler is created without configureOptions, and single_request_limit is
  the buffer size in practice; with both rates set, a call that slept for the
  average rate is not charged to the bucket.
* Error paths log key text or whole URLs (EncryptionUtils.cpp,
  WdtTransferRequest.cpp:313).
* After a failed partial write finalizeWrites still sends the tag.
* processErrCmd with a negative length declares an array of negative size;
  sendGlobalCheckpoint stores its length in an int16.
* DONE before SETTINGS (or a read time-out of zero or less) fails a check in the
  receiver.
* A sender can name one of its files like the transfer log.
* createSender for an id that exists takes a slot for a moment.
* `Checkpoint::hasPartialBlockInfo` and part of the negative checks of
  readFileChunks are dead code.
