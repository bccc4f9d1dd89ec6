# Formal model of facebook/wdt — design

The model and all proofs are Coq 8.16.1 sources below `rocq/theories` (logical
root `Verif`). Citations in comments are `file:lines` relative to `/repo`.
`properties.jsonl` lists the properties, `MANIFEST.json` the theorems claimed for
each, `seeded/LOG.jsonl` the wrong programs the theorems were tried on.

## Layout

| directory | content |
|---|---|
| `Model/` | total, computable functions and transition relations that follow the C++ function by function; every definition cites the lines it models and says where it simplifies; no proofs |
| `Spec/` | the small vocabulary the property theorems are stated in, independent of how the model computes |
| `Proofs/` | lemmas (`…Facts`), invariants, witnesses of refutations |
| `Props/` | only property theorems, each closed by `exact` of a lemma, with `Print Assumptions` below it and an `Example` showing a concrete non-trivial case that meets its hypotheses |

`tools/project.py` regenerates the file list of `_CoqProject`,
`tools/manifest.py` regenerates `MANIFEST.json` from the theorems in `Props/` and
the notes in `tools/notes.json`.

## Reading the theorems

* A theorem is named `Cnn_…` after its property. All are proved for all inputs,
  states and executions of the model; none is bounded by a computation.
* A statement (or part of one) that is false of the model is proved in negated
  form as `Cnn_…_refuted`, with a concrete witness. These are findings about the
  code; see "Findings". The positive theorems of the same property state the
  exact conditions under which the claim holds.
* No theorem carries the suffix `_partial`. Where a theorem needs a condition on
  the environment, the note below its property says so, and usually a refutation
  shows that it cannot be dropped.

## Modelling conventions

* `outcome A` is `Ret a`, `Crash` (a failed `WDT_CHECK`/`CHECK`, which aborts the
  process) or `Undef` (undefined behaviour: access out of bounds, signed overflow
  where it can occur, null dereference). Neither is assumed away.
* Bytes are integers in `[0,256)`, byte strings are lists. Machine integers are
  mathematical integers; wrapping or overflow is written out where a value can
  leave its type (`u64`, `s64`, `to_i32`, `sx`, explicit `Undef`).
* Arrays are lists with partial access (`rd`, `upd`), so an access outside is
  visible.
* Error codes are the numbers of `ErrorCodes.h`.
* Threads: small-step interleaving. One step is one stretch of code executed
  under a lock, or one access to shared state. The scheduler is arbitrary, and so
  are spurious wake-ups and the choice of `notify_one`. Threads are any number.
* Network, file system, clock, peer and user are inputs: lists of answers or
  events over which the theorems quantify.
* Loops are structural recursion, or recursion on fuel whose exhaustion is
  `Undef` (or excluded by a lemma that the fuel suffices).

## Code modelled

| model file | code | left out |
|---|---|---|
| `Varint` | util/SerializationUtil.{h,cpp} | — |
| `ProtocolCodec` | Protocol.{h,cpp} (all messages, negotiation) | — |
| `Intervals` | FileChunksInfo: merge, complement, totals | the choice std::sort makes among equal keys (all choices are covered by a theorem) |
| `ChunkList` | ReceiverThread::sendFileChunks, SenderThread::readFileChunks | sockets as reliable byte streams here |
| `SourceQueue` | DirectorySourceQueue: queue, comparator, cutting, sequence ids, deletions, resumption list | directory exploration (in `Explore`), symbolic links |
| `Explore` | DirectorySourceQueue: explore, enqueueFiles, buildQueueSynchronously | regular expressions are predicates |
| `QueueMonitor` | locking and condition variable of DirectorySourceQueue | — |
| `FileSource` | FileByteSource, read loop of sendOneByteSource | buffer allocation |
| `Stats`, `Report` | TransferStats, TransferReport, WdtBase abort codes and buffer size | printing; progress is in `Progress` |
| `History` | ThreadTransferHistory, Sender::validateTransferStats | — |
| `SenderRetry` | SenderThread connect/retry loops, waiting for the answer | sleeps take no step |
| `SendStream`, `Handshake` | bytes written by SenderThread | — |
| `RecvConn` | ReceiverThread: buffer handling, commands, blocks | heart beats (see `HeartBeat`), throttling calls |
| `RecvSession` | ReceiverThread states, global checkpoints, ThreadsController use, sessions | bytes (in `RecvConn`) |
| `ThreadsCtl` | ThreadsController, Barrier, Funnel, execute at start/end | — |
| `TransferLog` | TransferLogManager: codecs, parser, repair, compaction | failing system calls, locking of the log file; the writer thread is in `LogSession` |
| `LogSession` | the log's writer thread, header funnel, start and close of the log in Receiver | failed writes of single entries, compaction (in `TransferLog`) |
| `CrashLog` | FileCreator, FileWriter, block logging at the grain of single system calls | crash of the whole machine (fsync) |
| `TreeResume` | Receiver: init, traverseDestinationDir, addTransferLogHeader, fixAndCloseTransferLog; the log's header entries when resuming from the directory tree | threads race only where a theorem says so; entries in the log that are not headers or invalidations |
| `FileAlloc` | FileCreator: allocation map, mutex, condition variables | — |
| `PathOps` | FileCreator, FileWriter::open: paths given to the system | symbolic links |
| `DiskIO` | FileWriter::write | O_DIRECT alignment of the writer does not exist in the code |
| `Socket` | WdtSocket encrypted read/write, IV changes, tags | OpenSSL is a key stream and a tag function |
| `SocketLife` | WdtSocket: settings of a direction, unencrypted peers, ends of the directions, close, next connection | the key has the right length; OpenSSL calls succeed; no aborts |
| `Connect` | ClientSocket::connect, the loop around ::read and ::write | only waiting takes time; names, socket options and the peer's address left out |
| `Listen` | ServerSocket: listen, accept, close; acceptWithTimeout's time | only waiting takes time; socket options and the peer's name left out |
| `Negotiate` | processAbortCmd, processVersionMismatch, setFooterType, the loop in start(), negotiateProtocol, init | what a thread does with its connection is one state; a thread without a buffer left out |
| `Perf` | PerfStatReport: addPerfStat, +=, << | counters are mathematical integers; the layout of the text |
| `Life` | start, finish, progress reporting and status of Sender and Receiver, WdtThread::startThread/finish | what the threads do (they end at any time); reads of members while start() writes them |
| `Hist` | util/Stats.cpp, Counter and Histogram of util/Stats.h | doubles are rationals; the number format of what is printed; PeriodicCounters |
| `Progress` | ProgressReporter::progress/displayProgress, the loops of Sender::reportProgress and Receiver::progressTracker | throughputs are pairs of bytes and ticks; log10 of a double is exact (it is below 10^15 files); logProgress |
| `HeartBeat` | ReceiverThread::sendHeartBeat, SenderThread::readHeartBeats, checkForAbort, the first byte in readReceiverCmd, the switch in sendSettings, the loop of sendOneByteSource as far as the buffer is concerned | an answer, with the WAITs before it, is sent in one piece; the receiver sends heart beats only while it processes blocks of the current round; TCP delivers what was sent before a close |
| `CmdLine` | wdtCmdLine.cpp: main, readManifest, setupAbortChecker, cancelAbort; WdtOptions.cpp: modifyOptions and the predicates; the checks at the start of Receiver::init | gflags parses the flags; log and usage texts; fork |
| `DirTree` | FileCreator: createFile, createDirRecursively, dirCreated, by single system calls of many threads | names are numbers, no `.` or `..`; rights, links, full disks; createdDirs_ grows only (resetDirCache between sessions) |
| `Flags` | WdtFlags: initializeFromFlags, getUserSpecifiedOptions, names of flags; SignalSubscriber | gflags is a list of flags; only the options modifyOptions looks at |
| `LogLock` | TransferLogManager: openLog, checkLog, close, unlink, renameBuggyLog, as Receiver calls them | processes step one system call at a time; of a log only whether it is invalid |
| `LogChecks` | TransferLogManager: invalidateDirectory, writeLogHeader, fsyncLog, verifySenderIp with failing writes; Receiver: addTransferLogHeader, fixAndCloseTransferLog | one thread; the entries of the writer thread and the compaction are elsewhere |
| `Throttler` | Throttler | doubles are exact rationals |
| `Uri` | WdtTransferRequest, WdtUri, EncryptionParams text forms | reading key files, environment |
| `Resource` | WdtResourceController, Wdt.cpp | throttler objects |
| `Transfer` | sender threads, receiver threads and their connections together | abort, renegotiation of the protocol version, failures of the file system after a write returned |

Not modelled at all: PeriodicCounters (util/Stats.h),
bench, and everything outside the repository: TCP, the kernel's file systems,
OpenSSL, folly, gflags.

## Trusted base

* The Coq 8.16.1 kernel (including `vm_compute`, used for the witnesses and
  re-checked by `coqchk`).
* What `Print Assumptions` lists: every theorem in `Props/` is **closed under the
  global context** — no axiom at all, neither own nor from a library. (`coqchk -o`
  lists the axioms of `Coq.ssr.ssrunder`, an interface loaded with `lia`'s
  libraries; no theorem depends on them.)
* The faithfulness of the hand-written model to the cited lines. The code was
  read, not run.
* The behaviour granted to the environment, stated where it is used: POSIX
  `write`, `ftruncate`, `fallocate`, `rename` semantics on byte lists
  (`DiskIO`, `TransferLog`), mutexes and condition variables as in the C++
  standard, TCP delivering a prefix of what was written, in order.
* No assumption is made about the cipher beyond being a key stream with a tag of
  16 bytes, and none about CRC32C beyond being the function defined in `RecvConn`.

## Properties

