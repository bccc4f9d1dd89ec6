{"id": "C01", "title": "Variable-length integers survive encode/decode", "statement": "Every 64-bit unsigned integer, and every signed 64/32-bit integer through the zig-zag and non-negative forms, encodes to between 1 and 9 bytes; decoding those bytes followed by any other bytes yields the same integer and leaves exactly the following bytes unread.", "quantifier": "every 64-bit value, every trailing byte string", "why_tests_cant": "2^64 values and unbounded suffixes; the 9th byte is a special case (8 payload bits, sign-extended char) that sampling rarely reaches", "anchors": ["util/SerializationUtil.cpp: encodeVarU64, decodeVarU64, encodeVarI64, decodeInt64, encodeVarI64C, decodeInt64C, decodeInt32C", "util/SerializationUtil.h: encodeZigZag, decodeZigZag"]}
{"id": "C02", "title": "Integer decoders are safe on hostile input", "statement": "Given arbitrary bytes from the network, an integer decoder either fails or returns a value in the range its type promises (non-negative, 32-bit, ...), and it never advances past the end of the bytes it was given.", "quantifier": "every byte string, every starting position", "why_tests_cant": "the input space is all byte strings; fuzzing samples it", "anchors": ["util/SerializationUtil.cpp: decodeVarU64, decodeInt64C, decodeInt32, decodeInt32C, decodeInt16CFixedLength, decodeInt64CFixedLength"]}
{"id": "C03", "title": "Encoders never write outside the room they were given", "statement": "Encoding an integer or a string into a buffer region [pos, max) writes only inside that region; it succeeds exactly when the encoding fits; on failure of an integer encode the caller's position is unchanged.", "quantifier": "every value, every buffer, every position and limit", "why_tests_cant": "off-by-one at every boundary value and every limit", "anchors": ["util/SerializationUtil.cpp: encodeVarU64, encodeString"]}
{"id": "C04", "title": "Length-prefixed strings survive encode/decode and reject hostile lengths", "statement": "Any byte string shorter than 2^63 encodes to a length prefix and its bytes, decodes back to itself with any suffix left over, and a declared length larger than the bytes available is rejected.", "quantifier": "every byte string, every suffix, every hostile length prefix", "why_tests_cant": "unbounded strings and lengths up to 2^64-1", "anchors": ["util/SerializationUtil.cpp: encodeString, decodeString"]}
{"id": "C05", "title": "Block headers survive the wire at every protocol version", "statement": "A block header (file name, sequence id, data size, offset, file size, allocation status, previous sequence id) written by a sender is read back identically by a receiver using the same negotiated version, except for the fields that the version does not carry, which take their documented default.", "quantifier": "every block description, every protocol version", "why_tests_cant": "product of unbounded strings, 64-bit fields and versions", "anchors": ["Protocol.cpp: Protocol::encodeHeader, Protocol::decodeHeader"]}
{"id": "C06", "title": "Control messages survive the wire at every protocol version", "statement": "Settings, checkpoints, done, size, abort, chunk and footer messages written by one peer are read back identically by the other at the same version, consume exactly the bytes written and fit in the maximum length the protocol reserves for them.", "quantifier": "every message value, every protocol version, every trailing bytes", "why_tests_cant": "product of 64-bit fields and versions; size bounds need the maximum over all values", "anchors": ["Protocol.cpp: encodeSettings, decodeSettings, encodeCheckpoints, decodeCheckpoints, encodeDone, decodeDone, encodeSize, decodeSize, encodeAbort, decodeAbort, encodeChunksCmd, decodeChunksCmd, encodeFooter, decodeFooter", "Protocol.h: kMaxDone, kMaxSize, kMaxSettings, kMaxFooter, kMaxHeader, kChunksCmdLen, getMaxLocalCheckpointLength"]}
{"id": "C07", "title": "The list of already received files reaches the sender complete", "statement": "When a resuming receiver sends its list of already received file pieces in buffer-sized messages, the exchange terminates and the sender ends up with exactly that list, in order, with nothing repeated.", "quantifier": "every list of files and pieces, every buffer size", "why_tests_cant": "depends on how a list of unbounded entries straddles buffer boundaries", "anchors": ["Protocol.cpp: encodeFileChunksInfoList, decodeFileChunksInfoList, maxEncodeLen", "ReceiverThread.cpp: sendFileChunks", "SenderThread.cpp: readFileChunks"]}
{"id": "C08", "title": "Version negotiation picks one version both sides support", "statement": "Negotiating between two peers gives both peers the same version whichever computes it; the result never exceeds either peer's version; it is the no-agreement value exactly when one of them is older than the oldest supported version.", "quantifier": "every pair of versions", "why_tests_cant": "all pairs, including versions not yet released", "anchors": ["Protocol.cpp: Protocol::negotiateProtocol"]}
{"id": "C09", "title": "Merging received pieces and computing what is missing are exact", "statement": "After merging, the pieces of a file are sorted, disjoint and not adjacent, and cover exactly the bytes the original pieces covered. The missing pieces computed for a file size are exactly the bytes of the file not covered.", "quantifier": "every multiset of pieces, every file size", "why_tests_cant": "unbounded lists of intervals with arbitrary overlaps", "anchors": ["Protocol.cpp: FileChunksInfo::mergeChunks, getRemainingChunks, getTotalChunkSize"]}
{"id": "C10", "title": "A file is cut into blocks that cover it exactly once", "statement": "For any file size, block size and set of already received pieces, the blocks put into the send queue cover every missing byte exactly once, never cover a byte already received, never exceed the block size, and a new empty file still gets one (empty) block. Queueing terminates.", "quantifier": "every file size, block size, set of received pieces, existing size on the receiver", "why_tests_cant": "arithmetic over unbounded sizes and lists", "anchors": ["util/DirectorySourceQueue.cpp: createIntoQueueInternal, createIntoQueue"]}
{"id": "C11", "title": "The send queue hands out every block once, in the documented priority order", "statement": "Between discovery, hand-out and return, the multiset of blocks is preserved: each block is in the queue or handed out, never both, never lost. Each hand-out is a block that no queued block precedes (deletions first, then fewest failures, then largest, then lowest offset, then name), and this order is total.", "quantifier": "every sequence of enqueue, hand-out and return operations", "why_tests_cant": "unbounded operation sequences; heap order must hold for every content", "anchors": ["util/DirectorySourceQueue.h: SourceComparator", "util/DirectorySourceQueue.cpp: getNextSource, returnToQueue, createIntoQueueInternal"]}
{"id": "C12", "title": "Two files never share a sequence id", "statement": "Within one sender, including one that resumes from a list of previously received files, two different files are never announced with the same sequence id, and an id never collides with one of the previously received list unless it is the same file continued.", "quantifier": "every list of previously received files and every discovery order", "why_tests_cant": "depends on arbitrary id gaps in the previously received list", "anchors": ["util/DirectorySourceQueue.cpp: setPreviouslyReceivedChunks, createIntoQueueInternal, enqueueFilesToBeDeleted"]}
{"id": "C13", "title": "A sender thread asking for work neither sleeps forever nor gives up early", "statement": "A thread asking for the next block gets a block, or gets 'no more' only if discovery has finished and the queue is empty at that moment. In no schedule does a thread stay asleep while a block is queued that nobody has been woken for, or while discovery is finished and the queue is empty.", "quantifier": "every number of threads and every interleaving of discovery, hand-out, return and wake-up", "why_tests_cant": "schedules cannot be enumerated by tests; lost wake-ups need exact interleavings", "anchors": ["util/DirectorySourceQueue.cpp: getNextSource, smartNotify, returnToQueue, enqueueFiles, buildQueueSynchronously"]}
{"id": "C14", "title": "After a reconnect exactly the unconfirmed blocks are sent again", "statement": "When a receiver confirms the first n blocks of a connection plus r bytes of the next, the sender keeps exactly those n as delivered, puts each later block back in the queue exactly once, and the partially received block comes back starting r bytes further and r bytes shorter.", "quantifier": "every history of sent blocks, every confirmation", "why_tests_cant": "unbounded histories and all confirmation values", "anchors": ["util/ThreadTransferHistory.cpp: setCheckpointAndReturnToQueue, markSourceAsFailed, returnUnackedSourcesToQueue"]}
{"id": "C15", "title": "A wrong confirmation is refused and changes nothing", "statement": "A confirmation of more blocks than were sent, of a block other than the next unconfirmed one, or of fewer blocks than previously confirmed is refused; the queue, the history and the statistics are unchanged.", "quantifier": "every history, every confirmation message", "why_tests_cant": "hostile or stale confirmations are arbitrary", "anchors": ["util/ThreadTransferHistory.cpp: validateCheckpoint, setCheckpointAndReturnToQueue"]}
{"id": "C16", "title": "Sent-byte statistics add up", "statement": "At every moment the effective data bytes reported for a thread equal the data bytes of the blocks it has sent that were not taken back plus the partial bytes confirmed for blocks taken back; totals over threads plus totals over queued blocks account for every byte once.", "quantifier": "every sequence of sends, confirmations, failures and returns", "why_tests_cant": "unbounded sequences; Sender::finish aborts the process when these sums differ", "anchors": ["util/ThreadTransferHistory.cpp: addSource, markSourceAsFailed, popAckedSourceStats", "Sender.cpp: validateTransferStats"]}
{"id": "C17", "title": "Transfer log entries survive encode/decode", "statement": "Each kind of log entry written by the receiver is read back with the same fields, entries fit the maximum entry size, and an entry with missing or extra bytes is rejected.", "quantifier": "every entry content, every malformed entry", "why_tests_cant": "unbounded names and 64-bit fields", "anchors": ["util/TransferLogManager.cpp: LogEncoderDecoder"]}
{"id": "C18", "title": "A torn log tail never corrupts recovery", "statement": "If the receiver dies at any byte while appending to its log, recovery from the truncated file gives the same result as recovery from the longest prefix of whole entries, and repairs the file to that prefix.", "quantifier": "every log content, every crash point (byte offset)", "why_tests_cant": "every byte offset of every log", "anchors": ["util/TransferLogManager.cpp: LogParser::parseLog, LogParser::truncateExtraBytesAtEnd, TransferLogManager::writeEntriesToDisk"]}
{"id": "C19", "title": "Recovery reports only pieces that were logged as written", "statement": "Every piece that recovery reports for a file was logged as written for the current incarnation of that file, lies within the file size logged and present on disk, and every such valid logged piece is reported; pieces of an invalidated file are not reported.", "quantifier": "every sequence of log entries and every on-disk file size", "why_tests_cant": "all histories of creations, writes, resizes, invalidations", "anchors": ["util/TransferLogManager.cpp: processFileCreationEntry, processFileResizeEntry, processBlockWriteEntry, processFileInvalidationEntry, parseLog"]}
{"id": "C20", "title": "Recovery is refused when the session does not match", "statement": "After a header with a different recovery id or configuration, or after a directory invalidation, nothing logged before is reported as received until a new matching header is written.", "quantifier": "every log, every recovery id and configuration", "why_tests_cant": "all orders of headers and invalidations", "anchors": ["util/TransferLogManager.cpp: processHeaderEntry, processDirectoryInvalidationEntry, parseLog, verifySenderIp, invalidateDirectory"]}
{"id": "C21", "title": "Compacting the log does not change what is recovered", "statement": "After a successful transfer, recovery from the compacted log reports the same files, sizes and received pieces as recovery from the original log.", "quantifier": "every log of a completed transfer", "why_tests_cant": "all logs; equality of two parsers' results", "anchors": ["util/TransferLogManager.cpp: compactLog"]}
{"id": "C22", "title": "A destination file is allocated once and all blocks wait for it", "statement": "Of the threads receiving blocks of one file, exactly one allocates it; no other opens it before the allocation succeeded; if allocation fails all of them report failure; no waiting thread sleeps after the allocation has ended.", "quantifier": "every number of threads and every interleaving", "why_tests_cant": "needs exact interleavings of two locks and a condition variable", "anchors": ["util/FileCreator.cpp: openForBlocks, openForFirstBlock, waitForAllocationFinish"]}
{"id": "C23", "title": "A reported write put all bytes at the right place", "statement": "When the file writer reports success the file holds exactly the given bytes at the given offset, whatever short writes or interrupts the OS returned, and bytes outside the range are unchanged.", "quantifier": "every data, every sequence of OS write results", "why_tests_cant": "all short-write patterns", "anchors": ["util/FileWriter.cpp: FileWriter::write"]}
{"id": "C24", "title": "Reading a block yields exactly the file's bytes of the block", "statement": "Successive reads of a block return consecutive pieces of the file, together exactly the bytes [offset, offset+size) of the file, never more than the buffer holds, with aligned or ordinary reads; if the file shrank an error is reported instead of wrong data.", "quantifier": "every file content, offset, size, buffer size, short-read pattern", "why_tests_cant": "all short-read patterns and alignments", "anchors": ["util/FileByteSource.cpp: FileByteSource::read, advanceOffset"]}
{"id": "C25", "title": "A block counts as received only if all its bytes arrived and verify", "statement": "The receiver confirms and logs a block only after all its bytes were written to the file and, when checksums are enabled, the checksum matched; otherwise the block is not counted and will be sent again.", "quantifier": "every block, every stream content, every failure point", "why_tests_cant": "every failure point in the stream", "anchors": ["ReceiverThread.cpp: processFileCmd, markBlockVerified, markReceivedBlocksVerified"]}
{"id": "C26", "title": "Header parsing does not depend on how the network cuts the stream", "statement": "The receiver decodes the same block header whatever the sizes of the pieces in which the bytes arrive.", "quantifier": "every header, every segmentation of the stream", "why_tests_cant": "segmentations are exponential and timing-dependent", "anchors": ["ReceiverThread.cpp: readAtLeast, readNextCmd, processFileCmd"]}
{"id": "C27", "title": "The receive buffer is never overrun", "statement": "Whatever arrives, the receiver's reads into its buffer stay inside the buffer, its parsing position plus unread bytes never exceeds the buffer, and no internal sanity check aborts the process on well-formed traffic.", "quantifier": "every command sequence, every segmentation, every buffer size the options allow", "why_tests_cant": "all traffic and all segmentations", "anchors": ["ReceiverThread.cpp: readAtLeast, readAtMost, readNextCmd, processFileCmd, processSettingsCmd", "WdtBase.cpp: checkAndUpdateBufferSize"]}
{"id": "C28", "title": "The encrypted stream delivers the plaintext for every segmentation", "statement": "With authentication tags inserted every k bytes, the reader obtains exactly the bytes written, in order, for every sequence of write sizes and read sizes; data after a tag is delivered only once that tag verified; timeouts between reads do not break the stream.", "quantifier": "every plaintext, every write/read segmentation, every timeout position", "why_tests_cant": "exponential segmentations; timeout exactly at a tag boundary", "anchors": ["util/WdtSocket.cpp: computeNextTagOffset, readAndDecryptWithTag, encryptAndWriteWithTag, readWithTimeout, write, finalizeReads, finalizeWrites"]}
{"id": "C29", "title": "Both ends change the encryption IV at the same stream position", "statement": "Writer and reader switch IV at identical positions, and no single IV is used for more bytes than the configured limit (when the limit is at least the tag interval).", "quantifier": "every limit, tag interval and stream length", "why_tests_cant": "positions are functions of unbounded stream length", "anchors": ["util/WdtSocket.cpp: checkAndChangeEncryptionIv, checkAndChangeDecryptionIv"]}
{"id": "C30", "title": "The settings handshake works for every allowed transfer id", "statement": "For every transfer id up to the documented maximum length, the settings message sent by the sender is received and decoded identically by the receiver.", "quantifier": "every transfer id up to 1024 bytes, with and without resumption, every segmentation", "why_tests_cant": "only long ids together with resumption or unlucky segmentation fail", "anchors": ["SenderThread.cpp: sendSettings", "ReceiverThread.cpp: readNextCmd, processSettingsCmd", "Protocol.h: kMaxTransferIdLength, kMaxSettings, kMinBufLength"]}
{"id": "C31", "title": "The average-rate throttle holds for any number of threads", "statement": "With an average rate limit, at any time t after start the bytes of all completed throttle calls, over any number of threads and any interleaving, do not exceed rate times elapsed time.", "quantifier": "every number of threads, every schedule, every request sizes and times", "why_tests_cant": "real-time schedules cannot be enumerated", "anchors": ["Throttler.cpp: limitInternal, limitSingleRequest, calculateSleep, averageThrottler"]}
{"id": "C32", "title": "The peak-rate throttle bounds bursts", "statement": "With only a peak rate and bucket limit, between any two completed calls the bytes passed do not exceed the bucket limit plus peak rate times elapsed time.", "quantifier": "every window, every schedule", "why_tests_cant": "all windows of all schedules", "anchors": ["Throttler.cpp: calculateSleep, configureOptions"]}
{"id": "C33", "title": "URL escaping is lossless and safe", "statement": "Any byte string escapes to a string without separators and unescapes back to itself; malformed escapes are rejected.", "quantifier": "every byte string", "why_tests_cant": "unbounded strings", "anchors": ["WdtTransferRequest.cpp: WdtUri::escape, WdtUri::unescape, toHex, fromHex"]}
{"id": "C34", "title": "A transfer request survives its connection URL", "statement": "The URL generated from a valid transfer request parses back into a request with the same host, ports, transfer id, namespace, destination id, version, encryption key, interval and flags.", "quantifier": "every valid request", "why_tests_cant": "unbounded strings, port lists with and without holes", "anchors": ["WdtTransferRequest.cpp: WdtUri::generateUrl, WdtUri::process, WdtTransferRequest::WdtTransferRequest, generateUrlInternal, serializePorts"]}
{"id": "C35", "title": "Log-safe text does not reveal the encryption key", "statement": "The loggable form of a request depends on the key only through a hash value and its type; two requests with equal hashes produce equal loggable text.", "quantifier": "every key and request", "why_tests_cant": "a non-interference statement over all key pairs", "anchors": ["util/EncryptionUtils.cpp: EncryptionParams::getLogSafeString", "WdtTransferRequest.cpp: getLogSafeString, generateUrlInternal"]}
{"id": "C36", "title": "Encryption parameters survive their text form", "statement": "Serialising a set encryption type and non-empty key and parsing the text gives the same type and key; malformed text (odd digits, missing separator, non-hex, out-of-range type) is rejected and leaves no key set.", "quantifier": "every type and key, every text", "why_tests_cant": "unbounded keys and texts", "anchors": ["util/EncryptionUtils.cpp: EncryptionParams::unserialize, getUrlSafeString"]}
{"id": "C37", "title": "No thread passes a barrier early and none is stuck", "statement": "No thread returns from the barrier until every thread still registered has arrived; once all have arrived or deregistered, every waiting thread is released.", "quantifier": "every number of threads, every interleaving of arrivals and deregistrations", "why_tests_cant": "interleavings", "anchors": ["util/ThreadsController.cpp: Barrier::execute, Barrier::deRegister, Barrier::checkForFinish"]}
{"id": "C38", "title": "The funnel lets one thread at a time do the work", "statement": "At most one thread is executing the funnelled work; after a success nobody executes it again; after a failure another thread may take over; each waiter eventually observes the outcome.", "quantifier": "every number of threads and interleaving", "why_tests_cant": "interleavings", "anchors": ["util/ThreadsController.cpp: Funnel"]}
{"id": "C39", "title": "Session start and end actions run exactly once", "statement": "With n threads each calling once, the start action runs exactly once, before any other caller returns, and the end action runs exactly once, when the last thread calls.", "quantifier": "every number of threads and every order", "why_tests_cant": "interleavings", "anchors": ["util/ThreadsController.h: ExecuteOnceFunc"]}
{"id": "C40", "title": "Sender and receiver quotas hold under concurrency", "statement": "In every interleaving of create, release and namespace operations, the number of live senders (receivers) never exceeds the global or the namespace limit, the global counter equals the sum over namespaces plus creations in flight, and a released slot becomes available again.", "quantifier": "every number of clients and every interleaving", "why_tests_cant": "two-level locking races", "anchors": ["WdtResourceController.cpp: createSender, releaseSender, createReceiver, releaseReceiver, deRegisterWdtNamespace"]}
{"id": "C41", "title": "A finished call leaves no quota behind", "statement": "After wdtSend returns, or wdtReceiveStart returns an error, the slot it took is free again.", "quantifier": "every request and every failure point", "why_tests_cant": "all failure points", "anchors": ["Wdt.cpp: wdtSend, wdtReceiveStart, wdtReceiveFinish, createWdtSender"]}
{"id": "C42", "title": "A sender that reports OK has sent everything", "statement": "If the sender's final report says OK then the effective data bytes equal the total size of the discovered files, at least one thread finished cleanly or all did, and no file or directory is reported failed.", "quantifier": "every combination of thread, source and directory results", "why_tests_cant": "all combinations", "anchors": ["Reporting.cpp: TransferReport::TransferReport, TransferStats::operator+="]}
{"id": "C43", "title": "A receiver that reports OK has received everything", "statement": "If the receiver's final report says OK then the number of blocks and, when known, bytes received equal what the sender announced, and no thread saw a decryption/authentication error.", "quantifier": "every combination of thread results, every order of aggregation", "why_tests_cant": "all combinations and orders", "anchors": ["Reporting.cpp: TransferReport::TransferReport(TransferStats&&), TransferStats::operator+="]}
{"id": "C44", "title": "A transfer that ends well delivered every byte", "statement": "When a sender thread ends with success, every block of every discovered file has been verified and written by the receiver, for every pattern of connection breaks, reconnects, partial blocks and port failures.", "quantifier": "every number of ports, every set of blocks, every failure pattern and interleaving", "why_tests_cant": "distributed executions with failures are unbounded", "anchors": ["SenderThread.cpp", "ReceiverThread.cpp", "util/ThreadTransferHistory.cpp", "Sender.cpp: finish"]}
{"id": "C45", "title": "A dead port does not lose data", "statement": "When one port fails permanently, its unconfirmed blocks are sent by the remaining ports; the receiver does not report the end of the transfer to any port before the failed port's confirmation has been delivered.", "quantifier": "every failure point and interleaving", "why_tests_cant": "interleavings with a late failing port", "anchors": ["ReceiverThread.cpp: finishWithError, checkForFinishOrNewCheckpoints, waitForFinishOrNewCheckpoint, sendGlobalCheckpoint", "SenderThread.cpp: processErrCmd", "util/ThreadTransferHistory.cpp: handleGlobalCheckpoint"]}
{"id": "C46", "title": "A sender thread cannot reconnect forever without progress", "statement": "The number of consecutive reconnects without any newly confirmed block or byte is bounded by the configured retries, and the number of reconnects with progress is bounded by the amount of data; so a sender thread ends.", "quantifier": "every sequence of connection results and confirmations", "why_tests_cant": "unbounded executions", "anchors": ["SenderThread.cpp: connect, readLocalCheckPoint, start", "util/ThreadTransferHistory.cpp: validateCheckpoint"]}
{"id": "C47", "title": "Waiting for a slow receiver ends", "statement": "While waiting for the receiver's answer, the sender keeps waiting only as long as the amount of unacknowledged network data decreases; it therefore stops after finitely many time-outs.", "quantifier": "every sequence of time-outs and unacknowledged byte counts", "why_tests_cant": "unbounded executions", "anchors": ["SenderThread.cpp: readNextReceiverCmd"]}
{"id": "C48", "title": "Only extra files are deleted on the receiver", "statement": "Deletion is requested exactly for files the receiver reported that the sender does not have; a file present on both sides is never deleted.", "quantifier": "every pair of file sets", "why_tests_cant": "all file sets", "anchors": ["util/DirectorySourceQueue.cpp: enqueueFilesToBeDeleted", "util/FileCreator.cpp: openForBlocks"]}
{"id": "C49", "title": "The receiver only touches files below its directory", "statement": "Whatever names a sender sends, files created, opened or deleted by the receiver are below its destination directory, and no name crashes the receiver.", "quantifier": "every file name", "why_tests_cant": "hostile names are unbounded", "anchors": ["util/FileCreator.cpp: createFile, openExistingFile, openForBlocks, getFullPath"]}
{"id": "C50", "title": "Resumption sends exactly what is missing", "statement": "For every file, bytes reported as already received are not sent again when the file is unchanged in size or grew (with preallocation on), and the previously-sent count plus the queued bytes equals the file size.", "quantifier": "every list of received pieces and every file size", "why_tests_cant": "all combinations", "anchors": ["util/DirectorySourceQueue.cpp: createIntoQueueInternal"]}
{"id": "C51", "title": "Abort codes keep their priority", "statement": "Once an application abort is recorded it stays until the end: a version mismatch never replaces it and recovery from a version mismatch never clears it.", "quantifier": "every sequence of aborts and clears from any threads", "why_tests_cant": "interleavings", "anchors": ["WdtBase.cpp: abort, clearAbort, getCurAbortCode"]}
{"id": "C52", "title": "Crash between writing data and logging it is safe", "statement": "If the receiver process dies at any point between file operations and log appends, the pieces recovery reports are on disk with the bytes that were received.", "quantifier": "every crash point of every sequence of receive operations", "why_tests_cant": "all crash points", "anchors": ["util/FileCreator.cpp: openAndSetSize, setFileSize", "ReceiverThread.cpp: processFileCmd, markBlockVerified", "util/TransferLogManager.cpp"]}
{"id": "C53", "title": "The receiver tells each port every global checkpoint exactly until it is acknowledged", "statement": "A port that stays connected is told every checkpoint added by failed ports, in order, each again after a reconnect until the sender's next command confirms it, and never a checkpoint of another session.", "quantifier": "every interleaving of new checkpoints, sends, breaks", "why_tests_cant": "interleavings", "anchors": ["ReceiverThread.cpp: sendGlobalCheckpoint, readNextCmd, checkForFinishOrNewCheckpoints", "Receiver.cpp: addCheckpoint, getNewCheckpoints"]}
{"id": "C54", "title": "Buffer size adjustment yields a usable buffer", "statement": "For every configured buffer size, the adjusted size is a multiple of the disk block size, at least the maximum header size, at least the configured size, and less than one disk block larger than needed.", "quantifier": "every configured size", "why_tests_cant": "all integers", "anchors": ["WdtBase.cpp: checkAndUpdateBufferSize"]}
{"id": "C55", "title": "Aggregated error codes do not depend on thread order", "statement": "Combining thread results gives the most serious error of any thread regardless of the order in which threads are combined.", "quantifier": "every list of results, every permutation", "why_tests_cant": "all permutations", "anchors": ["ErrorCodes.cpp: getMoreInterestingError", "Reporting.cpp: TransferStats::operator+="]}
{"id": "C56", "title": "Discovery finds exactly the files the patterns select", "statement": "Exploration of the source directory ends (also when symbolic links form cycles) and queues every regular file below the root that the include and exclude patterns select and that is not below a pruned directory, exactly once and with its size; nothing else is queued. If something could not be examined, exploration reports an error and the sender's report is not OK.", "quantifier": "every finite file system, every order of directory entries, every entry type reported, all patterns, links followed or not, every pattern of failing calls", "why_tests_cant": "unbounded trees, link graphs and combinations of failing system calls", "anchors": ["util/DirectorySourceQueue.cpp: DirectorySourceQueue::explore", "util/DirectorySourceQueue.cpp: DirectorySourceQueue::enqueueFiles", "util/DirectorySourceQueue.cpp: DirectorySourceQueue::buildQueueSynchronously"]}
{"id": "C57", "title": "What is logged during a session is on disk when the log is closed", "statement": "Whatever the interleaving of the receiver's threads, the log's writer thread and the closing of the log, the entries about files that the log takes reach the file in the order they were taken, none twice; when the log has been closed and no write failed, all of them are there. For a session that starts anew, the recovery that follows, also after a failed write or in the middle of the session, reports nothing or exactly what a first part of this session's entries says.", "quantifier": "every log left by a recovery, every sequence of entries, every interleaving of additions, header, wake-ups and writes of the writer thread, failures and shutdown", "why_tests_cant": "the loss needs one particular interleaving of three threads, and shows only when a later transfer tries to resume", "anchors": ["util/TransferLogManager.cpp: TransferLogManager::threadProcWriteEntriesToDisk", "util/TransferLogManager.cpp: TransferLogManager::startThread", "util/TransferLogManager.cpp: TransferLogManager::closeLog", "Receiver.cpp: Receiver::addTransferLogHeader", "util/ThreadsController.cpp: Funnel::getStatus"]}
{"id": "C58", "title": "A receiver that resumes from its directory tree reports only bytes that are right", "statement": "With resumption based on the directory tree, every byte the receiver tells the next sender it already has is on disk and equals the sender's, after any number of earlier sessions, each ended by death between any two steps or by success; the sender then sends exactly what is missing. Log entries about files play no part, and a directory is trusted only if its log says so and belongs to this sender.", "quantifier": "every directory, every sequence of sessions and places of death, every log, all files and sizes", "why_tests_cant": "the damage shows only after a death at one particular step followed by a resumed session", "anchors": ["Receiver.cpp: Receiver::init", "Receiver.cpp: Receiver::traverseDestinationDir", "Receiver.cpp: Receiver::fixAndCloseTransferLog", "util/TransferLogManager.cpp: TransferLogManager::verifySenderIp", "util/TransferLogManager.cpp: TransferLogManager::parseAndMatch", "util/DirectorySourceQueue.cpp: DirectorySourceQueue::createIntoQueue"]}
{"id": "C59", "title": "A socket with a key delivers and sends only what the key protects", "statement": "Over any number of connections on one socket, with any calls in any order and any bytes from the network, a socket that has a key delivers only bytes obtained under the key behind a settings command, with every full interval followed by its right tag; a found end of stream means the tag of all of it was there; what it puts on the wire is the settings with a new IV and the encrypted form of what it was given; two such sockets understand each other for every segmentation; no check fails unless a direction is used after its end; a closed socket keeps nothing of a connection and every connection is closed once.", "quantifier": "every sequence of connections and calls, all network bytes and segmentations, all write failures, both encryption types, all intervals", "why_tests_cant": "tests use right peers; what a peer can make of the settings and of reuse of the socket needs all byte streams", "anchors": ["util/WdtSocket.cpp: WdtSocket::readEncryptionSettingsOnce", "util/WdtSocket.cpp: WdtSocket::writeEncryptionSettingsOnce", "util/WdtSocket.cpp: WdtSocket::readWithTimeout", "util/WdtSocket.cpp: WdtSocket::write", "util/WdtSocket.cpp: WdtSocket::finalizeReads", "util/WdtSocket.cpp: WdtSocket::closeConnectionInternal", "util/ServerSocket.cpp: ServerSocket::ServerSocket"]}
{"id": "C60", "title": "Connecting picks the first address that works and loses no descriptor", "statement": "ClientSocket::connect passes over addresses that fail at once and is decided by the first that does not; it answers OK exactly when it then holds a descriptor, which blocks and belongs to that address; every other descriptor it opened is closed, once, and waited for only while it did not block. Waiting takes at most the connect time-out for each address (with GCM also the read time-out for closing), in pieces no longer than the interval between checks for aborts; a connection that comes up in time is found when it is up. It returns if the system goes on answering.", "quantifier": "all lists of addresses, all answers of socket, fcntl, connect, poll, getsockopt and read with all their times, all options", "why_tests_cant": "tests connect to a local port that answers at once; leaks and waits show on particular failures of particular addresses only", "anchors": ["util/ClientSocket.cpp: ClientSocket::connect", "util/WdtSocket.cpp: WdtSocket::closeConnectionInternal", "util/WdtSocket.cpp: WdtSocket::ioWithAbortCheck"]}
{"id": "C61", "title": "A server socket keeps track of its descriptors, listens on one port and starves no address", "statement": "Whatever a receiver thread does with its server socket, in whatever order and whatever the system answers, the descriptors in use are exactly the listening ones, all bound to the port the socket names, and the connection accepted last from one of them; every other one was closed, once, and closing all leaves none. It listens on exactly the addresses that can be bound, with a port selected by the first of them if none is given. An accept is over when its time is over and finds a connection that arrives before; it takes the first ready address in the ring, so that an address that stays ready is served within as many accepts as there are addresses. No index is outside its array and no check fails if there is time to wait.", "quantifier": "all sequences of listening, accepting, closing; all answers of getaddrinfo, socket, bind, listen, getsockname, poll, accept; all options", "why_tests_cant": "tests listen on one local address where every call succeeds", "anchors": ["util/ServerSocket.cpp: ServerSocket::listen", "util/ServerSocket.cpp: ServerSocket::listenInternal", "util/ServerSocket.cpp: ServerSocket::getSelectedPortAndNewAddress", "util/ServerSocket.cpp: ServerSocket::acceptNextConnection", "util/ServerSocket.cpp: ServerSocket::closeAllNoCheck", "ReceiverThread.cpp: ReceiverThread::acceptWithTimeout"]}
{"id": "C62", "title": "A version mismatch is settled once and every thread that goes on agrees", "statement": "When receivers refuse the protocol version of a sender, its threads settle the matter once: the version changes at most once, from the one it started with to a supported, not newer one that was offered and that every thread with an offer was offered; every thread that exchanges data runs the version of the sender; after a failure nobody exchanges data; when the others learn the result the abort code no longer says version mismatch. No check fails as long as receivers follow the protocol, and the threads neither run for ever by themselves nor get stuck: each ends up exchanging data, gone, or waiting for one that exchanges data.", "quantifier": "any number of threads, any schedule of steps between accesses to shared state, any offers and other aborts from peers and application at any time, spurious wake-ups", "why_tests_cant": "the tests negotiate with one receiver of one older version; the order in which threads learn of the mismatch, leave, or are aborted by others is up to the scheduler", "anchors": ["SenderThread.cpp: SenderThread::processVersionMismatch", "SenderThread.cpp: SenderThread::processAbortCmd", "SenderThread.cpp: SenderThread::start", "SenderThread.cpp: SenderThread::setFooterType", "WdtBase.cpp: WdtBase::abort", "WdtBase.cpp: WdtBase::clearAbort", "Sender.cpp: Sender::getNegotiatedProtocols"]}
{"id": "C63", "title": "Initialisation leaves a usable protocol version or an error", "statement": "Which version a sender or receiver runs after init, which requests are refused and which stop the process, is determined exactly: a sender stops the process if and only if the version of its request is at most 0, a receiver if and only if it is 0 and nothing else is wrong; otherwise the version is the smaller of the requested and the newest one, or 0 if the requested one is older than any supported.", "quantifier": "all versions, error codes and requests", "why_tests_cant": "tests use the versions that exist; the failing ones come from URLs written by others", "anchors": ["WdtBase.cpp: WdtBase::negotiateProtocol", "WdtBase.cpp: WdtBase::validateTransferRequest", "Sender.cpp: Sender::init", "Sender.cpp: Sender::validateTransferRequest", "Receiver.cpp: Receiver::init"]}
{"id": "C64", "title": "The performance report says what was measured", "statement": "After any sequence of recorded calls and of reports added to others, the number of calls, their sum and their greatest time are those of the calls recorded, the printed percentiles are the elements at that position in the sorted times and the histogram counts every time in the one slot it belongs to. The smallest time is right only for the first type of call; for all others 0 is given. Printing stops the process exactly if a recorded time is -1 ms or less.", "quantifier": "all numbers of reports, all sequences of operations, all times and time-outs", "why_tests_cant": "the report is only logged; no test reads it", "anchors": ["Reporting.cpp: PerfStatReport::addPerfStat", "Reporting.cpp: PerfStatReport::operator+=", "Reporting.cpp: operator<<(ostream, PerfStatReport)", "Reporting.h: PerfStatReport::minValueMicros_"]}
{"id": "C65", "title": "start and finish of a Sender or Receiver join every thread and return", "statement": "While finish is called only after a start that returned and start by one caller at a time, no order of callers, worker threads, directory thread and progress thread stops the process or makes the status go back; start gives OK at most once; a report is returned only after all threads were joined and by exactly one call as the first; and every call returns. finish during start stops the process or leaves threads running, and two starts of a Receiver stop it. A Receiver that runs for ever has the status NOT_STARTED from its second transfer on.", "quantifier": "all numbers of threads and callers, all interleavings", "why_tests_cant": "tests call start and finish once and from one thread", "anchors": ["Sender.cpp: Sender::start", "Sender.cpp: Sender::finish", "Sender.cpp: Sender::getTransferReport", "Receiver.cpp: Receiver::start", "Receiver.cpp: Receiver::finish", "Receiver.cpp: Receiver::runForever", "Receiver.cpp: Receiver::progressTracker", "WdtBase.cpp: WdtBase::setTransferStatus", "WdtThread.cpp: WdtThread::startThread", "WdtThread.cpp: WdtThread::finish"]}
{"id": "C66", "title": "counters and histograms say what was recorded", "statement": "For every order of recording, merging and resetting, number, sum, sum of squares and slots of a histogram are those of the values that went into it. Minimum and maximum are right if values are only recorded. A percentile lies within the right slot, within minimum and maximum, and grows with the percentage, for values that are not negative, whether recorded or merged into a new histogram of the same scale. Merging does not take over the true minimum, a reset keeps it, and merging into a histogram of another scale gives wrong ranges.", "quantifier": "all values, scales, offsets, percentages and orders of operations", "why_tests_cant": "tests record a few small values and merge only histograms of the same scale", "anchors": ["util/Stats.cpp: Counter::record", "util/Stats.cpp: Counter::merge", "util/Stats.cpp: Counter::getStdDev", "util/Stats.cpp: initHistLookup", "util/Stats.cpp: Histogram::record", "util/Stats.cpp: Histogram::merge", "util/Stats.cpp: Histogram::calcPercentile", "util/Stats.cpp: Histogram::print", "util/Stats.h: ThreadLocalSwapableNode::mergeAndReset"]}
{"id": "C67", "title": "reports on progress show the right percentage in a line of fixed length", "statement": "While no more bytes were transferred than found, the percentage shown is right, never above 100, 100 exactly when all bytes found are transferred, and does not fall while the total stays; the line shown always has the same length; the recent throughput is that of the last complete interval. A sender that sends more than it announced makes the line of the receiver arbitrarily long or undefined.", "quantifier": "all numbers of bytes and files, all intervals and sequences of samples", "why_tests_cant": "tests show no progress bar", "anchors": ["Reporting.cpp: ProgressReporter::progress", "Reporting.cpp: ProgressReporter::displayProgress", "Sender.cpp: Sender::reportProgress", "Receiver.cpp: Receiver::progressTracker"]}
{"id": "C68", "title": "heart beats do not disturb the exchange, except that they hide aborts", "statement": "Unless the receiver aborts, the sender gets every answer whole and in order whatever heart beats are sent and read in between, and the data sent is not affected. Heart beats follow each other closely enough for a waiting sender not to time out, and reading them takes at most a tenth of the sender's time. But an abort sent while the sender still sends blocks is not found when a heart beat is unread before it, which is so whenever the receiver was busy for a fifth of the time-out, and may be swallowed by reading heart beats.", "quantifier": "all interleavings of heart beats, reads, answers and aborts; all time-outs and times of calls", "why_tests_cant": "heart beats appear only in transfers longer than the tests", "anchors": ["ReceiverThread.cpp: ReceiverThread::sendHeartBeat", "SenderThread.cpp: SenderThread::readHeartBeats", "SenderThread.cpp: SenderThread::checkForAbort", "SenderThread.cpp: SenderThread::readReceiverCmd"]}
{"id": "C69", "title": "the command line means what it says", "statement": "Options the user specified are kept, except that a start port makes ports static; the type disk changes four defaults and is safe for resumption; exactly one kind of resumption is used. A list of files is read as meant for all names without tab and newline and all sizes. The program receives only without URL and destination, sends only to what it was given, and ends with status 0 exactly if what was asked for succeeded. The thread that aborts after some seconds neither fires early nor delays the end.", "quantifier": "all options, all texts of file lists, all flags and arguments, all results, all interleavings of the abort thread", "why_tests_cant": "tests run the program with a few combinations of flags", "anchors": ["wdtCmdLine.cpp: main", "wdtCmdLine.cpp: readManifest", "wdtCmdLine.cpp: setupAbortChecker", "WdtOptions.cpp: WdtOptions::modifyOptions"]}
{"id": "C70", "title": "the directories a file needs are made", "statement": "Any number of receiver threads creating files at once, each in any directories, in any interleaving of their system calls: if nobody else removes directories meanwhile and no file is where a directory is wanted, no thread fails, all end after a bounded number of steps and every file is there, even if the cache of created directories is out of date. Nothing else is created, no directory or file goes away, no file in the way is replaced, and without overwriting no two threads get the same file.", "quantifier": "all trees, caches, lists of files, interleavings, and for some parts all removals of empty directories by others", "why_tests_cant": "tests create few directories and do not remove them between or during sessions", "anchors": ["util/FileCreator.cpp: FileCreator::createFile", "util/FileCreator.cpp: FileCreator::createDirRecursively", "util/FileCreator.h: FileCreator::dirCreated"]}
{"id": "C71", "title": "options come from their flags", "statement": "An option whose flag was given has the given value (a start port also makes the ports static); an option whose flag was not given has the default of its type or of the program; setting them again, or from other values, gives the same. Which options count as given is characterised exactly: in programs other than wdt a flag of the program with the bare name of an option counts too, which changes options nobody set (refuted).", "quantifier": "all lists of flags with distinct names, all values, both ways of building the program", "why_tests_cant": "the tests set options directly", "anchors": ["util/WdtFlags.cpp: WdtFlags::initializeFromFlags", "util/WdtFlags.cpp: getUserSpecifiedOptions", "util/WdtFlags.cpp: getOptionNameFromFlagName"]}
{"id": "C72", "title": "a signal asks each transfer for one report", "statement": "For any number of subscribers and any interleaving of signals, a subscriber asking is told true exactly if a signal came since it last asked or was made (fewer than 2^64 of them).", "quantifier": "all histories of signals, subscriptions and questions", "why_tests_cant": "a signal between reading and storing the epoch is a matter of timing", "anchors": ["util/CommonImpl.h: SignalSubscriber", "wdtCmdLine.cpp: sigUSR1Handler"]}
{"id": "C73", "title": "one receiver at a time works in a directory", "statement": "Two receivers never work with the same transfer log file. If the log is not invalid and receivers leave it, at most one receiver works in the directory, and none ends its process; if logs are unlinked after success (keep_transfer_log off) or the log is invalid, two can work at once (refuted). A receiver whose log was removed can only exit or be killed; being refused the log may end the process instead of returning an error (refuted). A receiver left alone with a good log nobody holds gets it in at most five calls.", "quantifier": "all numbers of receivers, all interleavings of their system calls, all failures of calls and deaths of processes", "why_tests_cant": "the windows between close and unlink, and between open and flock, are a few microseconds wide", "anchors": ["util/TransferLogManager.cpp: openLog", "util/TransferLogManager.cpp: checkLog", "util/TransferLogManager.cpp: close", "util/TransferLogManager.cpp: unlink", "util/TransferLogManager.cpp: renameBuggyLog", "Receiver.cpp: fixAndCloseTransferLog"]}
{"id": "C74", "title": "a failed write to the log ends the receiver only in known cases", "statement": "With the log open, a session is stopped by a check exactly if an invalidation of the directory was due and its write failed, or if the transfer succeeds while the directory is inconsistent and no header was written. What is left in the file is recovered from like the entries there before and headers and invalidations written whole. After a failed header nothing more is logged. A receiver can be stopped after a good transfer, even if no write failed (refuted).", "quantifier": "all options, senders, logs, and all places and lengths at which a write fails", "why_tests_cant": "tests do not make single writes fail", "anchors": ["util/TransferLogManager.cpp: invalidateDirectory", "util/TransferLogManager.cpp: writeLogHeader", "util/TransferLogManager.cpp: fsyncLog", "util/TransferLogManager.cpp: verifySenderIp", "Receiver.cpp: addTransferLogHeader", "Receiver.cpp: fixAndCloseTransferLog"]}
