-Q theories Verif
theories/Model/Bytes.v
theories/Model/ChunkList.v
theories/Model/CmdLine.v
theories/Model/Connect.v
theories/Model/CrashLog.v
theories/Model/DirTree.v
theories/Model/DiskIO.v
theories/Model/Explore.v
theories/Model/FileAlloc.v
theories/Model/FileSource.v
theories/Model/Flags.v
theories/Model/Handshake.v
theories/Model/HeartBeat.v
theories/Model/Hist.v
theories/Model/History.v
theories/Model/Intervals.v
theories/Model/Life.v
theories/Model/Listen.v
theories/Model/LogChecks.v
theories/Model/LogLock.v
theories/Model/LogSession.v
theories/Model/Negotiate.v
theories/Model/PathOps.v
theories/Model/Perf.v
theories/Model/Progress.v
theories/Model/ProtocolCodec.v
theories/Model/QueueMonitor.v
theories/Model/RecvConn.v
theories/Model/RecvSession.v
theories/Model/Report.v
theories/Model/Resource.v
theories/Model/SendStream.v
theories/Model/SenderRetry.v
theories/Model/Socket.v
theories/Model/SocketLife.v
theories/Model/SourceQueue.v
theories/Model/Stats.v
theories/Model/ThreadsCtl.v
theories/Model/Throttler.v
theories/Model/Transfer.v
theories/Model/TransferLog.v
theories/Model/TreeResume.v
theories/Model/Uri.v
theories/Model/Varint.v
theories/Spec/BlockSpec.v
theories/Spec/BufferSpec.v
theories/Spec/ChunkListSpec.v
theories/Spec/CmdLineSpec.v
theories/Spec/CodecSpec.v
theories/Spec/ConnectSpec.v
theories/Spec/CrashSpec.v
theories/Spec/DirTreeSpec.v
theories/Spec/DiskSpec.v
theories/Spec/ExploreSpec.v
theories/Spec/FileAllocSpec.v
theories/Spec/FileSourceSpec.v
theories/Spec/FlagsSpec.v
theories/Spec/HandshakeSpec.v
theories/Spec/HeartBeatSpec.v
theories/Spec/HistSpec.v
theories/Spec/HistorySpec.v
theories/Spec/IntervalSpec.v
theories/Spec/LifeSpec.v
theories/Spec/ListenSpec.v
theories/Spec/LogChecksSpec.v
theories/Spec/LogLockSpec.v
theories/Spec/LogSessionSpec.v
theories/Spec/LogSpec.v
theories/Spec/MonitorSpec.v
theories/Spec/NegotiateSpec.v
theories/Spec/PathSpec.v
theories/Spec/PerfSpec.v
theories/Spec/ProgressSpec.v
theories/Spec/ProtocolSpec.v
theories/Spec/QueueSpec.v
theories/Spec/RecvSessionSpec.v
theories/Spec/ReportSpec.v
theories/Spec/ResourceSpec.v
theories/Spec/SenderRetrySpec.v
theories/Spec/SentSpec.v
theories/Spec/SocketLifeSpec.v
theories/Spec/SocketSpec.v
theories/Spec/StreamSpec.v
theories/Spec/Sums.v
theories/Spec/ThreadsCtlSpec.v
theories/Spec/ThrottlerSpec.v
theories/Spec/TransferSpec.v
theories/Spec/TreeResumeSpec.v
theories/Spec/UriSpec.v
theories/Spec/UriTextSpec.v
theories/Proofs/AttemptFacts.v
theories/Proofs/BytesFacts.v
theories/Proofs/ChunkListFacts.v
theories/Proofs/CmdLineFacts.v
theories/Proofs/ConnectFacts.v
theories/Proofs/ConnectWitness.v
theories/Proofs/CountFacts.v
theories/Proofs/CrashFacts.v
theories/Proofs/CrashInv.v
theories/Proofs/CrashStep.v
theories/Proofs/CrashWitness.v
theories/Proofs/CrcFacts.v
theories/Proofs/DirTreeFacts.v
theories/Proofs/DiskFacts.v
theories/Proofs/ExploreFacts.v
theories/Proofs/ExploreQueueFacts.v
theories/Proofs/ExploreWitness.v
theories/Proofs/FileAllocFacts.v
theories/Proofs/FileSourceFacts.v
theories/Proofs/FlagsFacts.v
theories/Proofs/FrameFacts.v
theories/Proofs/HandshakeFacts.v
theories/Proofs/HeartBeatFacts.v
theories/Proofs/HistFacts.v
theories/Proofs/HistoryFacts.v
theories/Proofs/InitVersionFacts.v
theories/Proofs/IntervalFacts.v
theories/Proofs/LifeFacts.v
theories/Proofs/ListenFacts.v
theories/Proofs/ListenFairFacts.v
theories/Proofs/ListenWitness.v
theories/Proofs/LocalDecFacts.v
theories/Proofs/LogChecksFacts.v
theories/Proofs/LogCodecFacts.v
theories/Proofs/LogFacts.v
theories/Proofs/LogLockFacts.v
theories/Proofs/LogParseFacts.v
theories/Proofs/LogRecoverFacts.v
theories/Proofs/LogRunFacts.v
theories/Proofs/LogSessionFacts.v
theories/Proofs/MonitorCount.v
theories/Proofs/NegotiateFacts.v
theories/Proofs/NegotiateMainFacts.v
theories/Proofs/NegotiateReachFacts.v
theories/Proofs/NegotiateRestFacts.v
theories/Proofs/NegotiateStepFacts.v
theories/Proofs/NegotiateWitness.v
theories/Proofs/PathEscape.v
theories/Proofs/PathFacts.v
theories/Proofs/PathOpenFacts.v
theories/Proofs/PerfFacts.v
theories/Proofs/ProgressFacts.v
theories/Proofs/ProtocolCodecFacts.v
theories/Proofs/QueueMonitorFacts.v
theories/Proofs/QueueWorldFacts.v
theories/Proofs/RecvCmdFacts.v
theories/Proofs/RecvFacts.v
theories/Proofs/RecvSafeFacts.v
theories/Proofs/RecvSessionFacts.v
theories/Proofs/RecvTraceFacts.v
theories/Proofs/RecvWitness.v
theories/Proofs/ReportFacts.v
theories/Proofs/ResourceCallFacts.v
theories/Proofs/ResourceFacts.v
theories/Proofs/ResourceLimitFacts.v
theories/Proofs/ResourceReplyFacts.v
theories/Proofs/ResourceSlotFacts.v
theories/Proofs/ResourceWitness.v
theories/Proofs/SenderRetryFacts.v
theories/Proofs/SentFacts.v
theories/Proofs/SocketFacts.v
theories/Proofs/SocketIvFacts.v
theories/Proofs/SocketLifeFacts.v
theories/Proofs/SocketLifeSentFacts.v
theories/Proofs/SocketLifeWitness.v
theories/Proofs/SocketReadFacts.v
theories/Proofs/SourceQueueFacts.v
theories/Proofs/SumFacts.v
theories/Proofs/ThreadsCtlFacts.v
theories/Proofs/ThrottlerFacts.v
theories/Proofs/ThrottlerRateFacts.v
theories/Proofs/ThrottlerWitness.v
theories/Proofs/TransferAcked.v
theories/Proofs/TransferFacts.v
theories/Proofs/TransferInv.v
theories/Proofs/TransferRecv.v
theories/Proofs/TransferRuns.v
theories/Proofs/TransferSend.v
theories/Proofs/TransferStep.v
theories/Proofs/TreeInv.v
theories/Proofs/TreeResumeFacts.v
theories/Proofs/TreeTraverse.v
theories/Proofs/TreeWitness.v
theories/Proofs/UriFacts.v
theories/Proofs/UriTextFacts.v
theories/Proofs/VarintFacts.v
theories/Props/PChunkList.v
theories/Props/PCmdLine.v
theories/Props/PConnect.v
theories/Props/PCrashLog.v
theories/Props/PDirTree.v
theories/Props/PDisk.v
theories/Props/PExplore.v
theories/Props/PFileAlloc.v
theories/Props/PFileSource.v
theories/Props/PFlags.v
theories/Props/PHandshake.v
theories/Props/PHeartBeat.v
theories/Props/PHist.v
theories/Props/PHistory.v
theories/Props/PIntervals.v
theories/Props/PLife.v
theories/Props/PListen.v
theories/Props/PLog.v
theories/Props/PLogChecks.v
theories/Props/PLogLock.v
theories/Props/PLogSession.v
theories/Props/PMonitor.v
theories/Props/PNegotiate.v
theories/Props/PPath.v
theories/Props/PPerf.v
theories/Props/PProgress.v
theories/Props/PProtocol.v
theories/Props/PQueue.v
theories/Props/PRecvConn.v
theories/Props/PRecvSession.v
theories/Props/PReport.v
theories/Props/PResource.v
theories/Props/PSenderRetry.v
theories/Props/PSocket.v
theories/Props/PSocketLife.v
theories/Props/PThreadsCtl.v
theories/Props/PThrottler.v
theories/Props/PTransfer.v
theories/Props/PTreeResume.v
theories/Props/PUri.v
theories/Props/PUriText.v
theories/Props/PVarint.v
