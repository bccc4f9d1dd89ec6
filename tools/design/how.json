{
 "C01": [
  "`Varint`",
  "`CodecSpec` (round trip stated on byte lists)",
  "induction on the number of bytes, shifts and masks by arithmetic lemmas"
 ],
 "C02": [
  "`Varint`",
  "`CodecSpec` (`reads_inside`)",
  "induction on the bytes"
 ],
 "C03": [
  "`Varint` (buffer versions)",
  "`CodecSpec` (frame of a region)",
  "induction with a frame invariant"
 ],
 "C04": [
  "`Varint`",
  "`CodecSpec`",
  "from C01 and C02"
 ],
 "C05": [
  "`ProtocolCodec`",
  "`ProtocolSpec` (`header_visible`)",
  "composition of codecs"
 ],
 "C06": [
  "`ProtocolCodec`",
  "`ProtocolSpec`",
  "composition of codecs, arithmetic for the size bounds"
 ],
 "C07": [
  "`ChunkList`",
  "`ChunkListSpec`",
  "induction on the list; witnesses by computation"
 ],
 "C08": [
  "`ProtocolCodec`",
  "in the statement",
  "case analysis"
 ],
 "C09": [
  "`Intervals`",
  "`IntervalSpec` (sets of bytes)",
  "invariants of the merge and complement loops"
 ],
 "C10": [
  "`SourceQueue`",
  "`QueueSpec` (sets of bytes)",
  "induction on the cutting loop"
 ],
 "C11": [
  "`SourceQueue`",
  "`QueueSpec`",
  "permutation invariant over operation sequences, order lemmas"
 ],
 "C12": [
  "`SourceQueue`",
  "`QueueSpec`",
  "invariant over operation sequences"
 ],
 "C13": [
  "`QueueMonitor` (transition system)",
  "`MonitorSpec`",
  "inductive invariant, measure for internal runs"
 ],
 "C14": [
  "`History`",
  "`HistorySpec`",
  "functional specification by lists"
 ],
 "C15": [
  "`History`",
  "`HistorySpec`",
  "case analysis"
 ],
 "C16": [
  "`History` (all sender threads)",
  "`HistorySpec`",
  "invariant over runs"
 ],
 "C17": [
  "`TransferLog`",
  "`LogSpec` (entries)",
  "composition of codecs"
 ],
 "C18": [
  "`TransferLog` on byte files",
  "`LogSpec`",
  "induction on the framing loop"
 ],
 "C19": [
  "`TransferLog`",
  "`LogSpec` (declarative history of a file)",
  "parser state against the history, induction on entries"
 ],
 "C20": [
  "`TransferLog`",
  "`LogSpec`",
  "as C19"
 ],
 "C21": [
  "`TransferLog`",
  "`LogSpec`",
  "composition of C17-C19"
 ],
 "C22": [
  "`FileAlloc` (transition system)",
  "`FileAllocSpec`",
  "inductive invariant, measure"
 ],
 "C23": [
  "`DiskIO`",
  "`DiskSpec`",
  "induction on the answers of the operating system"
 ],
 "C24": [
  "`FileSource`",
  "`FileSourceSpec`",
  "induction on the answers of pread"
 ],
 "C25": [
  "`RecvConn`",
  "`BlockSpec`",
  "invariant of the recorded trace"
 ],
 "C26": [
  "`RecvConn`, `SendStream`",
  "`StreamSpec`, `SentSpec` (meaning of a stream without a buffer)",
  "refinement"
 ],
 "C27": [
  "`RecvConn`",
  "`BufferSpec`",
  "invariant over steps"
 ],
 "C28": [
  "`Socket`",
  "`SocketSpec`",
  "stream refinement for writer and reader"
 ],
 "C29": [
  "`Socket`",
  "`SocketSpec`",
  "as C28"
 ],
 "C30": [
  "`Handshake`",
  "`HandshakeSpec`",
  "composition of C06 and C26"
 ],
 "C31": [
  "`Throttler` (threads and clock)",
  "`ThrottlerSpec`",
  "invariant over runs"
 ],
 "C32": [
  "`Throttler`",
  "`ThrottlerSpec`",
  "invariant over runs"
 ],
 "C33": [
  "`Uri`",
  "`UriSpec`",
  "induction"
 ],
 "C34": [
  "`Uri`",
  "`UriSpec`, `UriTextSpec`",
  "printer and parser composed; exact readers piece by piece"
 ],
 "C35": [
  "`Uri`",
  "in the statement",
  "the text is a function of the hash"
 ],
 "C36": [
  "`Uri`",
  "`UriSpec` (grammar)",
  "induction"
 ],
 "C37": [
  "`ThreadsCtl` (transition system)",
  "`ThreadsCtlSpec`",
  "inductive invariant"
 ],
 "C38": [
  "`ThreadsCtl`",
  "`ThreadsCtlSpec`",
  "inductive invariant, potential"
 ],
 "C39": [
  "`ThreadsCtl`",
  "`ThreadsCtlSpec`",
  "inductive invariant"
 ],
 "C40": [
  "`Resource` (transition system)",
  "`ResourceSpec`",
  "inductive invariants; witnesses by computation"
 ],
 "C41": [
  "`Resource`",
  "`ResourceSpec`",
  "as C40"
 ],
 "C42": [
  "`Report`",
  "`ReportSpec`",
  "case analysis, induction on the threads"
 ],
 "C43": [
  "`Report`",
  "`ReportSpec`",
  "as C42"
 ],
 "C44": [
  "`Transfer` (both ends and connections)",
  "`TransferSpec`",
  "global inductive invariant"
 ],
 "C45": [
  "`RecvSession`, `Transfer`",
  "`RecvSessionSpec`, `TransferSpec`",
  "inductive invariants"
 ],
 "C46": [
  "`SenderRetry`",
  "`SenderRetrySpec`",
  "measure"
 ],
 "C47": [
  "`SenderRetry`",
  "in the statement",
  "induction on the answers"
 ],
 "C48": [
  "`SourceQueue`",
  "`QueueSpec`",
  "list lemmas"
 ],
 "C49": [
  "`PathOps`",
  "`PathSpec` (path resolution)",
  "induction on components; witnesses"
 ],
 "C50": [
  "`SourceQueue`",
  "`QueueSpec`",
  "from C10"
 ],
 "C51": [
  "`Report`",
  "`ReportSpec`",
  "induction on operations"
 ],
 "C52": [
  "`CrashLog`",
  "`CrashSpec`",
  "inductive invariant relating log, memory and disk, composed over sessions"
 ],
 "C53": [
  "`RecvSession`",
  "`RecvSessionSpec`",
  "inductive invariant"
 ],
 "C54": [
  "`Report`",
  "in the statement",
  "arithmetic"
 ],
 "C55": [
  "`Report`",
  "`ReportSpec`",
  "fold lemmas"
 ],
 "C56": [
  "`Explore`",
  "`ExploreSpec`",
  "induction over the list of directories to read; for the end, a measure that counts directories not yet entered by a link"
 ],
 "C57": [
  "`LogSession`",
  "`LogSessionSpec`",
  "inductive invariant: disk, batch of the writer and memory together are what was taken; torn files by C18, reports by C19"
 ],
 "C58": [
  "`TreeResume`, `Explore`, `CrashLog`, `TransferLog`",
  "`TreeResumeSpec`",
  "inductive invariant over system calls of a session, composed over sessions; the traversal by C56"
 ],
 "C59": [
  "`SocketLife`, `Socket`, `ProtocolCodec`",
  "`SocketLifeSpec`, `SocketSpec`",
  "the directions commute; after the settings the reads are those of C14; induction over calls and connections"
 ],
 "C60": [
  "`Connect`",
  "`ConnectSpec`",
  "the trace is replayed along the loops; time and time-outs by induction over the answers"
 ],
 "C61": [
  "`Listen`, `Connect`",
  "`ListenSpec`",
  "the trace is replayed on a table of descriptors; the distance to an address that is ready falls with every accept"
 ],
 "C62": [
  "`Negotiate`, `ThreadsCtl`, `Report`",
  "`NegotiateSpec`",
  "one invariant ties every thread to its state in barrier and funnel and to the shared status; a rank of the threads falls with every step they take by themselves"
 ],
 "C63": [
  "`Negotiate`, `Uri`",
  "none needed",
  "case analysis"
 ],
 "C64": [
  "`Perf`",
  "`Spec.PerfSpec`: the calls recorded, ranks and slots of a list",
  "induction over the operations; the sorted keys of the map"
 ],
 "C65": [
  "`Life`",
  "`Spec.LifeSpec`: callers that keep to the order, stages of the status, the answers given",
  "invariant over the moves of threads and callers; a measure that falls with every move but a call"
 ],
 "C66": [
  "`Hist`",
  "`Spec.HistSpec`: the values that went in, counted per slot; a percentile right as far as the slots can tell",
  "each operation keeps the counts; the table of slots by induction; the loop over the slots by its state; linear interpolation over the rationals"
 ],
 "C67": [
  "`Progress`",
  "`Spec.ProgressSpec`: a bar filled to the right point, the last complete interval of samples",
  "arithmetic; the number of digits printed against the logarithm; the state of the loop as a function of the number of samples"
 ],
 "C68": [
  "`HeartBeat`",
  "`Spec.HeartBeatSpec`: the answers given in a run, neighbours in a list of times",
  "invariants over all runs of the connection: only heart beats are unread while blocks are sent; what is unread is a suffix of what was sent; arithmetic on times"
 ],
 "C69": [
  "`CmdLine`",
  "`Spec.CmdLineSpec`: values of options by name, the text of a list of files",
  "case analysis; splitting of concatenated lines; an invariant of the abort thread"
 ],
 "C70": [
  "`DirTree`",
  "`Spec.DirTreeSpec`: trees, clashes and requests as sets of paths",
  "two invariants over all interleavings (with and without removals), a decreasing measure"
 ],
 "C71": [
  "`Flags`, `CmdLine`",
  "`Spec.FlagsSpec`: flags as a set of names and values",
  "equivalences on names; the theorems of C69"
 ],
 "C72": [
  "`Flags`",
  "`Spec.FlagsSpec`: histories, split at the last look",
  "induction over histories, arithmetic modulo 2^64"
 ],
 "C73": [
  "`LogLock`",
  "`Spec.LogLockSpec`: who works, which file is open",
  "invariants over all interleavings; concrete runs for what is refuted"
 ],
 "C74": [
  "`LogChecks`, `TransferLog`",
  "`Spec.LogChecksSpec`: when the directory is to be invalidated, what a torn log is",
  "case analysis of the session; the theorem on torn tails (C18)"
 ]
}