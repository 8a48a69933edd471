# NanoLog in Rocq: design

The model covers the C++17 NanoLog (no preprocessor) end to end, plus the parts
of the preprocessor version that are worth stating separately. Everything is
plain Gallina over the standard library; no axioms are used.

## Conventions

* Bytes, machine words, positions and characters are `Z`; wraps are written
  out (`mod 2^n`). Memory is a function `Z -> Z`; `load`/`store` move byte
  lists; a pointer is an offset in its buffer.
* Each model definition cites the file and lines of /repo it transcribes.
* `*Model.v`/plain names hold definitions, `*Proofs.v` lemmas, `Prop_*.v` the
  theorem per property, non-vacuity examples and `Print Assumptions`.
* A property that is false of the code is stated as it should hold, refuted by
  a concrete witness (`..._refuted`), and proved under the weakest guard found
  (`..._partial` when something of the English claim is missing).

## Plan per property

| id | model | proof idea |
|----|-------|-----------|
| C01-C04 | Packer.h over byte memory | arithmetic on little-endian lists; induction on value lists |
| C05, C06 | compressLogHeader/decompressLogHeader | from C01; C06 refuted for 8-byte deltas |
| C07, C08 | getParamInfo, createMicroCode (incl. regex) on character lists; printf grammar as an AST with a renderer | induction on the AST; refutations for `%.f`, `\%d`, `%Ld` |
| C09 | recorder, compressor, decompressor and an abstract printf parameterised by the rendering of one conversion | composition of C04, C08, C10, C11 |
| C10, C11 | getArgSize(s), store_argument(s) | induction on argument lists |
| C12-C15 | Encoder over byte memory with an out-of-bounds flag | invariants of every encoder call |
| C16 | dictionary fragments | codec round trip |
| C17, C36, C37, C44 | transition system of logging threads, background thread, AIO, sync, file switches (Runtime.v) | inductive invariant over all labels (RtInv, RtSafe, RtFile) |
| C30, C33 | the same system | invariant over the two passes: what a waiter wants has been peeked, taken, written (RtSync.v); C33 adds the switch's own waiter. Refuted when a scan starts at a buffer deleted in it |
| C46, C47 | the same system; only the thread, the disk and the caller of setLogFile() take steps | a round of the thread's loop lets a measure (what is staged, pending, in flight) decrease (RtDrain.v); needs room in the output buffer; refuted without it by an invariant that holds for ever |
| C31, C32 | registration and level check as transition systems of their own | inductive invariants |
| C18-C24 | Decoder over a FILE model (bytes + eof) | induction on a grammar of well-formed files |
| C25-C28 | StagingBuffer as a transition system under x86-TSO: every load and store is a step, stores wait in store buffers (Ring.v) | inductive invariant over the chain of views between memory and the producer (RingProofs.v); progress by an explicit schedule |
| C29 | the same system as C17 | what is between the start of the scan and its position has been looked at (RtScan.v); refuted with deletions |
| C34 | LogMessage: two blocks of bytes with their sizes (LogMsg.v); what the decoder pushes (Decode.v) | representation invariant; composed with C09 |
| C35 | time arithmetic with every rounding of the doubles (TimeFmt.v) | error bounds over the rationals; refutation by computation |
| C38, C39, C42 | identifiers, tables, fragments and literals of the Python preprocessor (Preproc.v) | induction on the scans; refutations |
| C48, C50 | the C++ code the preprocessor generates for a statement: record, compress and decompress functions, dictionary entry (GenCode.v) | arguments are converted to the parameters' types (GenProofs.v); what is stored is the image of C11, except that a precision of 0 stores the whole string (GenRecord.v, GenMessage.v); then the decoder of C09. Escape sequences by a map on formats; string literals and severities are specified in GenSpec.v |
| C49 | writeDictionary and the numbers of statements (GenCode.v) | the bytes are an execution as C41 reads it, up to one unused bit per fragment, which keeps what was in memory (GenDict.v); numbers are positions in the sorted list of identifiers |
| C51 | parseLogStatement and parseArgumentStartingAt over the source as one text (Parser.v) | induction on properly nested text; refuted by character literals and templates |
| C52 | processFile as a machine that takes a line or a character per step (Scanner.v); source files as lists of markers and lines of tokens (SourceSpec.v) | induction on the statements of a line and the lines; refuted by a quote in a character literal and by an identifier that starts with N |
| C53 | the output of C52, read by a relation for line markers, lines and columns (Prop_Position.v) | two views of the text, equal but for the marked characters; the relation is shown to be functional |
| C58 | as C52; calls with a defect behind a file of C52 (Prop_Reject.v) | the machine reaches the name as in C52 and stops there |
| C59 | Decoder.v and Ordered.v on a file of FileSpec.v followed by any bytes (Prop_Damage.v) | the decoder's loops go through the items in front without looking at what follows; for ordered decompression only while three passes can be filled |
| C60 | rawMetadata as memory of a given size, createMicroCode with its writes, the decoder of C18 to C21 with it (MicroMem.v, MemDecoder.v) | simulation of the model with a list (MicroMemProofs.v, MemDecoderProofs.v); C18 and C19 carried over; refuted by a log with 76 million statements, proved by induction |
| C61 | the log function, compressFnArray and encodeLogMsgs of the preprocessor version (PreEncoder.v) between the models of C48, C49 and C60 | spec of the encoder for any compression function (PreEncoderProofs.v), of the decompressor for any file of such extents (PreFile.v), both composed with C48 and C49; refuted by an escaped file name |
| C62 | calendar, strftime, the double of the checkpoint and the whole output line (LineFmt.v) over the ordered decompressor | strict monotonicity of the calendar and lexicographic order of padded numbers (LineProofs.v) with C21 and C54; refuted by ten digits of nanoseconds |
| C63 | the same line | splitting at separators that the fields in front of them cannot contain; refuted by a colon in a file name |
| C64 | main of the decompressor (Program.v) from arguments and files to exit status and standard output | composition of C23 and C20 with the texts of C62; counting of the calls of getNextLogStatement |
| C65 | the same, on any bytes | induction over the loops of both ways of decompressing; refuted by an extent that ends in a header |
| C66 | Ring.v with the counters of the peeks (Hist.v) | producerPos stays below the buffer's end: an invariant on top of C25's; then counting |
| C67 | the counters of a StagingBuffer and the text of getHistograms (Hist.v) | counting; refuted by a thread that never blocks |
| C68 | the file as the appended results of any writes (Disk.v), read by the decoders of C18-C20 | losing extents keeps a file well-formed, then C18-C20; C59 for what comes first; refuted by a lost dictionary fragment |
| C69 | the measuring loops over the readings they make (Calibrate.v) | error analysis over the rationals: phases within a microsecond, whole cycles, three roundings; refuted by four readings |
| C70 | the counters as functions of the steps of Runtime.v (Counters.v) | invariants over every execution that tie the counters to positions in the buffers and the bytes of the files; refuted by a run with a signal |
| C71 | the same counters over a list of writes, with and without O_DIRECT | induction over the writes; refuted by one write of 100 bytes |
| C72 | files with O_APPEND over the logs of the executions of Runtime.v (Append.v) | logs one behind the other are a log (FileSpec); refuted by a log without its last byte |
| C73 | states of Runtime.v with a prefix of the buffer in flight in the file | each file has one checkpoint (invariant), then C23 and C20; C30 for sync(); refuted by the signal of C36 |
| C74 | executions of Runtime.v, ordered decompression of their files | what is encoded is in time order if only one thread has messages not taken (invariant); ordered decompression of a sorted file (OrderSorted.v); refuted by an execution with three threads |
| C75 | decompression with generated code and an aggregation function (Aggregate.v) of what PreEncoder.v wrote | the generated function unpacks what the generated compression function wrote (C50); then as C61. False where C49 is: refuted, and proved under the conditions of C49 and C50 |
| C76 | iteration and ordered decompression (MemDecoder.v) of what PreEncoder.v wrote | the items are translated into those of FileSpec.v, whose ordering OrderTheory.v knows; the loader, the depletion of the stages and getNextLogStatement are simulated over the dictionary in memory (PreOrder.v); the rounds of the file are those of the batches if every call of the encoder took a message; false in full for the program of C61_refuted |
| C77 | encodeLogMsgs once more, with its three counters and its messages on standard error (Misses.v) | erasing the counters gives the encoder of Encoder.v; the counters are compared with the messages looked at, which the spec reads off the results (bytes read, number of messages) of that encoder; induction over the loop and over the calls |
| C78 | the decompressor of MemDecoder.v on a prefix of what PreEncoder.v wrote | the lemmas of C61 and C76 are about items followed by a torn extent (ptorn, PreFile.v); a prefix of the file is the extents of the first batches and such a rest (induction over the calls of the encoder), or a torn dictionary, which readDictionary rejects; false where C61 is |
| C79 | the decompressor of MemDecoder.v on several files of PreEncoder.v one behind the other | the loops reach the next checkpoint with the state of the previous execution (PreRuns.v); C41_partial says that the same dictionary read again leaves the same entries in use; induction over the executions; false for different programs (C41) |
| C80 | the text around the events of TimeTrace.v (TraceText.v), doubles as in TimeFmt.v | `%.1f` is within half a unit (fixed1_tells); two roundings of the time, one of the difference; the signs from the monotonicity of rounding (Prop_TraceText.v) |
| C81, C82 | vsnprintf into an array, the arrays hex and ascii, C strings ending at a NUL (HexDump.v) | two rounds unfolded; a line is the text of its row, as positions in the buffer are positions in the row; the columns have fixed widths, so that a dump determines its rows (Prop_HexDump.v) |
| C83 | the readings of the counter as a list, the wrapping arithmetic of the end (Sleep.v) | C55 for fromNanoseconds; refuted by a wrap (Prop_Sleep.v) |
| C84 | threadBuffers as a list of buffers with their threads, a call is a step (TraceApi.v) | the buffers are those of the threads' histories; then C56 and C80 (Prop_TraceApi.v) |
| C85 | printf's fixed notation and the doubles of runRCDF around the loop of Stats.v (RcdfText.v) | fixedp_number: half a unit; integers below 2^53 are exact, so that 1 - i/n is off by two roundings; the loop prints the lines of runRCDF (Prop_RcdfText.v) |
| C86 | the printf calls of minMaxMean, with the doubles of the percentage and of the time per element (AggText.v) | ratio_close: two roundings; fixedp_number of C85; counts by induction over the loop of Stats.v (Prop_AggText.v) |
| C87 | the lines of getStats with the order of its operations on doubles (StatsText.v) | a calculus of relative errors: near_rnd, near_add, near_scale, near_div; fixedp_number of C85; lengths of the numbers, so that snprintf cuts nothing (Prop_StatsText.v) |
| C54 | the times of C35 (TimeFmt.v) | rounding is monotone, and so is what is printed |
| C55 | the conversions of Cycles.cc over the same doubles (Cycles.v) | error analysis of three roundings; refuted for microseconds |
| C56, C57 | circular buffers of events and their merge (TimeTrace.v) | positions in the buffer stand for positions in the history since the last reset; induction on the events left; C57 is refuted by one step |
| C40, C41 | padding of blocks (Pad.v) in front of the decoder of C18; rawMetadata as memory (MetaDict.v) | byte model; both refuted, with a theorem that says exactly what the code does instead |
| C43, C45 | LogDecompressor statistics over the LogMessage of C34 (Stats.v) | fold invariants; refutations |

## What is modelled

| files of /repo | model files | left out |
|---|---|---|
| runtime/Packer.h | Packer | `pack` of types other than integers, floating point and pointers |
| Log.h/Log.cc headers | LogHeader | miss statistics |
| NanoLogCpp17.h analysis | Fmt, FmtLax, FrontFmt | template and constexpr machinery: an ill-formed format is `None` |
| Log.cc createMicroCode | Regex, MicroCode | `fragmentLength` wraps at 2^16 (guarded; it does not happen, because lengths in a log have 16 bits); std::regex is a backtracking matcher of that one expression |
| NanoLogCpp17.h recording, compression | Args | evaluation order of `getArgSizes`' operands is left to right; `log` with a level above the current one is in the level model |
| Log.cc decompression of a message | Decode, Printf | rendering of one conversion is a parameter, the same on both sides; output buffering |
| Log.cc Encoder | Encoder, Wire | `encodeMissDueToMetadata`, `consecutiveEncodeMissesDueToMetadata`, `lastBufferIdEncoded`; a zero `entrySize` ends the loop (it does not terminate in C++, and no statement stages one) |
| Log.cc Decoder over a file | Decoder, FileSpec (specification) | checkpoints with metadata (preprocessor version, in MetaDict; here readDictionary is `None`), statistics, stderr texts, the wall-clock prefix; a FILE is the bytes ahead and the eof flag, no I/O errors |
| Log.cc:1799-1967 decompressTo | Ordered, OrderSpec (specification) | the heaps of std::push_heap/pop_heap are lists with an arbitrary choice among the smallest timestamps (all choices quantified over); no aggregation function is given |
| RuntimeLogger.h:315-518, RuntimeLogger.cc:751-844 StagingBuffer | Ring | statistics, BENCHMARK_DISCARD builds, compiler reordering of the plain (non-atomic) variables: the order of accesses is the source order, then x86-TSO |
| RuntimeLogger.cc:39-106, 353-674, 719-729 | Runtime | the conditional wait of the idle thread (it may run at any time instead), `aio_error`/`aio_return` failures, short writes (C23), O_DIRECT padding (C40), the times measured (the counts are in Counters); registration and allocation of a buffer are one step each |
| RuntimeLogger.h:51-70, NanoLogCpp17.h:1006-1031, 1087, RuntimeLogger.cc:402-413, 704-709 | Register | as for Ring; the contents of StaticLogInfo; the unlocked size() test of the compression thread (in Runtime it is the label RStale: the test may miss new statements) |
| Log.h:719-855, Log.cc:498-575 LogMessage | LogMsg | malloc does not fail (the program exits) |
| Log.cc:1350-1364, 1375, Cycles.cc:118-123 | TimeFmt | doubles are rationals rounded to 53 bits, without the limits of the exponent (at clock rates from 1 Hz to 2^64 Hz no value leaves the normal range); localtime and strftime; cyclesPerSecond 0 |
| Cycles.cc:138-207, 221-225 | Cycles, Sleep | as TimeFmt; cyclesPerSec 0 stands for the measured frequency and is left out |
| TimeTrace.cc:33-184, 191-197, 213-335; TimeTrace.h:81-93 | TimeTrace, TraceText, TraceApi | the text printf makes of an event (any function of the event; a NUL in it is not considered); negative zeros (toSeconds never yields one: it converts an integer, and a difference of equal doubles is positive); calls of record and reset that overlap (each is one step), the choice of the output file; several threads in one buffer (C57 says what keeps them apart: nothing) |
| Util.cc:34-116 | HexDump | the text of a conversion (any text); the stack an array of that size needs; isprint is that of the C locale |
| RuntimeLogger.cc:590-611 | Pad | only the bytes written, not the rest of the thread (Runtime) |
| Log.cc:646-707, 1398-1448 with dictionaries in checkpoints | MetaDict | the generated decompression functions; the size of rawMetadata is a parameter |
| Log.cc createMicroCode's writes to rawMetadata; the decoder with it | MicroMem, MemDecoder | bitfields of PrintFragment as one byte; a write or read outside of the buffer is `None`; the vectors fmtId2metadata and fmtId2fmtString are lists |
| Log.cc 211-272 encodeLogMsgs with compressFnArray; FunctionGenerator.py 220-259 | PreEncoder | a number outside of compressFnArray (undefined in C++) writes nothing; the statement and its conversion to the record function's parameters are one step |
| Log.cc 31-32, 1348-1368, 1413-1422, 1664-1665 (the printed line) | LineFmt | localtime is the Gregorian calendar from 1970 with an arbitrary offset from UTC; timeString is large enough for four digit years; a severity without a name (logLevelNames read out of bounds) gives no line |
| LogDecompressor.cc 121-133, 151-290 | Program | rcdfTime (its numbers are in Stats), the commands of the preprocessor version, standard error; a file that makes the decoder fail has no output |
| RuntimeLogger.cc:243-306, 425-433, 801-811; RuntimeLogger.h:334-343, 440-459 | Hist | the counters of several threads are independent of each other; rdtsc (any durations); the note printed without RECORD_PRODUCER_STATS |
| RuntimeLogger.cc:320-346, 545-626; Config.h:28 | Disk | which bytes a failed write leaves behind (none); that each write holds whole items is not derived here (in Runtime each buffer written is a list of items) |
| Cycles.cc:39-87 init | Calibrate | gettimeofday failing; the two clocks (any readings) |
| RuntimeLogger.cc:139-230 getStats, and the places that count | Counters, StatsText | the times measured; doubles of the ratios are exact (StatsText has the text, with its doubles, for any counts and times) |
| Config.h:28 FILE_PARAMS, RuntimeLogger.cc:75-76, 641 | Append | failures of open; O_DSYNC and O_NOATIME mean nothing here; one program at a time has the file open |
| Log.cc:1315-1401 (PREPROCESSOR_NANOLOG), 1724-1783; FunctionGenerator.py:217-280, 557-628 | Aggregate | a null output file (nothing is printed, the calls are the same); what the aggregation function does with its arguments |
| Log.cc 101-104, 311-402, 445, 484 (counters and error messages of the encoder) | Misses | of an error message only the numbers are kept; the debug output is not modelled |
| LogDecompressor.cc:81-113, 232-247, 289-334 | Stats, RcdfText (the table), AggText (the text of minMaxMean) | the measuring of the times the program took (any duration); the sorting (any sorted list) |
| FunctionGenerator.py:76-115, 158-162, 343-370, 738-872, 894-898; parser.py:113-132 | Preproc | parsing of log statements in source files; `isalnum`, `isspace` and `\d` are ASCII; comments between literals |
| FunctionGenerator.py:153-305, 343-711; Log.cc:46-79 | GenCode | what the generated C++ does is modelled, not its text; conversions between integers and floating point; octal, hexadecimal and universal escape sequences; reserving and committing (Ring) and the level test (C32) around the record function |
| parser.py:147-308 | Parser | raw string literals; `isspace` is ASCII |
| parser.py:323-584 | Scanner | the text of the generated functions (a parameter), error messages; `int(float(n))` is exact below 2^53; `isalnum`/`isspace` are ASCII |

In Runtime a call of sync() carries a list of messages that had reached memory
when it was made (the mutex that sync() takes is a fence for the calling
thread's own messages). Which waiter `notify_one` wakes is arbitrary.
An access or open error makes setLogFile throw before it changes anything; it
is no step of the model.

`Wire` is a specification, not a transcription: it gives the bytes of a file as
a function of messages, independently of the encoder and the decoder.

## Findings

Claims of properties.jsonl that are false of the code, with the theorem:

* C06 header sizes with 8-byte deltas (`C06_reported_size_refuted`).
* C07 the compile-time check accepts non-printf formats (`C07_rejection_refuted`).
* C08 the two analyses disagree: `%.f`, `\%d`, `%Ld`, 256 specifiers.
* C09 negative dynamic widths and precisions, `unsigned char*` with `%s`.
* C11 arrays without NUL are over-read (`C11_unterminated_refuted`).
* C12 `unsigned char*` with `%s` makes compression copy up to 4 GiB past the
  message (`C12_refuted_uchar_string`).
* C15 messages of exactly half a staging buffer (`C15_refuted_half_buffer`).
* C24 `open` keeps the previous file's extent (`C24_refuted_leftover`).
* C20/C22: when all messages of the first buffered pass have been printed and a
  new execution starts, decompressTo reads its checkpoint, which clears the
  dictionary, although later passes are still buffered. Their messages appear
  with the statements and the clock of the new execution (or `at` throws).
* C21: decompressTo buffers three passes, but shifts as soon as the first one
  runs dry, so only displacement by less than two passes is put right; empty
  passes reduce this further. An empty extent has the timestamp its fragment
  object was last used with.
* C27: a reservation of at least the buffer size waits for ever
  (`C27_too_large_waits`); the guard in the property is real.
* C29: when the buffer at which a scan starts is deleted in it, the scan ends
  early and buffers are not looked at (`C29_scan_looks_at_all_refuted`).
* C30, C33: because of that sync() can return before earlier messages are
  written (`C30_sync_durable_refuted`), and setLogFile can move them to the new
  file (`C33_switch_self_contained_refuted`). sync() also waits without a
  condition, so a spurious wakeup ends it (`C30_spurious_wakeup_refuted`).
* C32: setLogLevel's test for negative levels is dead code under GCC, so -1 means
  DEBUG (`C32_clamp_refuted`).
* C17, C36, C37: a signal during aio_suspend makes the thread take the write for
  finished and encode over the buffer being written.
* C34: width and precision arguments of `*` are not handed to users of the
  decoder, so later arguments change their positions (`C34_star_refuted`).

* C35: nanoseconds that round up to a full second are printed as ten digits, e.g.
  one cycle before the second at 2.4 GHz (`C35_refuted`).
* C38: statements on one line that differ only in severity share the first one's
  static information (`C38_level_refuted`); so do formats like `a ` and `a32`,
  because a character is replaced by its number (`C38_digits_refuted`).
* C39: `%.f` is rejected, although it is a printf conversion (`C39_refuted`).
* C48, C50: a precision with `%ls` makes the generated code call `wcsnlen_s`, which
  glibc does not have (`C48_refuted_wide_precision`). With a precision the record
  function copies one character more than it may print, so it reads past arrays
  without a terminator (`C48_reads_past_the_string`). The generated decompression
  function passes negative widths on, the decompressor does not.
* C49: filenameLength is the length of the name as it is written in a string
  literal; if it has escapes the decompressor rejects the dictionary
  (`C49_refuted_escape`). The dictionary needs one byte more than it occupies.
* C52: a quote in a character literal hides the log statements behind it on its
  line: they stay calls of an undeclared function (`C52_refuted_quote`).
* C52: `NNANO_LOG(...)` is taken for a log statement (`C52_refuted_name`), and a
  statement in a lambda in an argument of another one is missed when both are on
  one line (`C52_nested`).
* C51: the preprocessor does not know character literals. `NANO_LOG(NOTICE, "%c",
  ')');` is rejected (`C51_refuted_char`).
* C42: a literal that ends in `\\` is rejected (`C42_refuted`).

* C40: with O_DIRECT the zeros go over the beginning of the block instead of
  behind its end. A file whose first block is padded cannot be opened
  (`C40_first_block_lost`).
* C41: a dictionary is read behind the old one, the index is then built from the
  start of the buffer. Executions of another program are rejected or, if the
  sizes agree, printed with the old program's texts (`C41_wrong_text`).
* C46, C47: Config.h demands an output buffer of STAGING_BUFFER_SIZE bytes at
  least, but encodeLogMsgs demands room for twice a message. With such a buffer a
  large message is never encoded, the thread fills the file with empty extents,
  and sync() and setLogFile() never return (`C46_statement_refuted`,
  `C47_never_returns`). The default sizes are safe.
* C43: minMaxMean divides by zero when nothing matches (`C43_refuted`); an
  argument shorter than an int is read with bytes of an earlier message.
* C55: toMicroseconds is documented to round but truncates (`C55_refuted`).
* C57: printInternal counts readers with `fetch_and` instead of `fetch_add`. The
  count stays 0, so events are recorded into buffers that are being printed
  (`C57_refuted`).
* C59: when decompressTo meets an extent it cannot read, it prints the first buffered
  pass and ends; the messages of up to two further passes in front of the damage
  are lost (`C59_refuted`). Unordered decompression prints them.
* C60: rawMetadata has a fixed size (1 GB) and nothing checks its end. A statement takes up to
  three times as many bytes there as in the log, so a valid log of less than 1 GB overruns it
  (`C60_refuted`; 76.7 million statements with an empty format).
* C61: no further deviation between the stages: within the limits of C48 and C49 the printed lines are
  those of printf. Outside of them the whole log may be lost (`C61_refuted`: one file name with a backslash).
* C62: nanoseconds are rounded after the whole seconds are taken off, so the last half nanosecond of a
  second is printed as .1000000000 and sorts in front of the messages before it (C35). A severity above
  DEBUG in a damaged dictionary reads logLevelNames out of bounds, and a checkpoint with an absurd wall
  clock time makes localtime return a null pointer, which strftime dereferences.
* C63: a colon in a file name makes the place of a message ambiguous with its text.
* C64: a log that is cut off ends with status 0 like a whole one, and nothing on standard output tells.
* C65: getNextLogStatement returns true when the fragment has a next header, even if that header runs over
  the end of the extent and nothing is printed; `decompressUnordered` counts such calls.
* C67: with RECORD_PRODUCER_STATS getHistograms divides by the number of times a thread was blocked, which
  is 0 for most threads (`C67_refuted`). The average and the heading of the distribution are formatted into
  the buffer but not added to the report. "Times Blocked" counts each call of reserveSpaceInternal, also
  those that find space at once. The last line says 190 - 200 ns and has all longer times.
* getStats: totalBytesWritten already has the pad bytes, so the first compression ratio counts them twice.
* C68: errors of aio_write, aio_error and aio_return are only printed, and a short count is not noticed; the
  bytes are not written again. If a dictionary fragment is lost, later messages are printed with the wrong
  statement (`C68_refuted`): fragments say neither where their ids start nor is totalMetadataEntries checked.
* C69: two measurements of the clock's frequency that agree can both be off by ten times what the comment
  says (`C69_refuted`); the spinning loop makes it unlikely (`C69_spinning_partial`).
* C70: a write that a signal only appears to end is counted as completed (`C70_refuted`).
* C71: with O_DIRECT the padding is part of the bytes written and is added again for the lower compression
  ratio; the upper one, meant without padding, includes it (`C71_refuted`).
* C72: a log appended to one that was cut off in the middle of an extent is not printed as logged: the
  decompressor takes its beginning for the rest of the extent (`C72_refuted`).
* C73: apart from the signal of C17, C36 and C37 the claim holds: a killed program's log has, for each thread,
  the first of its messages, and all those a completed sync() was for (`C73_killed_partial`, `C73_after_sync_partial`).
- C74: ordered decompression does not print an execution's messages in the order of their time stamps. Three stages are
  buffered, but the extent that begins a new pass ends the stage before it, and with few messages every extent is the
  first of its pass: a message that was logged just after its buffer was visited can be two stages behind a later one.
  Three threads and five messages suffice (`C74_refuted`). In order if the messages of other threads are always taken
  before one is logged (`C74_apart_partial`).
- With an aggregation function (or an empty dictionary) the decompressor reads
  `logId2Metadata[nextLogId]` before it tests `nextLogId >= numLogIds`, and where that
  read does no harm it returns false without moving on, so that the loop
  `while (bf->hasNext())` of internalDecompressUnordered never ends (C75, Aggregate.v).
- The generated decompression functions print negative widths given as arguments, so a
  log decompressed with an aggregation function shows messages that the same program
  without one does not print (`C75_negative_width`).
- A call of the encoder that takes no message may write nothing, and the mark of the end of a round over the threads is lost with it; C76 therefore asks for
  calls that took one (`all_took`).
- C79: a program of the preprocessor version that is changed and started again with the same log file leaves a
  file whose second part is printed with the texts of the old program, or not at all (Log.cc:646-707).
- C83: `1000*us` in Cycles::sleep is computed modulo 2^64 (Cycles.cc:223), so that very long durations end early.
* C45: the printed mean leaves out the smallest difference
  (`C45_mean_refuted`); with less than two messages the first element of an
  empty vector is read.

## Trusted base

Coq's kernel (8.16.1); the faithfulness of the transcription; the C++ facts
listed in the model comments (x86-64, little endian, GCC struct layout).
Every theorem named in MANIFEST.json is followed by `Print Assumptions`; all
say "Closed under the global context", so no axioms, not even of the standard
library, are used.
coqchk lists seven constants `Coq.ssr.ssrunder.Under_rel.*`: parameters of a
module type in a library file that is loaded with the standard tactics. No
theorem depends on them.
