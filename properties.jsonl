{"id": "C01", "title": "Integer arguments survive packing exactly", "statement": "For every integral C++ type an argument of NANO_LOG can have, packing any value of that type into the compact on-disk form and unpacking it as the same type yields the same value and leaves the read cursor exactly where the write cursor stopped; unpacking as a destination type no wider than the packed type yields the value C conversion between those types gives.", "quantifier": "all values of every 1/2/4/8-byte signed and unsigned integer type, all destination types no wider than it, all prior buffer contents, all positions", "why_tests_cant": "2^64 values per type; the interesting values sit at the byte and sign-encoding thresholds and interact with stale bytes behind the cursor", "anchors": ["runtime/Packer.h: BufferUtils::pack (unsigned, int32_t, int64_t, long long), BufferUtils::unpack"]}
{"id": "C02", "title": "Packed integers use the documented minimal width", "statement": "The packed form of an unsigned value v uses the least number n>=1 of bytes with v < 256^n; a signed value in (-2^24,0) (32 bit) or (-2^56,0) (64 bit) uses the width of its magnitude; the returned code always fits in a nibble and alone determines how many bytes were emitted.", "quantifier": "all values of all integer types", "why_tests_cant": "unit tests sample a handful of values; minimality and code/size agreement are claims about every value", "anchors": ["runtime/Packer.h: BufferUtils::pack, BufferUtils::getSizeOfPackedValues"]}
{"id": "C03", "title": "Floating point and pointer arguments survive packing bit for bit", "statement": "float, double, long double and pointer arguments unpack to the identical bit pattern; a float argument read back through a double conversion is the widening of that float and never a reinterpretation.", "quantifier": "all bit patterns including NaNs, all positions and prior buffer contents", "why_tests_cant": "2^32/2^64/2^128 bit patterns; the long double size code is 0 after masking to a nibble, a special case tests see only for a few values", "anchors": ["runtime/Packer.h: pack/unpack for floating point and pointers"]}
{"id": "C04", "title": "A packed argument block is self-delimiting", "statement": "For any sequence of packed values of any types, the nibble array in front of them determines the total size of the packed values, so that the position of the first string argument is found correctly without knowing the types, and reading the values back in order returns exactly the values packed.", "quantifier": "all sequences of values of any length (odd and even), all stale contents of the unused half nibble", "why_tests_cant": "unbounded sequence length and value space", "anchors": ["runtime/Packer.h: getSizeOfPackedValues, Nibbler"]}
{"id": "C05", "title": "Log entry headers round-trip", "statement": "The (message id, timestamp) pair stored in front of every message is recovered exactly from its compressed header given the previous timestamp in the same extent, also when time runs backwards or a delta does not fit a signed 64 bit integer, and the first byte always identifies the item as a log message.", "quantifier": "all 2^32 ids, all pairs of 64 bit timestamps", "why_tests_cant": "2^160 combinations, wrap-around arithmetic", "anchors": ["runtime/Log.h: compressLogHeader, decompressLogHeader"]}
{"id": "C06", "title": "The size reported for a compressed header equals the bytes written", "statement": "The number of bytes reported by the header compressor equals the number of bytes it emitted.", "quantifier": "all ids and timestamp pairs", "why_tests_cant": "only deltas needing all eight bytes expose a disagreement; tests never use them", "anchors": ["runtime/Log.h: compressLogHeader"]}
{"id": "C07", "title": "Compile-time format analysis finds exactly the printf parameters", "statement": "For every format string of the printf grammar the compile-time analysis reports exactly one entry per parameter printf would consume, in order, with the right class: dynamic width, dynamic precision, string with its static/dynamic/no precision, or other; strings outside the grammar are rejected.", "quantifier": "all format strings", "why_tests_cant": "infinite set of strings; flags, width, precision and length combine freely", "anchors": ["runtime/NanoLogCpp17.h: getParamInfo, analyzeFormatString, countFmtParams, getNumNibblesNeeded"]}
{"id": "C08", "title": "Decompressor and logging front end agree on every format string", "statement": "For every format string accepted at compile time, the description the decompressor derives from the dictionary has as many packed slots as the logging side emits, one fragment per specifier with the right type and dynamic width/precision marks, and the fragments concatenate to the original string.", "quantifier": "all format strings accepted at compile time", "why_tests_cant": "two independent parsers (hand-written constexpr scanner vs. regular expression) must agree on an infinite language", "anchors": ["runtime/NanoLogCpp17.h: getParamInfo", "runtime/Log.cc: Decoder::createMicroCode, getFormatType"]}
{"id": "C09", "title": "A decompressed message reads exactly as printf would have printed it", "statement": "For every log statement whose printf call is well defined, logging it, compressing it and decompressing it prints the text printf(format, args) would have printed, whatever the C library prints for each single conversion.", "quantifier": "all format strings, all argument lists, all conversion renderers", "why_tests_cant": "infinite input space; ties four components (recorder, compressor, dictionary, decompressor) together", "anchors": ["runtime/NanoLogCpp17.h: log, store_arguments, compress", "runtime/Log.cc: decompressNextLogStatement, printSingleArg, createMicroCode"]}
{"id": "C10", "title": "Space computed for a log statement equals the bytes recorded", "statement": "The number of bytes reserved for a dynamic log record equals the number of bytes then written into it, so recording never writes outside the reservation and the recorded entry size always leads to the next entry.", "quantifier": "all parameter classifications and argument lists, including strings with static, dynamic and no precision and wide strings", "why_tests_cant": "sizes are computed by one recursive template and written by another; agreement is needed for every argument list", "anchors": ["runtime/NanoLogCpp17.h: getArgSize, getArgSizes, store_argument, store_arguments, log"]}
{"id": "C11", "title": "String arguments are cut exactly where printf would stop", "statement": "A string argument recorded for %s, %.Ns or %.*s is exactly the prefix of the argument printf could print (whole string, first N, or first dynamic-precision characters; wide strings alike).", "quantifier": "all strings, all precisions (including larger than the string, zero, and negative dynamic precision)", "why_tests_cant": "unbounded string length and precision", "anchors": ["runtime/NanoLogCpp17.h: getArgSize, store_argument"]}
{"id": "C12", "title": "Compression never writes outside the output buffer", "statement": "Whatever is staged, the encoder never writes outside the buffer it was given, counting also the bytes written beyond the cursor by fixed-size copies, and it never modifies bytes it already emitted other than the length field of the current extent.", "quantifier": "all sequences of encoder operations, all buffer sizes, all staged messages", "why_tests_cant": "the slack argument (2*entrySize+header) has to cover every argument mix at every buffer fill level", "anchors": ["runtime/Log.cc: Encoder::encodeLogMsgs, encodeNewDictionaryEntries, encodeBufferExtentStart, insertCheckpoint", "runtime/Packer.h: pack"]}
{"id": "C13", "title": "Encoding consumes whole messages, in order, exactly once", "statement": "Each encoding call reports consuming exactly the bytes of the messages it emitted, a prefix of the staged messages; the messages it did not take are untouched and emitted by later calls, across output buffer swaps, with none lost, duplicated or reordered; progress is made whenever the output buffer is fresh.", "quantifier": "all staged message sequences, all buffer fill levels, all ways of splitting into calls", "why_tests_cant": "requires every possible alignment of message sizes against buffer and threshold boundaries", "anchors": ["runtime/Log.cc: Encoder::encodeLogMsgs, swapBuffer", "runtime/RuntimeLogger.cc: compressionThreadMain"]}
{"id": "C14", "title": "An extent decodes to exactly the messages encoded in it", "statement": "Reading back an encoded extent yields its thread id, its pass marker and exactly its messages with ids, timestamps and arguments, in order, for any thread id and any number of messages including none.", "quantifier": "all message sequences, all 2^32 thread ids, all stale decoder storage contents", "why_tests_cant": "unbounded sequences; state carried between messages (timestamp base, cursors)", "anchors": ["runtime/Log.cc: encodeBufferExtentStart, encodeLogMsgs, BufferFragment::readBufferExtent, decompressNextLogStatement"]}
{"id": "C15", "title": "Every extent fits the decompressor's fixed storage", "statement": "Every extent the runtime emits from messages within the documented size limit is small enough for the decompressor's fixed-size extent storage, so it is never rejected as corrupt.", "quantifier": "all message mixes within the size limit, including ones that expand under compression", "why_tests_cant": "worst-case expansion needs hundreds of thousands of one-byte arguments", "anchors": ["runtime/Log.h: Decoder::BufferFragment::storage", "runtime/Log.cc: readBufferExtent, encodeLogMsgs", "runtime/Config.h"]}
{"id": "C16", "title": "The dictionary is recovered exactly", "statement": "However the dictionary of log sites is split into fragments, the decompressor recovers for each id the severity, line, file name and format string registered for it, with ids in registration order.", "quantifier": "all site lists, all splits into fragments, all strings whose lengths fit the 16 bit fields", "why_tests_cant": "unbounded lists and strings; fragment boundaries depend on buffer fill levels", "anchors": ["runtime/Log.cc: encodeNewDictionaryEntries, readDictionaryFragment"]}
{"id": "C17", "title": "No message precedes its dictionary entry", "statement": "In every log file produced, every message's id is defined by a dictionary fragment located before the message in the same execution section of that file.", "quantifier": "all schedules of registrations, logging, encoding and file switches", "why_tests_cant": "registration races with encoding; the window is a few instructions wide", "anchors": ["runtime/RuntimeLogger.cc: compressionThreadMain", "runtime/RuntimeLogger.h: registerInvocationSite_internal", "runtime/Log.cc: encodeLogMsgs"]}
{"id": "C18", "title": "Unordered decompression prints each message of the file once, in file order", "statement": "decompressUnordered on a complete log file prints exactly the messages contained in it, each once, in file order, with the metadata of the execution they belong to, and reports success.", "quantifier": "all well-formed files: any number of executions, fragments, extents, padding", "why_tests_cant": "infinite set of files", "anchors": ["runtime/Log.cc: internalDecompressUnordered, readDictionary, readBufferExtent"]}
{"id": "C19", "title": "Iterating with getNextLogStatement visits the same messages", "statement": "Calling getNextLogStatement until it reports the end visits exactly the messages unordered decompression prints, in the same order, and reports the end only when all of them were visited.", "quantifier": "all well-formed files, including files with empty extents and several executions", "why_tests_cant": "iterator state machine over an infinite set of files", "anchors": ["runtime/Log.cc: getNextLogStatement"]}
{"id": "C20", "title": "Ordered decompression neither loses nor duplicates messages", "statement": "decompressTo prints exactly the messages contained in the file, each once.", "quantifier": "all well-formed files, all tie-breaking choices of the heap", "why_tests_cant": "stage shifting, early exhaustion of a stage and end of file interact; tests cover a few layouts", "anchors": ["runtime/Log.cc: Decoder::decompressTo"]}
{"id": "C21", "title": "Ordered decompression is chronological for bounded displacement", "statement": "If messages are displaced by at most the number of passes the decompressor buffers (every message of a pass is no later than every message three or more passes later), decompressTo prints messages in non-decreasing time order.", "quantifier": "all files meeting the displacement bound, all tie-breaking choices", "why_tests_cant": "needs all interleavings of pass contents", "anchors": ["runtime/Log.cc: Decoder::decompressTo"]}
{"id": "C22", "title": "Ordered decompression attributes messages to the right execution", "statement": "When several executions were appended to one file, decompressTo prints all messages of an execution, with that execution's dictionary and clock, before anything of the next execution.", "quantifier": "all files with any number of executions", "why_tests_cant": "depends on which stages happen to be exhausted when the next execution starts", "anchors": ["runtime/Log.cc: Decoder::decompressTo, readDictionary"]}
{"id": "C23", "title": "A truncated log decodes to a prefix", "statement": "If a log file is cut at an arbitrary byte (crash), the decompressor terminates and reports exactly the messages whose extents were completely written, a prefix of the messages of the full file.", "quantifier": "all well-formed files, all cut positions", "why_tests_cant": "every byte position of every file", "anchors": ["runtime/Log.cc: readBufferExtent, internalDecompressUnordered, getNextLogStatement"]}
{"id": "C24", "title": "Reopening a decoder starts from scratch", "statement": "After Decoder::open succeeds on a file, the messages returned are those of that file, whatever was read through the same decoder before.", "quantifier": "all pairs of files, all numbers of messages read before reopening", "why_tests_cant": "history dependence of hidden iterator state", "anchors": ["runtime/Log.cc: Decoder::open, getNextLogStatement"]}
{"id": "C25", "title": "Staging buffer delivers bytes first-in first-out", "statement": "For every interleaving of the logging thread and the background thread, the bytes the background thread consumes from a staging buffer are exactly the bytes the logging thread recorded, in order, never torn: what is visible is always a whole number of messages.", "quantifier": "all interleavings, all message sizes, unbounded executions", "why_tests_cant": "lock-free wrap-around buffer; failing schedules are rare and timing dependent", "anchors": ["runtime/RuntimeLogger.h: StagingBuffer", "runtime/RuntimeLogger.cc: reserveSpaceInternal, peek"]}
{"id": "C26", "title": "The logging thread never overwrites unread data or leaves the buffer", "statement": "Every byte range handed to the logging thread lies inside the staging buffer, is contiguous and disjoint from all bytes not yet consumed, for every interleaving.", "quantifier": "all interleavings, all message sizes", "why_tests_cant": "same; memory corruption may go unnoticed in tests", "anchors": ["runtime/RuntimeLogger.h: reserveProducerSpace, finishReservation", "runtime/RuntimeLogger.cc: reserveSpaceInternal"]}
{"id": "C27", "title": "A blocked log statement proceeds once the background thread catches up", "statement": "A reservation smaller than the staging buffer succeeds as soon as the background thread has drained the buffer, from every reachable state; a reservation of at least the buffer size never succeeds.", "quantifier": "all reachable buffer states, all sizes", "why_tests_cant": "deadlock freedom over all wrap-around positions", "anchors": ["runtime/RuntimeLogger.cc: reserveSpaceInternal, peek"]}
{"id": "C28", "title": "A thread's buffer is reclaimed only after all its messages were consumed", "statement": "If a thread exits, its staging buffer is deleted only when every message it logged has been consumed, for every interleaving of its last log statement, its exit and the background scan.", "quantifier": "all interleavings", "why_tests_cant": "a race between exit and the final scan", "anchors": ["runtime/RuntimeLogger.h: StagingBuffer::checkCanDelete, StagingBufferDestroyer", "runtime/RuntimeLogger.cc: compressionThreadMain"]}
{"id": "C29", "title": "One scan of the background thread looks at every buffer", "statement": "A scan that does not run out of output space examines every staging buffer registered when it started.", "quantifier": "all numbers of buffers, all scan start positions, all sets of dead buffers", "why_tests_cant": "depends on position of deleted buffers relative to the scan start", "anchors": ["runtime/RuntimeLogger.cc: compressionThreadMain (scan loop)"]}
{"id": "C30", "title": "sync() makes every earlier message durable", "statement": "When sync() returns, every message any thread finished logging before sync() was called is in the log file.", "quantifier": "all schedules of logging threads, exits, background thread, I/O completion and concurrent sync calls", "why_tests_cant": "only particular schedules break it; they depend on thread exits racing with the scan", "anchors": ["runtime/RuntimeLogger.cc: sync, compressionThreadMain", "runtime/NanoLog.h: sync"]}
{"id": "C31", "title": "Each log site gets exactly one id", "statement": "For every interleaving of threads reaching log sites for the first time, each site is assigned exactly one id, ids are dense from zero and never change, distinct sites get distinct ids, and the dictionary entry stored under the id is that site's.", "quantifier": "all interleavings, any number of sites and threads", "why_tests_cant": "registration race", "anchors": ["runtime/RuntimeLogger.h: registerInvocationSite_internal", "runtime/NanoLogCpp17.h: log"]}
{"id": "C32", "title": "Log level filtering", "statement": "A log statement is recorded iff its severity is at most the level in force when it executes; setLogLevel clamps to the valid range and affects exactly the statements executed after it.", "quantifier": "all sequences of level changes and log statements", "why_tests_cant": "all histories", "anchors": ["runtime/RuntimeLogger.cc: setLogLevel", "runtime/NanoLogCpp17.h: NANO_LOG"]}
{"id": "C33", "title": "Switching the log file keeps every file self-contained", "statement": "After setLogFile returns, later messages go only to the new file, earlier ones are in the old file, the new file starts with a checkpoint and defines every id it uses; a failed switch leaves the old file in use.", "quantifier": "all schedules and histories of file switches", "why_tests_cant": "involves stopping and restarting the background thread at arbitrary points", "anchors": ["runtime/RuntimeLogger.cc: setLogFile_internal, compressionThreadMain"]}
{"id": "C34", "title": "Aggregation callbacks see all arguments", "statement": "The argument list handed to a per-message callback contains every argument at its position with its value, for any number of arguments, also when one message object is reused for messages of different sizes.", "quantifier": "all argument counts and histories of reuse", "why_tests_cant": "growth boundaries at 10, 20, 40, ... arguments and reuse history", "anchors": ["runtime/Log.h: LogMessage", "runtime/Log.cc: LogMessage::reserve, reset"]}
{"id": "C35", "title": "Printed timestamps denote the recorded instant", "statement": "The wall-clock time printed for a message is the checkpoint time plus the elapsed cycles divided by the clock rate, with the fraction printed as exactly nine digits below one second, also for messages before the checkpoint.", "quantifier": "all checkpoints, timestamps and clock rates", "why_tests_cant": "borrow and rounding boundaries", "anchors": ["runtime/Log.cc: decompressNextLogStatement"]}
{"id": "C36", "title": "Files contain the encoded buffers in order, each once", "statement": "The log file is the concatenation, in order, of all buffers handed to asynchronous I/O; the buffer being written is never modified while the write is in flight.", "quantifier": "all schedules of I/O completion and encoding", "why_tests_cant": "double buffering race", "anchors": ["runtime/RuntimeLogger.cc: compressionThreadMain (AIO)", "runtime/Log.cc: swapBuffer"]}
{"id": "C37", "title": "End to end: what threads log is what the file says", "statement": "In every reachable state of the running system, decoding the bytes written so far yields, per thread, exactly a prefix of the messages that thread logged, in order, with their ids, timestamps and arguments; once drained and flushed it yields all of them.", "quantifier": "all schedules, any number of threads, messages and file flushes", "why_tests_cant": "composition of all concurrent and codec properties", "anchors": ["runtime/RuntimeLogger.cc", "runtime/Log.cc", "runtime/NanoLogCpp17.h"]}
{"id": "C38", "title": "Generated log identifiers are unique", "statement": "In preprocessor mode two log statements get the same generated function only if they have the same format string, file, line and severity.", "quantifier": "all pairs of log statements", "why_tests_cant": "collision search over infinite strings", "anchors": ["preprocessor/FunctionGenerator.py: generateLogIdStr, generateLogFunctions"]}
{"id": "C39", "title": "Preprocessor splits format strings like the decompressor expects", "statement": "The preprocessor's fragments of a format string concatenate to the string, contain exactly one specifier each, and record the argument order printf uses.", "quantifier": "all format strings", "why_tests_cant": "infinite language", "anchors": ["preprocessor/FunctionGenerator.py: splitAndParseTypesInFmtString"]}
{"id": "C40", "title": "Padding does not damage the log", "statement": "Bytes added to pad a block for direct I/O are skipped by the decompressor and do not change any message.", "quantifier": "all encoded buffers and pad lengths", "why_tests_cant": "only active with a non-default configuration", "anchors": ["runtime/RuntimeLogger.cc: compressionThreadMain (O_DIRECT)", "runtime/Log.cc: peekEntryType"]}
{"id": "C41", "title": "A replaced dictionary takes effect", "statement": "When an appended execution carries its own complete dictionary (preprocessor mode), messages of that execution are decoded with that dictionary.", "quantifier": "all pairs of dictionaries", "why_tests_cant": "tests append runs of the same program only", "anchors": ["runtime/Log.cc: Decoder::readDictionary"]}
{"id": "C42", "title": "C string literals are extracted faithfully", "statement": "The preprocessor extracts from every sequence of adjacent C string literals the concatenation of their contents.", "quantifier": "all literals", "why_tests_cant": "infinite language", "anchors": ["preprocessor/parser.py: extractCString"]}
{"id": "C43", "title": "Log statistics are correct", "statement": "The decompressor's minMaxMean command reports the minimum, maximum, sum and mean of the selected argument over all matching messages and behaves sensibly when nothing matches.", "quantifier": "all message sequences", "why_tests_cant": "all inputs", "anchors": ["runtime/LogDecompressor.cc"]}
{"id": "C44", "title": "The background thread never gets stuck", "statement": "In every reachable state the compression thread can take its next step, except after it has returned and while it waits in aio_suspend for a write that has not completed: it never indexes outside the list of staging buffers, never resumes a buffer in the wrong state, and never asks the encoder for something it cannot do.", "quantifier": "all reachable states of the running system: all schedules, numbers of threads, exits, file switches, output buffer sizes", "why_tests_cant": "index arithmetic with deletions during the scan; unsigned wrap-around when the first buffer is deleted", "anchors": ["runtime/RuntimeLogger.cc: compressionThreadMain"]}
{"id": "C45", "title": "The reverse CDF of inter-log times is correct", "statement": "The rcdfTime command prints, for rising latencies, the number of time differences larger than the latency (to within its resolution), and the mean of all differences.", "quantifier": "all sequences of time stamps", "why_tests_cant": "Latencies come from the machine; nobody recomputes the printed numbers.", "anchors": ["runtime/LogDecompressor.cc: runRCDF"]}
{"id": "C46", "title": "Logged messages reach the file, and sync() returns", "statement": "From every reachable state with the compression thread not asked to stop, if from then on only the thread runs and writes complete, a state is reached in which every message that had reached memory is in the file (and is printed by the decoder), every call of sync() has returned, and every empty staging buffer whose thread is known to have exited has been deleted.", "quantifier": "all reachable states: all numbers of threads and buffers, fill levels, pending writes, deletions in progress; all output buffer sizes that pass Config.h's static_assert", "why_tests_cant": "liveness: a test cannot tell a slow thread from one that makes no progress; the sizes that matter are a thousand times smaller than the default output buffer", "anchors": ["runtime/RuntimeLogger.cc: compressionThreadMain, sync", "runtime/Config.h"]}
{"id": "C47", "title": "setLogFile() and the logger's destructor end, and everything logged before is in the old file", "statement": "From every reachable state in which a call of setLogFile() (or the destructor) is under way, the compression thread, the disk and the caller can go on until the thread has returned with no write pending and nothing left in the output buffer; the call can then finish, and every message that had reached memory before its sync() ended is in the file.", "quantifier": "all reachable states in which a file switch is under way", "why_tests_cant": "joins a thread that is in the middle of a scan, of a double buffer swap or of a sync; needs the right moment", "anchors": ["runtime/RuntimeLogger.cc: setLogFile_internal, ~RuntimeLogger, compressionThreadMain"]}
{"id": "C48", "title": "A statement compiled with the preprocessor is printed as printf would print it", "statement": "For every log statement and its arguments for which printf is defined: the preprocessor accepts the format, the arguments convert to the parameters of the generated record function, which fills exactly the bytes it reserved; the generated compression function packs them; and the decompressor, given the statement's dictionary entry, prints the text printf would print for the characters of the format literal and consumes exactly the message.", "quantifier": "all formats, escape sequences, arguments, memories and positions", "why_tests_cant": "the tests compile a handful of statements and compare generated text; which combination of types, widths, precisions and string contents goes wrong is not visible from it", "anchors": ["preprocessor/FunctionGenerator.py: generateLogFunctions", "runtime/Log.cc: decompressNextLogStatement"]}
{"id": "C49", "title": "The generated dictionary describes every statement under its number", "statement": "When a program compiled with the preprocessor starts a log file and the checkpoint with the dictionary is written successfully, a new decompressor that reads these bytes uses, for the number of each statement, the description (severity, line, file, format fragments, number of nibbles) of that statement; if the dictionary does not fit, nothing is output and nothing outside the buffer is written.", "quantifier": "all programs, encoder buffers and positions, memory contents and times", "why_tests_cant": "the tests write a dictionary of a few fixed statements into a buffer that is large enough; numbers depend on the sorted order of all identifiers of the program, and the room check is off by one in either direction at one buffer size only", "anchors": ["preprocessor/FunctionGenerator.py: outputCompilationFile, generateLogFunctions", "runtime/Log.cc: insertCheckpoint, Decoder::readDictionary"]}
{"id": "C50", "title": "The generated decompression function prints what printf would print", "statement": "Under the conditions of C48, the decompression function generated for the statement prints printf's text too, and leaves its input pointer behind the message.", "quantifier": "all formats, arguments (negative widths and precisions included), memories and positions", "why_tests_cant": "as C48; it keeps nibbles and strings apart by index and needs both to be in step with the compression function for every interleaving of types", "anchors": ["preprocessor/FunctionGenerator.py: generateLogFunctions"]}
{"id": "C51", "title": "The preprocessor cuts a log statement's arguments apart where C++ does", "statement": "For every call NANO_LOG(severity, format, more...); whose arguments are properly nested C++ text, parseLogStatement returns the text of the severity and of the format unchanged and finds the semicolon that ends the statement, whatever follows.", "quantifier": "all calls: any number of arguments, nesting of parentheses, brackets and braces, string literals with any contents, white space and line breaks", "why_tests_cant": "the unit tests try two dozen calls; quotes, escapes and brackets combine in unboundedly many ways", "anchors": ["preprocessor/parser.py: parseLogStatement, parseArgumentStartingAt, peekNextMeaningfulChar"]}
{"id": "C52", "title": "The preprocessor finds every log statement with its file and line and puts a call of its generated function in its place", "statement": "For every source file behind g++ -E that is made of line markers, the last line of RuntimeLogger.h (the injection marker) and lines of code with any number of log statements, processFile ends, passes to the function generator exactly the statements of the file in order, each with the text of its severity and format and with the file and line its position has by the line markers, and writes the file with every statement's name replaced by an opened block and the name of the function generated for it, the block closed behind the statement, and everything else unchanged.", "quantifier": "all files of that form: any markers, code, number of statements per line, statements over several lines", "why_tests_cant": "the unit tests run processFile on four small files; line numbers, columns and quoting depend on everything in front of a statement", "anchors": ["preprocessor/parser.py: processFile", "preprocessor/FunctionGenerator.py: generateLogFunctions"]}
{"id": "C53", "title": "The preprocessor keeps the file, line and column of the user's code", "statement": "Reading source and output as a compiler does, where line markers set file and line: every character of the user's code that is no white space, and of the log statements but for the name NANO_LOG, is in the output at the file, line and column it has in the source, in the same order; the other characters of the output are the generated functions, and for each statement an opening brace and its function's name in a file of their own and a closing brace.", "quantifier": "all files of C52 in which a line marker follows the header, and all texts of generated functions that have their own line marker", "why_tests_cant": "the unit tests compare the output of four small files as text; error messages and debug information at a wrong line or column do not fail any test, and the column behind several statements on a line depends on all of them", "anchors": ["preprocessor/parser.py: processFile"]}
{"id": "C54", "title": "Later messages do not get earlier times", "statement": "If the timestamp of one message is not smaller than that of another one and both refer to the same checkpoint, the seconds and the nine digits printed for it are not earlier than those printed for the other, in spite of all roundings.", "quantifier": "all checkpoints and pairs of timestamps of C35: less than 2^63 cycles and at most 2^50 seconds from the checkpoint", "why_tests_cant": "single timestamps are compared in tests; that five roundings in a row never reverse an order has to hold for all pairs, among them those a few cycles apart", "anchors": ["runtime/Log.cc: Decoder::BufferFragment::decompressNextLogStatement", "runtime/Cycles.cc: toSeconds"]}
{"id": "C55", "title": "Conversions between cycles and time", "statement": "toNanoseconds, toMicroseconds and fromNanoseconds return the exact value rounded to the nearest integer, up to the relative error of double arithmetic, and are monotone; fromNanoseconds undoes toNanoseconds up to the cycles of half a nanosecond and that error.", "quantifier": "all numbers of cycles and nanoseconds and all frequencies, results up to 2^63 (2^62 for the way back)", "why_tests_cant": "the error depends on all three roundings of each conversion and on the frequency of the machine", "anchors": ["runtime/Cycles.cc: toNanoseconds, toMicroseconds, fromNanoseconds, fromSeconds"]}
{"id": "C56", "title": "The time trace prints the recent events of all threads once and in order", "statement": "printInternal starts at the latest of the times of the buffers' oldest events; it prints of every buffer the events from the first one on that is not older, among the last 8191 since its last reset, each exactly once and in the order of recording; if the times in each buffer never decrease, the printed times never do.", "quantifier": "any number of buffers, any sequence of records and resets of each, with times below 2^64 - 1", "why_tests_cant": "the order in which buffers are merged and the boundary cases of full, just full and reset circular buffers are too many for tests", "anchors": ["runtime/TimeTrace.cc: record, reset, printInternal"]}
{"id": "C57", "title": "No event is recorded while a time trace is printed", "statement": "Between the start and the end of printInternal recording to the buffers printed leaves them unchanged.", "quantifier": "all histories of a buffer and all events", "why_tests_cant": "no test records while another thread prints; the counter is updated with the wrong atomic operation", "anchors": ["runtime/TimeTrace.cc: record, printInternal"]}
{"id": "C58", "title": "A log statement the preprocessor cannot handle is an error", "statement": "processFile ends with an error, and writes nothing, if the file has a call of NANO_LOG that is not followed by a semicolon, has one argument only, has a format that is not a sequence of string literals, that is empty or has an unsupported specifier; or if no NanoLog header comes before the statement. No such call passes unnoticed.", "quantifier": "all files of C52 in front of the call, all calls with properly nested arguments, and all texts behind it", "why_tests_cant": "the unit tests have one file per error message; that the error is found at any place behind any other statements is not tested", "anchors": ["preprocessor/parser.py: processFile, parseLogStatement, extractCString", "preprocessor/FunctionGenerator.py: generateLogFunctions"]}
{"id": "C59", "title": "Damage to a log hides nothing that is in front of it", "statement": "If a log is followed by arbitrary bytes, everything in front of them is still shown: getNextLogStatement delivers every message of the log before these bytes matter, unordered decompression prints the log first, and ordered decompression prints all its messages.", "quantifier": "all logs of C18 (for ordered decompression with one execution), all bytes behind them, all states of the decoder, all tie-breaks of the heaps", "why_tests_cant": "the tests corrupt one log at one place; that no later byte can reach back over the buffering of three passes needs all files and all continuations", "anchors": ["runtime/Log.cc: Log::Decoder::decompressTo, internalDecompressUnordered, getNextLogStatement, readBufferExtent"]}
{"id": "C60", "title": "The decompressor's dictionary stays inside its buffer and describes the statements of the log", "statement": "createMicroCode writes the metadata of every statement into rawMetadata, a buffer of 1 GB, inside its bounds, without touching the metadata written before, and printing reads through the pointers of fmtId2metadata what was written: decompressing with the buffer gives what decompressing with a list of statements gives, in all three ways of decompressing.", "quantifier": "all files of bytes, all logs cut off anywhere, all contents of the buffer before, all sizes of the buffer, all tie-breaks of the heaps", "why_tests_cant": "tests have a handful of statements in a buffer of 1 GB; that nothing overlaps or is read from bytes never written is a statement about all format strings, and the overrun needs 76 million statements", "anchors": ["runtime/Log.cc: Log::Decoder::createMicroCode, readDictionaryFragment, readDictionary, decompressNextLogStatement", "runtime/Log.h: FormatMetadata, PrintFragment"]}
{"id": "C61", "title": "A program with the preprocessor's log statements prints, once decompressed, what printf would have printed", "statement": "For a program whose log statements were replaced by the preprocessor: what the record functions store for executed statements, compressed by the generated functions and encoded into extents behind the checkpoint that carries the generated dictionary, is read by a new decompressor as one line per encoded message, in the order of encoding, each with the thread, time, number, file, line and severity of the statement and with the text printf prints for its arguments.", "quantifier": "all programs (translation units, formats, files, lines, severities), all executed statements and arguments for which printf is defined, all threads, timestamps, splits into calls of the encoder, sizes of the output buffer and padding", "why_tests_cant": "the preprocessor's tests compare generated code with stored text and its integration test prints one fixed program; agreement of six stages (numbering, record function, compression function, encoder, dictionary writer, decompressor) is a statement about all programs and arguments", "anchors": ["preprocessor/FunctionGenerator.py: generateLogFunctions, outputCompilationFiles", "runtime/Log.cc: Log::Encoder::encodeLogMsgs, insertCheckpoint, Log::Decoder::readDictionaryFragment, internalDecompressUnordered, decompressNextLogStatement", "runtime/Log.h: Log::insertCheckpoint"]}
{"id": "C62", "title": "Lines of the ordered output are sorted as text by their time stamps", "statement": "When the decompressor orders the messages of one execution (within the limits of C21), the printed time stamps, \"2023-11-14 22:13:20.123456789\", are in order when compared character by character, as sort or a text search would.", "quantifier": "all files, timestamps, checkpoints (clock rates, wall clock times from 1970 to 9999), time zones in which clocks are not set back, and orders of equal messages", "why_tests_cant": "the tests compare the output of one recorded log; whether calendar, rounding and widths keep the order is a statement about every pair of times, and the one exception (nanoseconds rounding to ten digits) needs a message in the last half nanosecond of a second", "anchors": ["runtime/Log.cc: Log::Decoder::decompressNextLogStatement, Log::Decoder::decompressTo, BufferFragment::operator"]}
{"id": "C63", "title": "A line of the output identifies time, place, severity, thread and text", "statement": "Two messages whose lines in the output are the same have the same local time and nanoseconds, file, line, severity, thread and text.", "quantifier": "all pairs of messages, checkpoints and time zones", "why_tests_cant": "ambiguity of a text format is a statement about pairs of messages; tests print given messages and compare lines", "anchors": ["runtime/Log.cc: Log::Decoder::decompressNextLogStatement, logLevelNames"]}
{"id": "C64", "title": "The decompressor program prints a log's lines and their number", "statement": "For a log, or what is left of one cut off anywhere, `decompressUnordered` writes the text of every line in the order of the file and then the number of messages, and ends with status 0; `decompress` writes the same lines of one execution in some order with the same number. Where the checkpoint at the start is cut off or the file cannot be opened, it says so and ends with status 1; with too few arguments or another command it prints the usage and ends with status 1.", "quantifier": "all logs (sites, arguments, threads, timestamps, padding, executions), all lengths they are cut off at, time zones, program names and further arguments, and choices among equal timestamps", "why_tests_cant": "the integration test runs the program on one log and compares the output; that no log loses or repeats a line, at any point of truncation, is a statement about all files", "anchors": ["runtime/LogDecompressor.cc: main, printHelp", "runtime/Log.cc: Log::Decoder::getNextLogStatement, decompressTo, open"]}
{"id": "C65", "title": "The number in the last line of the output is the number of messages printed", "statement": "Whatever the file contains, if the decompressor comes to its end, the number of log messages it reports is the number of messages it has printed.", "quantifier": "all files, damaged or not, and both commands", "why_tests_cant": "tests count the messages of well-formed logs and of logs cut at chosen points; the counter and the output part ways only on files with an extent that ends inside a message header", "anchors": ["runtime/LogDecompressor.cc: main", "runtime/Log.cc: Log::Decoder::getNextLogStatement, Log::Decoder::BufferFragment::decompressNextLogStatement, decompressTo"]}
{"id": "C66", "title": "The distribution of peek sizes counts every peek in its interval", "statement": "In every execution of a logging thread and the background thread, each peek that finds data finds less than the whole staging buffer, so counting it stays inside stagingBufferPeekDist; the line \"i*5 - (i+1)*5%\" of the report has exactly the number of peeks that found at least i*5 and less than (i+1)*5 percent of the buffer, and the 20 lines add up to the number of peeks that found data.", "quantifier": "all interleavings of the two threads under x86-TSO, message sizes and contents, and buffer sizes", "why_tests_cant": "a peek of the full buffer would write behind the array; that no interleaving and wrap-around offers it is a statement about all executions, and no test looks at the distribution", "anchors": ["runtime/RuntimeLogger.cc: RuntimeLogger::compressionThreadMain, StagingBuffer::peek, reserveSpaceInternal, RuntimeLogger::getHistograms", "runtime/RuntimeLogger.h: stagingBufferPeekDist"]}
{"id": "C67", "title": "The report of blocked producers says how often and how long threads were blocked", "statement": "With RECORD_PRODUCER_STATS, getHistograms prints for every thread the number of its allocations and of those that were blocked, and in the line \"i*10 - (i+1)*10 ns\" the number of those that were blocked for so long.", "quantifier": "all sequences of allocations, durations and clock rates", "why_tests_cant": "the counters are compiled out of the tests; the division by the number of blockings fails only for a thread that was never blocked, and the intervals depend on the clock's rate", "anchors": ["runtime/RuntimeLogger.cc: StagingBuffer::reserveSpaceInternal, RuntimeLogger::getHistograms", "runtime/RuntimeLogger.h: StagingBuffer, reserveProducerSpace", "runtime/Cycles.cc: fromNanoseconds, toNanoseconds"]}
{"id": "C68", "title": "After writes that fail or are cut short, what is in the file is printed as logged", "statement": "Whatever becomes of the background thread's writes (not started, failed, or only some of the bytes written), decompressing the file prints every message whose extent is in the file in full, as it was logged, and nothing else.", "quantifier": "all logs, divisions of a log into writes, and outcomes of each write", "why_tests_cant": "tests cannot make the disk fail at chosen writes; which combinations of lost pieces a reader survives is a statement about all files and all outcomes", "anchors": ["runtime/RuntimeLogger.cc: RuntimeLogger::waitForAIO, compressionThreadMain", "runtime/Config.h: FILE_PARAMS", "runtime/Log.cc: Log::Decoder::readDictionaryFragment, internalDecompressUnordered, Log::Decoder::BufferFragment::readBufferExtent"]}
{"id": "C69", "title": "The measured clock frequency has the precision its comment promises", "statement": "Cycles::init compares successive measurements until two are within 0.001% of each other; if no reading of the two clocks is interrupted, the frequency it returns is within 0.001% of the counter's frequency.", "quantifier": "all frequencies, sequences of readings (times at which the clock and the counter are read, delays between the two), and rounding of the clock to microseconds and of the doubles", "why_tests_cant": "the tests replace the counter by mock values; the error of a measurement depends on when within a microsecond it starts and ends, which a test cannot choose", "anchors": ["runtime/Cycles.cc: Cycles::init"]}
{"id": "C70", "title": "The counts that getStats reports are those of the messages and bytes logged and written", "statement": "At every time, the bytes read reported are those taken from the threads' buffers, the bytes written those of all files and of the write going on, the number of events that of the messages encoded (in the files, once all is written), and the number of writes completed that of the writes that have ended.", "quantifier": "all executions of logging threads, background thread, sync, setLogFile, setLogLevel, restarts and signals, all messages, all timings of writes", "why_tests_cant": "the counters are written by one thread while others run, and are wrong only if an update is missed at some point of an interleaving; the tests check two counters after one run", "anchors": ["runtime/RuntimeLogger.cc: RuntimeLogger::getStats, RuntimeLogger::compressionThreadMain, RuntimeLogger::waitForAIO", "runtime/Log.cc: Encoder::encodeLogMsgs"]}
{"id": "C71", "title": "The compression ratios reported are those to the bytes written with and without padding", "statement": "getStats prints a range of compression ratios: the lower one is the bytes read over all the bytes in the file, padding included, the upper one is the bytes read over the bytes of compressed messages.", "quantifier": "all sequences of writes, with and without O_DIRECT, all numbers of bytes read", "why_tests_cant": "no test sets O_DIRECT or checks the printed ratios", "anchors": ["runtime/RuntimeLogger.cc: RuntimeLogger::getStats, RuntimeLogger::compressionThreadMain"]}
{"id": "C72", "title": "Logs appended to a file that has logs in it are printed in full", "statement": "The log file is opened for appending (by the next program that uses the default file, and by setLogFile with a file used before). Decompressing a file that has been logged to several times prints the lines each log has by itself, one log after the other, each but the first announced as a new execution, whatever state the earlier programs left the file in when they ended.", "quantifier": "all executions of the running system, all assignments of files to the logs between calls of setLogFile, all earlier contents", "why_tests_cant": "the tests remove the log file before each run", "anchors": ["runtime/Config.h: FILE_PARAMS", "runtime/RuntimeLogger.cc: RuntimeLogger::RuntimeLogger, RuntimeLogger::setLogFile_internal", "runtime/Log.cc: Decoder::open, Decoder::internalDecompressUnordered"]}
{"id": "C73", "title": "Killing the program loses only the ends of the threads' logs", "statement": "If the program is killed at any moment, the log file then there, with any part of the write going on, makes the decompressor print for every thread messages that it logged, in order and none left out in front of the last; all those of the writes that had ended; and all those logged before a call of sync() that had returned. So it is for unordered and for ordered decompression and for iterating.", "quantifier": "all states of all executions of the running system, all numbers of bytes written of the buffer in flight, all decoders, all orders of equal time stamps", "why_tests_cant": "the tests cannot kill the process between two instructions, and decode files that were written whole", "anchors": ["runtime/RuntimeLogger.cc: RuntimeLogger::compressionThreadMain, RuntimeLogger::sync", "runtime/Log.cc: Encoder::encodeLogMsgs, Decoder::readDictionaryFragment, Decoder::internalDecompressUnordered, Decoder::decompressTo, Decoder::getNextLogStatement"]}
{"id": "C74", "title": "Ordered decompression prints what an execution logged in the order of its time stamps", "statement": "If the clock that all threads read does not go back, and every log statement is executed at once, then ordered decompression of the log of any execution prints its messages in the order of their time stamps, each once, although the compression thread takes them thread by thread and while others are logged.", "quantifier": "all executions of the running system with any number of threads, all files of an execution, all decoders whatever they were used for before, all orders of equal time stamps", "why_tests_cant": "the tests of ordered decompression construct files by hand; no test logs from several threads, lets the compression thread visit their buffers at chosen moments and checks the order of what is printed", "anchors": ["runtime/Log.cc: Decoder::decompressNextLogStatement, Decoder::decompressTo (and the comment at 1810-1826)", "runtime/RuntimeLogger.cc: RuntimeLogger::compressionThreadMain", "runtime/Log.cc: Encoder::encodeLogMsgs"]}
{"id": "C75", "title": "An aggregation function sees every message of its statement once, with its arguments", "statement": "Decompressing the log of a preprocessed program with the program's generated code and an aggregation function for one statement prints every message exactly as it was logged, and calls the function once for each message of that statement, in the order of the file, with the statement's format and arguments that print as those that were logged; for no other message is it called.", "quantifier": "all programs, all sequences of executed statements with any arguments, all divisions into batches and output buffers, all numbers of the statement aggregated, all meanings of printf's conversions", "why_tests_cant": "the test of aggregation uses one program with a counting function; the arguments it is called with are not looked at", "anchors": ["preprocessor/FunctionGenerator.py: generateLogFunctions (decompressPrintArgs), outputCompilationFiles", "runtime/Log.cc: Decoder::BufferFragment::decompressNextLogStatement (PREPROCESSOR_NANOLOG), Decoder::internalDecompressUnordered"]}
{"id": "C76", "title": "A log of the preprocessor version can be read one message at a time and in the order of time", "statement": "For a log as in C61: as many calls of getNextLogStatement as there are encoded messages print one line each, in the order of encoding, with thread, time, number, file, line, severity and text of the statement, and the next call returns false; decompressTo prints every message exactly once and reports their number, and prints them in the order of their time stamps if each thread's batches are in order and messages overtake one another by less than two rounds over the threads.", "quantifier": "all programs, all executed statements and arguments for which printf is defined, all threads, timestamps, splits into batches and rounds, sizes of the output buffer, padding, and all choices among equal time stamps", "why_tests_cant": "no test orders or iterates over a log written by generated code; the tests of ordered output use one file each", "anchors": ["runtime/Log.cc: Decoder::decompressTo, Decoder::getNextLogStatement, Encoder::encodeLogMsgs (PREPROCESSOR_NANOLOG)", "preprocessor/FunctionGenerator.py: generateLogFunctions"]}
{"id": "C77", "title": "Messages whose statement the encoder does not know yet are counted, and complained about every thousandth time in a row", "statement": "Whatever sequence of calls of encodeLogMsgs and swapBuffer an encoder is given, and whatever bytes: encodeMissDueToMetadata is the number, modulo 2^32, of times a message was met whose number the dictionary did not have; consecutiveEncodeMissesDueToMetadata is the number of those met since the last message whose statement was known, modulo 2^32; the error about missing metadata is printed exactly when that count becomes a multiple of 1000, with the number of that message; lastBufferIdEncoded is the thread of the last extent begun since the last swap, or 2^32-1; none of this changes what is encoded. The error about too long a message is printed only for a known statement whose message is longer than what was to be read and at least half a staging buffer, and always when more is read than was given.", "quantifier": "all memories, buffer sizes, dictionaries, thread numbers, sequences of calls of any length", "why_tests_cant": "the tests miss 1001 times with a single message and never look at standard error; a known message between two misses, a call that finds no room for an extent, or a counter that wraps are not among them", "anchors": ["runtime/Log.cc: Encoder::encodeLogMsgs (305-402), encodeBufferExtentStart (419-448), swapBuffer (473-495)", "runtime/Log.h:693-706"]}
{"id": "C78", "title": "A log of the preprocessor version that was cut off shows the messages of the extents that are complete", "statement": "Take the file of a program that was compiled with the preprocessor version, and cut it after any number of bytes (the program or the machine crashed). If the cut is before the end of the dictionary, the file is not opened and none of the three ways to read it prints anything. Otherwise it is opened, and decompression in the order of the file, reading message by message and decompression in the order of time all show exactly the messages whose extents are complete, with their texts, and end without an error; in the order of time, where the whole file would be.", "quantifier": "all programs, message sequences, batches and output buffers, all padding, all lengths of the rest, all choices among equal time stamps", "why_tests_cant": "tests read complete files; a crash may cut the file anywhere, in the header of an extent, in its body, in the dictionary", "anchors": ["runtime/Log.cc: Decoder::readDictionary, Decoder::BufferFragment::readBufferExtent, Decoder::internalDecompressUnordered, Decoder::decompressTo, Decoder::getNextLogStatement", "preprocessor/FunctionGenerator.py"]}
{"id": "C79", "title": "The logs of several executions of a program of the preprocessor version, appended to one file, are all printed", "statement": "A program compiled with the preprocessor version is started several times with the same log file, which it appends to; each execution writes a checkpoint with the dictionary and then its messages. The file can be opened, and decompression in the order of the file as well as reading message by message show every message of every execution, with its text, statement, thread and the clock of its own execution, the executions in their order and each but the first announced by a line; the number of messages is right, and reading ends without an error.", "quantifier": "all numbers of executions, all programs, message sequences, batches and output buffers, all padding between the logs", "why_tests_cant": "tests read files of one execution, or compare with an output that was recorded; whether the second dictionary is found where the first one lies depends on the memory of the decompressor", "anchors": ["runtime/Log.cc: Decoder::readDictionary, Decoder::internalDecompressUnordered, Decoder::getNextLogStatement", "runtime/RuntimeLogger.cc: RuntimeLogger::setLogFile_internal"]}
{"id": "C80", "title": "A time trace is printed with the right times", "statement": "The text that TimeTrace::print and getTrace produce has one line per recent event since the time all buffers cover (C56), in that order. Each line starts with the time since the first instant and the time since the previous line, in nanoseconds with one decimal, right-aligned in 8 and 6 columns, each the exact value up to half a unit of its last digit and the precision of doubles, and without a minus sign if the clocks did not run backwards; then the message, cut after 999 characters. The string has newlines between the lines, the file one behind each line; without events both say that there are none.", "quantifier": "all histories of all numbers of threads, all clock frequencies, all messages, all timestamps less than 2^63 cycles from the start", "why_tests_cant": "the test compares three events with round times; the subtraction of unsigned timestamps, the rounding of doubles and the cut messages are not exercised", "anchors": ["runtime/TimeTrace.cc: TimeTrace::printInternal, TimeTrace::getTrace, TimeTrace::print", "runtime/Cycles.cc: Cycles::toSeconds"]}
{"id": "C81", "title": "Util::format and Util::vformat return the whole text", "statement": "For every text that the conversions yield, shorter than INT_MAX, vformat ends after at most two rounds and returns the text up to its first NUL, whatever its length compared with the 1024 bytes it tries first.", "quantifier": "all texts of less than INT_MAX characters", "why_tests_cant": "no test calls vformat; the second round is needed for long texts only", "anchors": ["runtime/Util.cc: Util::format, Util::vformat"]}
{"id": "C82", "title": "A hex dump shows every byte of the buffer", "statement": "hexDump has a line for every sixteen bytes: the offset in sixteen hexadecimal digits, each byte in two digits in its column (blank behind the end of the buffer), and the bytes as characters, with a dot for those that cannot be printed. No line is cut, and buffers with the same dump are the same.", "quantifier": "all buffers of less than 2^63 bytes", "why_tests_cant": "no test calls hexDump; the last line, bytes that cannot be printed and NULs in the column of characters are the cases that matter", "anchors": ["runtime/Util.cc: Util::hexDump"]}
{"id": "C83", "title": "Cycles::sleep waits for the time it is given", "statement": "Cycles::sleep(us) returns at the first reading of the counter at which us microseconds are over, up to half a cycle and the precision of doubles: not before, and it does not go on waiting afterwards.", "quantifier": "all durations, all clock frequencies, all sequences of readings of a counter that does not run over", "why_tests_cant": "tests cannot wait for long durations, and what the machine does between two readings is not under their control", "anchors": ["runtime/Cycles.cc: Cycles::sleep, Cycles::fromNanoseconds"]}
{"id": "C84", "title": "A time trace shows what the threads recorded", "statement": "Whatever threads call TimeTrace::record and TimeTrace::reset, in any order: every thread that recorded something has one buffer, and getTrace shows the recent events recorded since the last reset, of each thread in its order, from the time on that all threads cover, with the text of C80.", "quantifier": "all numbers of threads, all sequences of calls of record and reset", "why_tests_cant": "tests use one or two threads; that a thread's buffer is created once and is found again depends on the order of the calls", "anchors": ["runtime/TimeTrace.h: TimeTrace::record", "runtime/TimeTrace.cc: TimeTrace::createThreadBuffer, TimeTrace::reset, TimeTrace::getTrace"]}
{"id": "C85", "title": "The table of rcdfTime shows the right numbers", "statement": "Each line of the table that the decompressor's rcdfTime prints consists of a latency in nanoseconds with two decimals, right-aligned in eight columns, and the fraction of operations with ten decimals; both are the exact values of C45's line up to half a unit of the last digit and the precision of doubles, and so is the mean below the table.", "quantifier": "all vectors of less than 2^53 latencies below 2^63 cycles, all clock frequencies", "why_tests_cant": "no test runs rcdfTime; the rounding of 1 - i/n and of times is in question for long tables and large latencies", "anchors": ["runtime/LogDecompressor.cc: runRCDF", "runtime/Cycles.cc: Cycles::toSeconds, Cycles::fromSeconds"]}
{"id": "C86", "title": "The aggregation prints the right numbers", "statement": "For every log of at most 2^53 messages with a matching one, and every duration, the text printed by minMaxMean consists of its fixed lines around numbers: the integers are the decimal forms (with a minus sign if negative) of the number of messages, of the matching ones, of the minimum, maximum, mean and total; the percentage, the duration and the nanoseconds per element are shown with two decimals and are those of the exact quotients up to half a unit of the second decimal and a relative error of 2^-50.", "quantifier": "all logs, filters and durations", "why_tests_cant": "No test of the repository calls minMaxMean (only benchmarks/run_aggregation.sh runs it), and a test would compare the text of single logs, not the rounding of every quotient.", "anchors": ["runtime/LogDecompressor.cc:323-334"]}
{"id": "C87", "title": "getStats shows the right numbers", "statement": "If something was logged, written and flushed and time has passed, the text of getStats consists of its fixed lines around numbers: the counts in decimal, and times, rates, percentages and ratios that are the exact quotients of the counts and cycles (the disk time including the final sync, the work time being disk plus compression time) up to half a unit of the last decimal shown and a relative error of 2^-48; no line is cut off at the 1024 bytes of the buffer; the disk time kept is increased by the final sync.", "quantifier": "all counts, all numbers of cycles of less than 2^63, all frequencies from 1 to 2^64 Hz", "why_tests_cant": "No test of the repository compares the numbers of getStats, which come from clocks; the error depends on every rounding.", "anchors": ["runtime/RuntimeLogger.cc:140-232"]}
