{
 "claims": [
  {
   "property": "C01",
   "status": "proved",
   "theorems": [
    "C01_int_roundtrip",
    "C01_same_type"
   ],
   "note": "all integer types and values, any memory keeping the emitted bytes"
  },
  {
   "property": "C02",
   "status": "proved",
   "theorems": [
    "C02_minimal_width"
   ],
   "note": ""
  },
  {
   "property": "C03",
   "status": "proved",
   "theorems": [
    "C03_float_roundtrip",
    "C03_pointer_roundtrip"
   ],
   "note": "floating point values are object representations; widening float to double is symbolic"
  },
  {
   "property": "C04",
   "status": "proved",
   "theorems": [
    "C04_block_roundtrip",
    "C04_exhausted"
   ],
   "note": ""
  },
  {
   "property": "C05",
   "status": "proved",
   "theorems": [
    "C05_header_roundtrip"
   ],
   "note": ""
  },
  {
   "property": "C06",
   "status": "partial",
   "theorems": [
    "C06_reported_size_refuted",
    "C06_reported_size_partial"
   ],
   "note": "False as stated: an 8-byte timestamp delta is reported with the wrong size; the exact set of inputs for which the report is right is proved."
  },
  {
   "property": "C07",
   "status": "partial",
   "theorems": [
    "C07_analysis_exact",
    "C07_rejection_refuted",
    "C07_rejection_refuted_length",
    "C07_accepted_partial",
    "C07_report_accepted"
   ],
   "note": "The report is exact on the whole printf grammar. Rejection of everything else is false (\"%5%\", \"%hzd\"); the accepted language is characterised exactly."
  },
  {
   "property": "C08",
   "status": "partial",
   "theorems": [
    "C08_refuted_empty_precision",
    "C08_refuted_backslash",
    "C08_refuted_length",
    "C08_refuted_many",
    "C08_agreement_partial"
   ],
   "note": "False for \"%.f\", a backslash before '%', \"%Ld\" and 256 or more specifiers; proved for all other printf formats."
  },
  {
   "property": "C10",
   "status": "proved",
   "theorems": [
    "C10_space_exact"
   ],
   "note": ""
  },
  {
   "property": "C11",
   "status": "proved",
   "theorems": [
    "C11_strings_cut",
    "C11_unterminated_refuted"
   ],
   "note": "For NUL-terminated arguments below 2 GiB. C11_unterminated_refuted shows that unterminated arrays printf accepts with a precision are over-read."
  },
  {
   "property": "C09",
   "status": "partial",
   "theorems": [
    "C09_message_partial",
    "C09_refuted_negative_width",
    "C09_refuted_negative_precision",
    "C09_refuted_unsigned_char",
    "C09_refuted_empty_precision"
   ],
   "note": "False for negative dynamic widths and precisions, %s with unsigned char pointers and the formats C08 excludes; proved for every other statement whose printf is defined."
  },
  {
   "property": "C12",
   "status": "partial",
   "theorems": [
    "C12_writes_inside_partial",
    "C12_refuted_uchar_string"
   ],
   "note": "Proved for every operation sequence whose staged messages have char or wchar_t pointers for their string specifiers. False otherwise: unsigned char* given to %s is staged as a pointer and compressed as a string whose length is the pointer's low half."
  },
  {
   "property": "C13",
   "status": "proved",
   "theorems": [
    "C13_exactly_once",
    "C13_progress"
   ],
   "note": "Calls may use any output buffers, budgets and known dictionary prefixes; the scan over several staging buffers is C29."
  },
  {
   "property": "C15",
   "status": "partial",
   "theorems": [
    "C15_extents_fit_partial",
    "C15_refuted_half_buffer"
   ],
   "note": "Proved for messages below half a staging buffer. False at exactly half: such a message ignores the release threshold, and behind messages that grow the extent exceeds the storage."
  },
  {
   "property": "C14",
   "status": "proved",
   "theorems": [
    "C14_extent_roundtrip"
   ],
   "note": "Through the encoder model: staged messages -> encodeLogMsgs -> readBufferExtent over arbitrary stale storage -> drained messages with id, time stamp, thread id, statement and printf's text. Needs the extent to fit the decoder's storage (C15) and statements C09 covers."
  },
  {
   "property": "C16",
   "status": "proved",
   "theorems": [
    "C16_dictionary_recovered"
   ],
   "note": "Through the encoder model, any sequence of encodeNewDictionaryEntries calls with any buffer sizes and any growth of the statement list. Strings shorter than 65535 bytes (16 bit length fields), fragments below 2^30 bytes (30 bit field)."
  },
  {
   "property": "C18",
   "status": "proved",
   "theorems": [
    "C18_unordered_complete"
   ],
   "note": "Files as specified in FileSpec.v (C++17 format, no metadata in checkpoints); decoder in any prior state."
  },
  {
   "property": "C19",
   "status": "proved",
   "theorems": [
    "C19_iterate_complete",
    "C19_same_as_unordered"
   ],
   "note": "Exactly one call per message returns true, the next returns false; decoder without leftover messages (see C24)."
  },
  {
   "property": "C23",
   "status": "proved",
   "theorems": [
    "C23_truncated"
   ],
   "note": "All cut positions, unordered and getNextLogStatement. decompressTo is in C20-C22."
  },
  {
   "property": "C24",
   "status": "partial",
   "theorems": [
    "C24_reopen_partial",
    "C24_refuted_leftover"
   ],
   "note": "Refuted: open() does not reset bufferFragment, so messages left over from the previous file are looked up in the new (still empty) dictionary and at() throws. Holds when the last extent was read to its end; decompressUnordered always starts afresh (C18_unordered_complete quantifies over any decoder)."
  },
  {
   "property": "C20",
   "status": "partial",
   "theorems": [
    "C20_ordered_complete_partial",
    "C20_refuted_mixed"
   ],
   "note": "The claim is false: C20_refuted_mixed shows a two-execution file whose message is printed with the next execution's statement and clock. C20_ordered_complete_partial proves it for every file with one execution, cut off at any byte, all heap tie-breaks; C22_by_execution_partial covers several executions."
  },
  {
   "property": "C21",
   "status": "partial",
   "theorems": [
    "C21_chronological_partial",
    "C21_refuted_late",
    "C21_refuted_hollow"
   ],
   "note": "False for displacement by up to three passes (C21_refuted_late), and for two when a pass is empty (C21_refuted_hollow). Proved for displacement by less than two passes when every ended pass has a message."
  },
  {
   "property": "C22",
   "status": "partial",
   "theorems": [
    "C22_by_execution_partial",
    "C22_chronological_partial",
    "C22_refuted_mixed"
   ],
   "note": "False in general (C22_refuted_mixed). Proved for any number of executions when every execution but the last is in order from pass to pass and has no empty extents; in time order per execution too when no extent is empty."
  },
  {
   "property": "C25",
   "status": "proved",
   "theorems": [
    "C25_fifo"
   ],
   "note": "x86-TSO interleaving at every access of a shared variable, all buffer sizes below 2^63, all messages. Compiler reordering is excluded by assumption (the variables are not atomic)."
  },
  {
   "property": "C26",
   "status": "proved",
   "theorems": [
    "C26_no_overwrite",
    "C26_no_race"
   ],
   "note": "Also the assertions of finishReservation, and that no store under way touches what the consumer is reading."
  },
  {
   "property": "C27",
   "status": "proved",
   "theorems": [
    "C27_progress",
    "C27_too_large",
    "C27_too_large_waits"
   ],
   "note": "Progress is stated as: from every reachable state there is a continuation, in which the thread only waits, that ends with the space reserved. A message of at least the buffer size waits for ever."
  },
  {
   "property": "C28",
   "status": "proved",
   "theorems": [
    "C28_deletion"
   ],
   "note": "Also: no step but the consumer's own pending stores is possible on a deleted buffer."
  },
  {
   "property": "C17",
   "status": "partial",
   "theorems": [
    "C17_defined_before_use_partial",
    "C17_defined_before_use_refuted"
   ],
   "note": "Proved for every reachable state of the running system (any number of threads, statements, interleavings, completion times, file switches, any output buffer size) in which no signal interrupts aio_suspend. Refuted with such a signal: the thread then encodes over a buffer still being written."
  },
  {
   "property": "C36",
   "status": "partial",
   "theorems": [
    "C36_buffers_in_order_partial",
    "C36_buffers_in_order_refuted"
   ],
   "note": "Proved for every reachable state in which no signal interrupts aio_suspend; refuted with one. Writes that complete partially are C23's matter."
  },
  {
   "property": "C37",
   "status": "partial",
   "theorems": [
    "C37_end_to_end_partial",
    "C37_end_to_end_refuted"
   ],
   "note": "Proved for runs without a signal in aio_suspend, with messages smaller than half a staging buffer and statements that C09 covers; refuted with a signal."
  },
  {
   "property": "C29",
   "status": "partial",
   "theorems": [
    "C29_scan_looks_at_all_partial",
    "C29_scan_looks_at_all_refuted"
   ],
   "note": "Refuted: when the buffer at which the scan starts is deleted, buffers are left out (with the first of two buffers dead, the second is not looked at). Proved for every scan in which that does not happen."
  },
  {
   "property": "C44",
   "status": "proved",
   "theorems": [
    "C44_thread_never_stuck"
   ],
   "note": "For all states reached without a signal in aio_suspend."
  },
  {
   "property": "C30",
   "status": "partial",
   "theorems": [
    "C30_sync_durable_partial",
    "C30_sync_durable_refuted",
    "C30_spurious_wakeup_refuted",
    "C30_statement_refuted"
   ],
   "note": "Messages that had reached memory when sync() was called. Refuted in two ways: (1) the scan of the second pass starts at a buffer that is deleted in it, so it leaves buffers out; (2) sync() waits on its condition variable without testing a condition, so a spurious wakeup makes it return. Proved for every run in which neither happens and no signal interrupts aio_suspend."
  },
  {
   "property": "C33",
   "status": "partial",
   "theorems": [
    "C33_switch_self_contained_partial",
    "C33_switch_self_contained_refuted"
   ],
   "note": "Under the conditions of C30; without them the switch's sync() returns early and a message logged before the call goes to the new file. A failed switch throws (RuntimeLogger.cc:635-650) before anything is changed, so in the model it is no step at all."
  },
  {
   "property": "C31",
   "status": "proved",
   "theorems": [
    "C31_one_id",
    "C31_never_changes",
    "C31_completes"
   ],
   "note": "Under x86-TSO, with every access to logId, invocationSites and the mutex a step. For at most 2^31 statements (ids are int). The theorem says more precisely when the entry is in the list: a message can be published before its statement is in invocationSites (C31_instance), but not when the mutex is free, and the compression thread reads the list under the mutex."
  },
  {
   "property": "C32",
   "status": "partial",
   "theorems": [
    "C32_clamp_partial",
    "C32_clamp_refuted",
    "C32_level_in_force",
    "C32_recorded"
   ],
   "note": "setLogLevel: LogLevel has no negative enumerator, so GCC makes it unsigned, the test `logLevel < 0` never holds and -1 becomes DEBUG instead of silence; proved for 0 <= v < 2^32. Recording: proved for any interleaving; a level set by a thread is in force for itself at once and for others when the store has reached memory."
  },
  {
   "property": "C34",
   "status": "partial",
   "theorems": [
    "C34_kept",
    "C34_limit_exact",
    "C34_block_bounds",
    "C34_callback_partial",
    "C34_long_double",
    "C34_star_refuted"
   ],
   "note": "The container keeps every argument of at most eight bytes at its position for any history of reuse, up to 10*2^27 arguments where int overflows (C34_kept, C34_limit_exact). End to end, for statements without '*' and without long doubles, position i yields argument i (C34_callback_partial). In full the claim is false: width and precision arguments are not pushed, so later arguments move (C34_star_refuted); long doubles are replaced by -1."
  },
  {
   "property": "C38",
   "status": "partial",
   "theorems": [
    "C38_when",
    "C38_partial",
    "C38_level_refuted",
    "C38_digits_refuted"
   ],
   "note": "Over programs of any number of files, through the tables and their merge. C38_when says exactly when two identifiers agree. False in full: statements on one line that differ in severity only get the first one's information, and a format can collide with another on the same line because other characters are replaced by their numbers ('a ' and 'a32'). Proved for formats and files of printable characters without digits, and severities determined by format, file and line."
  },
  {
   "property": "C39",
   "status": "partial",
   "theorems": [
    "C39_cover",
    "C39_partial",
    "C39_agree",
    "C39_refuted"
   ],
   "note": "Any accepted format: the fragments concatenate to it (C39_cover). All printf formats whose precisions have digits or a star: one specifier per fragment, right type class, width and precision, arguments in printf's order; fragments equal those of createMicroCode (C39_agree). False in full only because %.f is rejected with ValueError."
  },
  {
   "property": "C42",
   "status": "partial",
   "theorems": [
    "C42_exact",
    "C42_partial",
    "C42_refuted"
   ],
   "note": "C42_exact covers all sequences of literals: the contents, or rejection exactly when a literal ends in an escaped backslash. The rejection makes the claim as stated false."
  },
  {
   "property": "C35",
   "status": "partial",
   "theorems": [
    "C35_partial",
    "C35_refuted",
    "C35_rounding"
   ],
   "note": "All roundings of the doubles are modelled. For time stamps within 2^63 cycles and 2^50 seconds of the checkpoint, before or after it, the printed time is within 0.51 ns plus 2^-51 of the elapsed time of the exact instant, and consists of digits. False in full: when the nanoseconds round to a full second ten digits are printed (C35_refuted, at 2.4 GHz); C35_partial shows that this is the only exception. The conversion of seconds to a date is not modelled."
  },
  {
   "property": "C43",
   "status": "partial",
   "theorems": [
    "C43_partial",
    "C43_nothing",
    "C43_refuted"
   ],
   "note": "For up to 2^32 messages whose selected ones start with an int, at least one matching: count, minimum, maximum, total and mean are those of the selected values, through the LogMessage of C34, without overflow. When nothing matches the loop ends with count 0 and total/count is evaluated (C43_nothing, C43_refuted)."
  },
  {
   "property": "C45",
   "status": "partial",
   "theorems": [
    "C45_command",
    "C45_lines",
    "C45_mean_partial",
    "C45_mean_refuted"
   ],
   "note": "C45_lines: each line between the first and the last has the number of differences above latency + resolution. The mean is wrong: the smallest difference is left out of the sum but counted (C45_mean_refuted); C45_mean_partial says what is printed instead."
  },
  {
   "property": "C40",
   "status": "partial",
   "theorems": [
    "C40_partial",
    "C40_zeros_skipped",
    "C40_what",
    "C40_in_buffer",
    "C40_first_block_lost",
    "C40_refuted"
   ],
   "note": "The claim is false (C40_refuted): memset zeroes the beginning of the block instead of padding behind its end, so a file whose first block is padded can never be opened (C40_first_block_lost, for all blocks) and C40_what gives the bytes that are written. Proved: without O_DIRECT, or when all blocks are multiples of 512 bytes, nothing changes (C40_partial); zeros behind the blocks, any number of them, would be skipped by the decompressor (C40_zeros_skipped); the write stays in the buffer (C40_in_buffer)."
  },
  {
   "property": "C41",
   "status": "partial",
   "theorems": [
    "C41_partial",
    "C41_same_program",
    "C41_what",
    "C41_no_dictionary",
    "C41_refuted",
    "C41_wrong_text",
    "C41_rejected"
   ],
   "note": "The claim is false (C41_refuted): the new dictionary is read behind the old one but the index is built from the start of the buffer. C41_what says exactly, for all pairs of dictionaries, when reading succeeds and which entries are used then: the first |new| entries of old ++ new. Proved right for the first dictionary and for any number of executions with the same dictionary (C41_partial, C41_same_program)."
  },
  {
   "property": "C46",
   "status": "partial",
   "theorems": [
    "C46_gets_done_partial",
    "C46_gets_shown_partial",
    "C46_statement_refuted"
   ],
   "note": "False for output buffers as small as Config.h allows: a message whose staged size is more than half the output buffer is never encoded, the thread writes empty extents for ever (C46_statement_refuted). Proved for output buffers of at least 2 * STAGING_BUFFER_SIZE + 25 bytes (the default has 64 times STAGING_BUFFER_SIZE), all messages; and, with the lines the decoder prints, for STAGING_BUFFER_SIZE + 25 bytes and messages smaller than half a staging buffer. Existence of a run is proved, which with a deterministic thread and writes that complete is the run."
  },
  {
   "property": "C47",
   "status": "partial",
   "theorems": [
    "C47_stop_ends_partial",
    "C47_stop_shown_partial",
    "C47_statement_refuted",
    "C47_never_returns"
   ],
   "note": "As C46: with an output buffer of STAGING_BUFFER_SIZE bytes setLogFile()'s sync() need not return whatever happens (C47_never_returns). Proved with room in the output buffer."
  },
  {
   "property": "C48",
   "status": "partial",
   "theorems": [
    "C48_partial",
    "C48_refuted_wide_precision",
    "C48_refuted_negative_width"
   ],
   "note": "False: a precision with %ls makes the generated code name wcsnlen_s, which glibc lacks; negative widths and precisions for * are not passed to fprintf. Proved apart from these, %.f (C39), formats with more than 255 specifiers or non-string arguments, messages of 4 GiB, and pointers other than char*/wchar_t* for %s (do not compile). Modelled escape sequences: the simple ones."
  },
  {
   "property": "C50",
   "status": "partial",
   "theorems": [
    "C50_partial",
    "C50_refuted_wide_precision",
    "C50_refuted_empty_precision",
    "C50_refuted_unsigned_char"
   ],
   "note": "As C48, but negative widths and precisions and any number of specifiers are covered."
  },
  {
   "property": "C49",
   "status": "partial",
   "theorems": [
    "C49_partial",
    "C49_message_partial",
    "C49_written",
    "C49_refuted_level",
    "C49_refuted_escape"
   ],
   "note": "False for statements that share an identifier (as C38) and for file names that need escapes in a string literal: filenameLength counts the backslashes and the decompressor rejects the dictionary. Proved when identifiers are distinct and the constants fit in their fields (255 fragments, 16-bit lengths). C49_message_partial joins it with C48: messages are printed with the description found. C49_written: exactly when it is written, where, and which bytes."
  },
  {
   "property": "C51",
   "status": "partial",
   "theorems": [
    "C51_partial",
    "C51_exact_partial",
    "C51_refuted_char",
    "C51_refuted_template"
   ],
   "note": "False: apostrophes are not known to the parser, so a bracket or a quote in a character literal counts (')' makes it reject the file), and a comma in a template argument list of the severity or the format cuts it. Proved without these; character literals and template argument lists with commas are allowed behind the format. Raw string literals are not modelled."
  },
  {
   "property": "C52",
   "status": "partial",
   "theorems": [
    "C52_partial",
    "C52_refuted_quote",
    "C52_refuted_name"
   ],
   "note": "False: a quote in a character literal hides the statements behind it on the line, and a call of a function NNANO_LOG is taken for a log statement (lastChar is not updated for the first N). A statement in an argument of another one on the same line is not found either (C52_nested; not in the grammar of the theorem). Proved for files where no character literal in front of a statement is a quote, NANO_LOG occurs outside of string literals only as the name of statements, and the statements are those C51 is proved for. The text of the generated functions is a parameter."
  },
  {
   "property": "C53",
   "status": "partial",
   "theorems": [
    "C53_partial",
    "C53_refuted",
    "reads_det"
   ],
   "note": "As C52, from whose exact output it is derived; reads_det: a text is read in one way only. That the generated functions are read alike from every position holds because their text starts with a line marker and ends with a newline."
  },
  {
   "property": "C54",
   "status": "proved",
   "theorems": [
    "C54_never_backwards"
   ],
   "note": "Timestamps less than 2^63 cycles and at most 2^50 seconds from the checkpoint, as in C35; both messages refer to the same checkpoint."
  },
  {
   "property": "C55",
   "status": "partial",
   "theorems": [
    "C55_partial",
    "C55_seconds",
    "C55_roundtrip",
    "C55_refuted"
   ],
   "note": "False for toMicroseconds, which is documented to round but truncates: 1900 cycles at 1 GHz are 1 microsecond. Proved for toNanoseconds and fromNanoseconds, for toMicroseconds that it is the nanoseconds divided by 1000 and cut off, and for the way there and back. cyclesPerSec is not 0 (0 stands for the measured frequency)."
  },
  {
   "property": "C56",
   "status": "proved",
   "theorems": [
    "C56_trace"
   ],
   "note": "Events have a format; one thread at a time uses the buffers (see C57). The text of the lines is not modelled."
  },
  {
   "property": "C57",
   "status": "partial",
   "theorems": [
    "C57_refuted",
    "C57_partial"
   ],
   "note": "False: printInternal does activeReaders.fetch_and(1) and fetch_and(-1) instead of adding, so that the number of readers is always 0 and events are recorded while others print. Proved: exactly that, and that printing itself leaves the buffers as they were."
  },
  {
   "property": "C58",
   "status": "partial",
   "theorems": [
    "C58_partial",
    "C58_header_partial",
    "C58_refuted"
   ],
   "note": "False for the reason of C52: behind a quote in a character literal the call is not seen. Proved under the conditions of C52 (no quote in character literals, NANO_LOG only as the name of statements, tame arguments). For an unsupported specifier the statement's identifier must be new: a known one is not looked at again."
  },
  {
   "property": "C59",
   "status": "partial",
   "theorems": [
    "C59_unordered",
    "C59_iterate",
    "C59_ordered_partial",
    "C59_refuted"
   ],
   "note": "Proved for iterating and for unordered decompression. Where the bytes make the decoder undefined (a failed assertion, an id that is not in the dictionary, reading out of the storage) the model of a whole unordered run has no result, so C59_unordered says nothing there; C59_iterate does. False for ordered decompression: when an extent cannot be read the loop ends after the first buffered pass is printed, so messages of the passes behind it are lost (C59_refuted); C59_ordered_partial: everything in front of the last three passes, the unfinished one included, is printed."
  },
  {
   "property": "C60",
   "status": "partial",
   "theorems": [
    "C60_any_file_partial",
    "C60_log_partial",
    "C60_complete_partial",
    "C60_overrun",
    "C60_refuted"
   ],
   "note": "False: nothing looks at the end of rawMetadata, and a statement with an empty format takes 11 bytes of a log and 14 of the buffer, so that a valid log of less than 1 GB overruns it (C60_overrun for every size of the buffer, C60_refuted for 1 GB). Proved for any bytes where three times the size of the file fits, and for logs (cut off anywhere) where three times the size of each execution's dictionaries fits; only files without metadata in their checkpoints, the others are in C41."
  },
  {
   "property": "C61",
   "status": "partial",
   "theorems": [
    "C61_partial",
    "C61_complete_partial",
    "C61_refuted"
   ],
   "note": "False for the reasons of C48 and C49 (C61_refuted: a file name that has to be escaped makes the log unreadable; example C61_severity: two statements on one line with one format share a severity). Proved for programs within the limits of C49 (program_ok) and calls within those of C48 (call_ok), for any number of calls of the encoder; C61_complete_partial: every such call can be recorded, and where the output buffer has twice the size of the batch plus 25 bytes every message is encoded. Batches of less than 1 GB and extents of at most EXTENT_MAX (the decompressor's storage); one execution per file."
  },
  {
   "property": "C62",
   "status": "partial",
   "theorems": [
    "C62_partial",
    "C62_calendar",
    "C62_refuted"
   ],
   "note": "False where the nanoseconds of a message round to 1000000000, printed with ten digits (C62_refuted: .999999583, .1000000000). Proved for all other files, within the limits of C21, with doubles as in C35; the calendar is proved to be strictly increasing. Local times before 1970 and years from 10000 on are excluded."
  },
  {
   "property": "C63",
   "status": "partial",
   "theorems": [
    "C63_partial",
    "C63_refuted"
   ],
   "note": "False for file names that contain a colon (C63_refuted). Proved for all others; localtime and strftime are modelled as the Gregorian calendar with any offset."
  },
  {
   "property": "C64",
   "status": "proved",
   "theorems": [
    "C64_unordered",
    "C64_ordered",
    "C64_usage"
   ],
   "note": "The texts of the lines are those of C62 (LineFmt); they must exist (local time from 1970 on, a severity with a name). Which order `decompress` prints in is C21 and C62; logs of several executions with `decompress` are C22. The build without PREPROCESSOR_NANOLOG."
  },
  {
   "property": "C65",
   "status": "partial",
   "theorems": [
    "C65_ordered_partial",
    "C65_unordered_partial",
    "C65_refuted"
   ],
   "note": "Proved for `decompress` and every file. False for `decompressUnordered` (C65_refuted: an extent that ends inside a message header makes getNextLogStatement return true without printing); proved instead: the number is at least that of the messages printed and at most twice that, for every file, and exact for logs that are whole or cut off (C64)."
  },
  {
   "property": "C66",
   "status": "proved",
   "theorems": [
    "C66_peeks"
   ],
   "note": "Executions are those of Ring.v (one thread and the background thread); less than 2^64 steps, so that no counter wraps."
  },
  {
   "property": "C67",
   "status": "partial",
   "theorems": [
    "C67_partial",
    "C67_report",
    "C67_intervals",
    "C67_no_average",
    "C67_refuted"
   ],
   "note": "False: for a thread that never took the slow path getHistograms divides by zero (C67_refuted). Also: the average is formatted but never added to the report (C67_no_average); the last line, 190 - 200 ns, counts every longer time; cyclesIn10Ns is rounded, so the intervals are off unless the clock's rate is a multiple of 100 MHz (C67_intervals), and below 50 MHz it is 0 and the index is a division by zero (C67_slow_clock). Proved: every slow allocation is counted in its interval of cyclesIn10Ns cycles, and the report is made if there was one."
  },
  {
   "property": "C68",
   "status": "partial",
   "theorems": [
    "C68_partial",
    "C68_whole_items",
    "swap_handed_over",
    "C68_execution_partial",
    "C68_iterate_partial",
    "C68_ordered_partial",
    "C68_before_partial",
    "C68_refuted"
   ],
   "note": "False: errors of a write are printed and otherwise ignored, and the number of bytes written is not looked at. A lost dictionary fragment shifts the ids of the later ones, so messages are printed with another statement's text and position (C68_refuted); an extent cut short swallows what was written next and prints messages never logged (C68_short). Proved for any combination of writes that lost whole extents and padding only, for all three ways to decompress; and that what was written before the first bad write is printed first in any case. C68_whole_items: in every execution of the running system what is written at a time are whole items, so that this applies to executions (C68_execution_partial)."
  },
  {
   "property": "C69",
   "status": "partial",
   "theorems": [
    "C69_partial",
    "C69_spinning_partial",
    "C69_refuted"
   ],
   "note": "False: gettimeofday shows whole microseconds, so two measurements of 10 ms can agree and both be off by nearly 0.01% (C69_refuted). Proved: the result is off by at most (1 + e)/10000 when counter and clock are read within e microseconds of each other; and by at most (2 g + e)/10000 when the loop reads the clock every g < 1/2 microseconds, because the measurement returned starts when the one before it has seen the clock move on, and the first is never returned (0.001% for e = 0 and g = 0.05). Clocks that are set back are excluded."
  },
  {
   "property": "C70",
   "status": "partial",
   "theorems": [
    "C70_bytes_partial",
    "C70_events_partial",
    "C70_refuted"
   ],
   "note": "False for the number of writes completed: a signal interrupts aio_suspend, and the write still going on is counted as completed (C70_refuted). Proved for all executions without such signals; messages and bytes are counted up to the width of the counters. The elapsed times that getStats also prints are not modelled."
  },
  {
   "property": "C71",
   "status": "partial",
   "theorems": [
    "C71_counters",
    "C71_partial",
    "C71_refuted"
   ],
   "note": "False with O_DIRECT: the bytes written already include the padding, which is added once more for the lower ratio and not taken off for the upper one (C71_refuted, C71_counters). Proved without O_DIRECT. Quotients are exact (below 2^53), not rounded to doubles."
  },
  {
   "property": "C72",
   "status": "partial",
   "theorems": [
    "C72_partial",
    "C72_refuted"
   ],
   "note": "False if an earlier program ended while it was writing: what it left of an extent swallows the beginning of the next log, whose messages are printed with the earlier program's statements and clock or not at all (C72_refuted, example C72_torn). Proved for every execution where the files had whole logs in them (or were empty), for unordered decompression; for ordered decompression of several executions see C22."
  },
  {
   "property": "C73",
   "status": "partial",
   "theorems": [
    "C73_killed_partial",
    "C73_after_sync_partial",
    "C73_refuted"
   ],
   "note": "False when a signal interrupts aio_suspend, as C17 and C37 (C73_refuted). Proved for every state of every execution without such signals, with messages below half a staging buffer and statements that C09 covers, and any number of bytes of the write in flight; C73_after_sync_partial under the conditions of C30. Of a write in flight a prefix is assumed to be in the file (no reordering of disk blocks on a power failure); appending to the file that is left is C72's matter."
  },
  {
   "property": "C74",
   "status": "partial",
   "theorems": [
    "C74_apart_partial",
    "C74_one_thread_partial",
    "C74_refuted"
   ],
   "note": "False: three threads, five messages, each logged at once, no buffer ever full: the compression thread comes to the buffers such that the messages lie two stages apart, and 30 is printed before 20 (C74_refuted, an execution of the model). Proved if a message is logged only when those of all other threads have been taken (then extents without messages and the time stamps left in a decoder do no harm either), in particular if one thread logs at a time. For files, rather than executions, see C21."
  },
  {
   "property": "C75",
   "status": "partial",
   "theorems": [
    "C75_partial",
    "C75_refuted"
   ],
   "note": "False where the dictionary cannot be read back (C49, C61): a program whose file name needs an escape. Proved for the programs of C49 and for messages under the restrictions of C50 only, so also for negative widths and precisions given as arguments and for more than 255 conversions, which decompression without aggregation function gets wrong (C48). That the arguments passed are those logged is stated for every meaning of printf's conversions at once."
  },
  {
   "property": "C76",
   "status": "partial",
   "theorems": [
    "C76_partial",
    "C76_refuted"
   ],
   "note": "False where C61 is (C76_refuted: the file of a program whose file name has to be escaped cannot be opened). Proved within the limits of C61 (program_ok, call_ok): iteration yields every message and then false; ordered decompression yields each message once, for every choice among equal time stamps, and in the order of time where batches are sorted, messages overtake one another by less than two rounds and every call of the encoder took a message (a call that takes none may lose the mark of the end of a round)."
  },
  {
   "property": "C77",
   "status": "proved",
   "theorems": [
    "C77_missing_statements_are_counted",
    "C77_long_messages_are_reported",
    "C77_nothing_longer_is_read_silently"
   ],
   "note": "For every sequence of calls and swaps and every content of the staging buffer. What was looked at is defined from the results of the encoder without counters (Encoder.v)."
  },
  {
   "property": "C78",
   "status": "partial",
   "theorems": [
    "C78_partial",
    "C78_refuted"
   ],
   "note": "False where C61 is: the file of a program whose file name has to be escaped is not opened, complete or not. Proved within the limits of C61 (program_ok, call_ok) for every length; in the order of time as C76, under conditions on the whole file."
  },
  {
   "property": "C79",
   "status": "partial",
   "theorems": [
    "C79_partial",
    "C79_refuted"
   ],
   "note": "False for a program that was changed between the executions: its log is read with the old dictionary, which is rejected if the texts have other lengths (C79_refuted) and prints the old texts if not (example C79_other_program); this is C41 seen from the user. Proved for any number of executions of one program, within the limits of C61 (program_ok, call_ok), for unordered decompression and for iteration; the dictionary has to fit twice into the decompressor's buffer, which follows from the file's size. Ordered decompression of several executions is C22's matter."
  },
  {
   "property": "C80",
   "status": "proved",
   "theorems": [
    "C80_text"
   ],
   "note": "For all histories, frequencies and messages. The events and their order are C56's; the message is any function of the event, as printf is not modelled; printf's %.1f is, correctly rounded as glibc does."
  },
  {
   "property": "C81",
   "status": "proved",
   "theorems": [
    "C81_vformat"
   ],
   "note": "What vsnprintf's conversions yield is a parameter; that the array of that size fits on the stack is not modelled."
  },
  {
   "property": "C82",
   "status": "proved",
   "theorems": [
    "C82_hexDump",
    "C82_readable"
   ],
   "note": "For every buffer; isprint is that of the C locale."
  },
  {
   "property": "C83",
   "status": "partial",
   "theorems": [
    "C83_partial",
    "C83_refuted"
   ],
   "note": "False for durations of 2^64 nanoseconds and more: 1000*us wraps, sleep(2^61) returns at once (C83_refuted). Proved for all shorter ones of at most 2^62 cycles and counters below 2^63 at the start."
  },
  {
   "property": "C84",
   "status": "proved",
   "theorems": [
    "C84_api"
   ],
   "note": "Each call is one step: calls of record and reset that overlap in time are not covered (C57 says that nothing keeps them apart)."
  },
  {
   "property": "C85",
   "status": "proved",
   "theorems": [
    "C85_text"
   ],
   "note": "For any sorted vector; the lines' numbers are those of C45's runRCDF, about which C45_lines and C45_command speak. The mean shown is that of C45_mean_partial, which leaves out the smallest difference. printf's %.2lf and %.10lf are correctly rounded, as glibc does."
  },
  {
   "property": "C86",
   "status": "proved",
   "theorems": [
    "C86_text"
   ],
   "note": "Without PREPROCESSOR_NANOLOG (whose version prints one more line at the front). The minimum, maximum, mean and total are those of Stats.v, about which C43 speaks. printf's %0.2lf is correctly rounded, half to even; doubles have unbounded exponents, as in TimeFmt.v."
  },
  {
   "property": "C87",
   "status": "proved",
   "theorems": [
    "C87_text"
   ],
   "note": "The counts are those of C70 (any counts here). The lower ratio is shown to be read over (written + pad), which is what the code divides; that this counts the padding twice is C71. With a divisor of 0 (C87_nothing: nothing logged) the program prints infinities or NaNs, which the model leaves out. No line is cut at the buffer's 1024 bytes. Doubles have unbounded exponents, as in TimeFmt.v."
  }
 ]
}
