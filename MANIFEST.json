{
 "claims": [
  {
   "property": "C01",
   "status": "proved",
   "theorems": [
    "C01_utf8_roundtrip",
    "C01_utf8_encode_shortest",
    "C01_utf8_numBytes",
    "C01_utf8_reencode",
    "C01_overlong_accepted_refuted"
   ],
   "note": "Encoding, decoding and re-encoding of UTF-8. The decoder also accepts overlong forms (C01_overlong_accepted_refuted records it)."
  },
  {
   "property": "C02",
   "status": "partial",
   "theorems": [
    "C02_utf8_progress",
    "C02_utf8_valid_iff",
    "C02_utf8_truncated_iff_partial",
    "C02_utf8_stable",
    "C02_truncated_refuted",
    "C02_utf8_back"
   ],
   "note": "Totality, progress, exact characterisation of Valid. The Truncated clause holds once the lead byte announces a length; it is false for stray bytes (C02_truncated_refuted)."
  },
  {
   "property": "C03",
   "status": "proved",
   "theorems": [
    "C03_utf16_roundtrip",
    "C03_utf16_layout",
    "C03_utf16_valid",
    "C03_utf16_progress",
    "C03_utf16_back"
   ],
   "note": "UTF-16 little and big endian."
  },
  {
   "property": "C04",
   "status": "partial",
   "theorems": [
    "C04_one_shot",
    "C04_characters",
    "C04_pieces_partial",
    "C04_pieces_of_three",
    "C04_pending_short",
    "C04_reading_partial",
    "C04_three_pieces_refuted",
    "C04_stray_refuted",
    "C04_odd_byte_refuted"
   ],
   "note": "Converting whole strings: every byte string, every pair of encodings, every sequence of output buffer sizes, unconditionally. Written in pieces or read through a pipe: every cut that spreads no character over three pieces (in particular all pieces but the last of three bytes or more), for text without stray bytes. Three-piece characters lose bytes, stray bytes overrun a buffer, an odd last UTF-16 byte fails (all refuted)."
  },
  {
   "property": "C05",
   "status": "proved",
   "theorems": [
    "C05_writing",
    "C05_reading",
    "C05_tiny_blocks_refuted"
   ],
   "note": "Every text, every cut into pieces, every sequence of blocks of two bytes or more (the default block has 4096 bytes; with blocks of one byte text would be lost, shown separately); reading with buffers of any sizes."
  },
  {
   "property": "C06",
   "status": "proved",
   "theorems": [
    "C06_print_u64_canonical",
    "C06_u64_roundtrip"
   ],
   "note": "Unsigned 64-bit, radix 2 to 36, any following non-digit text."
  },
  {
   "property": "C07",
   "status": "partial",
   "theorems": [
    "C07_parse_u64_digits",
    "C07_parse_u64_no_digits",
    "C07_every_input_splits",
    "C07_parse_u32",
    "C07_parse_u16",
    "C07_parse_u8",
    "C07_parse_s64_partial",
    "C07_parse_s32_partial",
    "C07_parse_s16_partial",
    "C07_parse_s8_partial",
    "C07_to_u64",
    "C07_to_u64_reject"
   ],
   "note": "Exact characterisation of success, overflow and consumed text for all unsigned widths; the signed parsers are exact except for the most negative value, where the code overflows."
  },
  {
   "property": "C08",
   "status": "partial",
   "theorems": [
    "C08_print_s64",
    "C08_s64_roundtrip_partial",
    "C08_to_s64_roundtrip_partial",
    "C08_s64_min_refuted"
   ],
   "note": "All signed values but the 64-bit minimum, where printing and parsing overflow (refuted)."
  },
  {
   "property": "C09",
   "status": "proved",
   "theorems": [
    "C09_roundtrip",
    "C09_shortest",
    "C09_prefix_free"
   ],
   "note": "For every 32-bit value and any following bytes."
  },
  {
   "property": "C10",
   "status": "partial",
   "theorems": [
    "C10_labels",
    "C10_many_labels_partial",
    "C10_history"
   ],
   "note": "Unconditional up to 64 distinct strings, for every hash function; beyond that the answers are right whenever the calls return (hash map insertion can fail to end, see C18)."
  },
  {
   "property": "C11",
   "status": "proved",
   "theorems": [
    "C11_days_total",
    "C11_days_roundtrip",
    "C11_date_total",
    "C11_date_roundtrip",
    "C11_days_consecutive",
    "C11_days_after_epoch"
   ],
   "note": "Over the whole 32-bit range the code can represent (stated as explicit bounds)."
  },
  {
   "property": "C12",
   "status": "partial",
   "theorems": [
    "C12_us_roundtrip_partial",
    "C12_datetime_roundtrip_partial",
    "C12_before_1970_refuted"
   ],
   "note": "Proved from 1970 on. Every timestamp before 1970 fails an assertion (refuted for all of them)."
  },
  {
   "property": "C13",
   "status": "partial",
   "theorems": [
    "C13_weekday_value_partial",
    "C13_epoch_weekday_refuted"
   ],
   "note": "The reported weekday is always one too far (refuted at the epoch); it advances correctly."
  },
  {
   "property": "C14",
   "status": "proved",
   "theorems": [
    "C14_sort"
   ],
   "note": "Any strict weak order, any array; includes termination and absence of assertion failures."
  },
  {
   "property": "C15",
   "status": "proved",
   "theorems": [
    "C15_filter"
   ],
   "note": "As a multiset; the order is not preserved by design."
  },
  {
   "property": "C16",
   "status": "partial",
   "theorems": [
    "C16_array_is_list_partial",
    "C16_eraseQuick_overlap_refuted"
   ],
   "note": "All operations; the two-argument quick-erase needs a guard against overlap (refuted without it) and sizes stay within 2^31."
  },
  {
   "property": "C17",
   "status": "proved",
   "theorems": [
    "C17_pool"
   ],
   "note": "Every operation sequence, up to the first call outside the contract; includes clearing."
  },
  {
   "property": "C18",
   "status": "partial",
   "theorems": [
    "C18_small_maps",
    "C18_any_size_partial",
    "C18_insert_hangs_refuted",
    "C18_erase_loses_refuted",
    "C18_erase_wrong_memory_refuted"
   ],
   "note": "Unconditional for maps holding at most 64 keys, for every hash function. For larger maps: every answer is right as long as calls return and no erase stores 255 as a link; both can fail (refuted: an insertion that never ends, an erase that loses a key, an erase that reads wrong memory)."
  },
  {
   "property": "C19",
   "status": "partial",
   "theorems": [
    "C19_iterate_small_maps",
    "C19_iterate_any_size_partial"
   ],
   "note": "As for C18."
  },
  {
   "property": "C20",
   "status": "proved",
   "theorems": [
    "C20_sorted_multiset",
    "C20_always_sorted",
    "C20_queue_order_partial",
    "C20_queue_order_refuted"
   ],
   "note": "Sorted multiset and both searches for every order, capacity and history; the queue order among equal keys promised by a source comment holds only while the tree is one node (refuted beyond)."
  },
  {
   "property": "C21",
   "status": "partial",
   "theorems": [
    "C21_sequence",
    "C21_big_items_refuted",
    "C21_count_wraps_refuted",
    "C21_normalized_refuted"
   ],
   "note": "Every history and block size, for items that fit in a block and fewer than 4 GB where bytes are counted. Larger items make the sequence look empty, the count wraps at 4 GB, and a normalised reference points into the wrong block (all refuted)."
  },
  {
   "property": "C22",
   "status": "proved",
   "theorems": [
    "C22_memory_stream"
   ],
   "note": "Every history of writes, reservations and flushes, every block size, below 4 GB in total."
  },
  {
   "property": "C23",
   "status": "partial",
   "theorems": [
    "C23_pipe_delivers",
    "C23_pipe_prefix",
    "C23_no_assert_partial",
    "C23_large_request_refuted",
    "C23_huge_write_refuted"
   ],
   "note": "Every history; every pipe, including one that fails at any point. Reservations of two or more bytes on a failing pipe end in a failed assertion, and a single write of 2 GB or more overruns the block (both refuted)."
  },
  {
   "property": "C24",
   "status": "partial",
   "theorems": [
    "C24_stream_partial",
    "C24_request_refuted",
    "C24_request_rewound_refuted",
    "C24_readString_refuted",
    "C24_short_request_refuted",
    "C24_zero_fill_refuted"
   ],
   "note": "Every source, every chunking by the pipe, every block size above 100 bytes and every history of reads, skips, single-byte requests, save points, rewinds, position queries and readRemainingContents. Contiguous requests of several bytes are covered when they do not cross a multiple of the block size; those that cross lose bytes or fail (refuted for all sizes), and readString fails (refuted)."
  },
  {
   "property": "C25",
   "status": "partial",
   "theorems": [
    "C25_meaning_partial",
    "C25_tidy",
    "C25_up_twice_refuted",
    "C25_above_root_refuted",
    "C25_windows_refuted",
    "C25_empty_refuted"
   ],
   "note": "Every list of full or relative paths in both formats, when \"..\" does not lead above the root or more than one folder above the start. Going up twice, going above the root, and on Windows drive-relative or rooted paths change meaning (refuted); tidiness and idempotence hold for all but the empty path."
  },
  {
   "property": "C26",
   "status": "partial",
   "theorems": [
    "C26_split",
    "C26_split_full",
    "C26_components_lead_there",
    "C26_rejoin_partial",
    "C26_split_ext"
   ],
   "note": "split, splitFull and splitExt for every path below 2 GB; rejoining under the conditions of C25."
  },
  {
   "property": "C27",
   "status": "partial",
   "theorems": [
    "C27_relative_partial",
    "C27_above_refuted"
   ],
   "note": "Every pair of full paths or of relative paths that do not go above their start, in both formats; refuted for an ancestor that starts with \"..\"."
  },
  {
   "property": "C28",
   "status": "partial",
   "theorems": [
    "C28_compare_lex",
    "C28_order_total",
    "C28_compare_huge_refuted"
   ],
   "note": "Strings up to 2 GB; beyond, the sign is wrong (refuted)."
  },
  {
   "property": "C29",
   "status": "partial",
   "theorems": [
    "C29_left_subStr",
    "C29_shortenedBy_right",
    "C29_slice_checked",
    "C29_back",
    "C29_subStr2_partial",
    "C29_subStr2_wrap_refuted",
    "C29_findByte",
    "C29_rfindByte",
    "C29_rfindByte_default",
    "C29_startsWith",
    "C29_endsWith",
    "C29_trim",
    "C29_ltrim",
    "C29_rtrim",
    "C29_splitByte",
    "C29_join",
    "C29_split_join",
    "C29_upperAsc",
    "C29_lowerAsc",
    "C29_reversedBytes",
    "C29_reversedUTF8",
    "C29_reversedUTF8_total",
    "C29_withNullTerminator",
    "C29_concat_partial",
    "C29_repeat_partial",
    "C29_concat_overflow_refuted"
   ],
   "note": "Two-argument subStr, concatenation and repetition need a 32-bit guard on lengths (refuted without it). All else unconditional."
  },
  {
   "property": "C30",
   "status": "partial",
   "theorems": [
    "C30_xml_safe",
    "C30_xml_no_markup",
    "C30_xml_lossless",
    "C30_xml_unescape_unique",
    "C30_overlong_refuted"
   ],
   "note": "Safety for all bytes; losslessness for text without overlong ASCII forms (refuted otherwise)."
  },
  {
   "property": "C31",
   "status": "partial",
   "theorems": [
    "C31_escaped_roundtrip_partial",
    "C31_line_break_reported",
    "C31_control_char_refuted",
    "C31_empty_at_end_refuted"
   ],
   "note": "Guards: no control characters other than tab/CR/LF, no overlong ASCII, and a following byte when the string is empty; each guard is shown necessary."
  },
  {
   "property": "C32",
   "status": "partial",
   "theorems": [
    "C32_cmdline_roundtrip_partial",
    "C32_trailing_backslash_refuted",
    "C32_empty_refuted"
   ],
   "note": "Guards: arguments that need quoting must not end in a backslash; the empty argument vanishes (both refuted)."
  },
  {
   "property": "C33",
   "status": "partial",
   "theorems": [
    "C33_location_partial",
    "C33_ascii",
    "C33_location_refuted",
    "C33_end_refuted"
   ],
   "note": "Every text below 64 MB and every offset on a character, unless a multi-byte character straddles the 256-byte boundary before it (wrong column, refuted) or the offset is the end of a text whose length is a multiple of 256 (out of bounds, refuted). ASCII text: closed form for the line and column."
  },
  {
   "property": "C34",
   "status": "partial",
   "theorems": [
    "C34_tags_partial",
    "C34_percent_refuted",
    "C34_missed_refuted",
    "C34_unclosed_refuted"
   ],
   "note": "Every text whose tags have no \"%\" inside and no odd run of \"<\" before them. Every \"%\" inside a tag gives the handler one byte too many (refuted for all such tags); \"<<%\" hides a tag and tags cut off by the end of the file are treated unevenly (refuted)."
  },
  {
   "property": "C35",
   "status": "partial",
   "theorems": [
    "C35_scan_first_occurrence_partial",
    "C35_scan_sound",
    "C35_scan_defined",
    "C35_restart_missed_refuted",
    "C35_line_exact",
    "C35_skip_whitespace"
   ],
   "note": "Exact under the guard that no partial match is directly followed by the first terminator byte; one-byte terminators (lines) need no guard. The unguarded claim is refuted (\"**/\" with terminator \"*/\")."
  },
  {
   "property": "C36",
   "status": "partial",
   "theorems": [
    "C36_identifier_partial",
    "C36_empty_accepted_refuted"
   ],
   "note": "Consumed text is always the longest identifier; the success flag is wrong for an empty identifier when a flag is given (refuted)."
  },
  {
   "property": "C37",
   "status": "partial",
   "theorems": [
    "C37_roundtrip_partial",
    "C37_byte_255_refuted",
    "C37_control_refuted",
    "C37_overlong_refuted"
   ],
   "note": "Writing a node and parsing the text gives the node back, for every tree whose texts hold no byte 255, no control character and no overlong encoding of an ASCII character, and whose objects have at most 64 distinct keys. Each excluded kind of text is shown to break the round trip (refuted theorems). Objects with more than 64 keys are outside the model: see C39 and C18."
  },
  {
   "property": "C38",
   "status": "partial",
   "theorems": [
    "C38_parse_partial",
    "C38_documents",
    "C38_trailing",
    "C38_blank_refuted",
    "C38_unclosed_refuted",
    "C38_word_refuted",
    "C38_asserts_refuted",
    "C38_trailing_refuted"
   ],
   "note": "A tree comes back exactly for the documents of a separately stated grammar, with the tree they stand for (if and only if, for every text); every other text has one of the listed outcomes. The full claim (every malformed text is reported as an error) is false of the code: syntax errors before the end of the document read a null node, a word at the end of the text loops for ever, and some escapes fail an assertion. Each is a refuted theorem."
  },
  {
   "property": "C39",
   "status": "partial",
   "theorems": [
    "C39_history",
    "C39_many_partial",
    "C39_copy_partial",
    "C39_copy_refuted"
   ],
   "note": "Every history of get, set, remove and listing on objects of at most 64 items at a time, for every hash function, including all collisions; larger objects when the calls return and no removal cuts a chain (C18, C19). Copying a node works exactly when no two keys share a hash: otherwise it reads a null pointer (refuted for every hash function)."
  },
  {
   "property": "C40",
   "status": "partial",
   "theorems": [
    "C40_walk_partial",
    "C40_edited_partial",
    "C40_up_twice_refuted",
    "C40_empty_refuted",
    "C40_missing_refuted"
   ],
   "note": "The walk loop and POSIX directory listing on every file tree of properly named entries, from every path that goes up at most once from the current directory and is joined to less than 2 GB; also with a loop body that removes or reorders subdirectories. Refuted: from \"../..\" directories that do not exist are reported in place of those that do; the walk of the empty path is empty; a missing directory is reported as an empty one. Symbolic links are not modelled."
  },
  {
   "property": "C41",
   "status": "partial",
   "theorems": [
    "C41_makeDirs_partial",
    "C41_blocked",
    "C41_returns",
    "C41_succeeds",
    "C41_dotdot_refuted",
    "C41_trailing_refuted",
    "C41_through_file_refuted"
   ],
   "note": "POSIX makeDirs on a file tree, with any system call allowed to fail. Proved: results and effects for all paths (AlreadyExists only without \"..\"), errors for a file in the way, success conditions. Refuted: \"a/../f\" answers AlreadyExists for a file; a trailing separator makes nothing; with assertions a path through a file stops the program."
  },
  {
   "property": "C42",
   "status": "partial",
   "theorems": [
    "C42_save_partial",
    "C42_unchanged_iff",
    "C42_succeeds",
    "C42_lost_refuted",
    "C42_crash_refuted",
    "C42_big_refuted"
   ],
   "note": "POSIX makeDirsAndSaveBinaryIfDifferent on a file tree, with failing and short writes. Proved: Unchanged iff same contents (files below 4 GB), effects of every result, success conditions. Refuted: a failing write is answered with OK and loses the file; a crash can leave the file empty although a temporary file is promised; files of 4 GB and more."
  },
  {
   "property": "C43",
   "status": "proved",
   "theorems": [
    "C43_handed",
    "C43_project",
    "C43_add",
    "C43_loop_refuted"
   ],
   "note": "Every graph without loops: when propagation ends, every list of every target is as specified (visible dependencies, include directories, definitions, flags, libraries, import and export definitions), in place of only the two lists of the statement; it ends unless an assertion about containers fails, and exactly when is stated; clashing definitions are reported exactly if there are any. Graphs with loops, which the instantiator never makes but addDependency can, never end (refuted)."
  },
  {
   "property": "C44",
   "status": "proved",
   "theorems": [
    "C44_avalanche32_bijection",
    "C44_avalanche64_bijection"
   ],
   "note": "For all 32-bit and 64-bit values."
  },
  {
   "property": "C45",
   "status": "proved",
   "theorems": [
    "C45_isPowerOf2",
    "C45_alignPowerOf2",
    "C45_isAligned",
    "C45_roundUpPowerOf2_32",
    "C45_roundUpPowerOf2_64",
    "C45_roundUp_out_of_range_refuted",
    "C45_countSetBits",
    "C45_countSetBits_negative_refuted",
    "C45_reverseBytes32"
   ],
   "note": "Wherever the result fits; out of range it returns 0 and countSetBits loops on negative arguments (refuted)."
  },
  {
   "property": "C46",
   "status": "proved",
   "theorems": [
    "C46_safe",
    "C46_alive",
    "C46_once",
    "C46_exact",
    "C46_settle",
    "C46_move_out_refuted",
    "C46_construction_seen",
    "C46_fenced_uses_seen",
    "C46_use_races_refuted"
   ],
   "note": "Any number of threads, handles and objects holding handles, every interleaving of the atomic steps, up to 65535 references per object (asserted). Moving a handle out of an object is outside the theorem: overwriting a handle from inside the object it held uses freed memory (refuted). On release/acquire memory the callback sees the construction if the fences asked for are issued; uses by other threads are seen only if they also fence before dropping, which Reference does not do (refuted)."
  },
  {
   "property": "C47",
   "status": "partial",
   "theorems": [
    "C47_at_most_once",
    "C47_both_called",
    "C47_order_partial",
    "C47_defined",
    "C47_full_overtakes_refuted",
    "C47_copy_weak_refuted",
    "C47_upgrade_refuted"
   ],
   "note": "Any number of threads and every interleaving, counts up to 32767 (asserted): each callback at most once, exactly once when all references are gone. That the full callback waits for the partial one holds only if no weak reference is dropped while the partial one runs (otherwise refuted, also with one thread). Copying a weak reference after the last strong one is gone fails an assertion, making a strong one from it runs the partial callback again (both refuted)."
  },
  {
   "property": "C48",
   "status": "proved",
   "theorems": [
    "C48_lazy_mutex",
    "C48_spin_lock",
    "C48_lazy_mutex_available",
    "C48_spin_lock_available"
   ],
   "note": "Every number of threads and every schedule, on a release/acquire memory in which loads may return old values; the inner mutex is an abstract lock. Also: every thread can always get in again. The destructor is not modelled."
  },
  {
   "property": "C49",
   "status": "proved",
   "theorems": [
    "C49_format",
    "C49_format_literal"
   ],
   "note": "Exact characterisation of success and output; an ill-formed string or a wrong argument count fails an assertion."
  },
  {
   "property": "C50",
   "status": "partial",
   "theorems": [
    "C50_right",
    "C50_once",
    "C50_only",
    "C50_idle",
    "C50_safe",
    "C50_ends",
    "C50_ask_refuted",
    "C50_ask_skips_refuted",
    "C50_recycled_refuted",
    "C50_dropped_refuted",
    "C50_untidy_refuted",
    "C50_missing_refuted",
    "C50_zero_refuted",
    "C50_second_refuted",
    "C50_shut_refuted"
   ],
   "note": "Every history of sessions that keep what they cook, do not ask whether a job is cooked and end with cookDeferred; cook functions that cook a job right now also refer to it; the time of a file is not 0 and tells its contents. Refuted without these: asking marks a job as being cooked, dropped jobs leave dangling or recycled addresses, a file that has gone fails an assertion, a change within a second goes unnoticed. Jobs in cycles of references are never deleted; that is not stated."
  },
  {
   "property": "C51",
   "status": "partial",
   "theorems": [
    "C51_find",
    "C51_rfind_partial",
    "C51_rfind_empty_refuted"
   ],
   "note": "rfind on an empty array fails an assertion (refuted)."
  },
  {
   "property": "C52",
   "status": "partial",
   "theorems": [
    "C52_destructed_once_partial",
    "C52_truncate_leaks_refuted"
   ],
   "note": "Holds for histories without truncate; truncate never destructs what it drops (refuted)."
  },
  {
   "property": "C53",
   "status": "proved",
   "theorems": [
    "C53_view_stream"
   ],
   "note": "write, writeByte, flush and position queries; pieces below 2 GB."
  },
  {
   "property": "C54",
   "status": "proved",
   "theorems": [
    "C54_convert",
    "C54_same_names"
   ],
   "note": "Both directions; from POSIX the names must have no backslash."
  },
  {
   "property": "C55",
   "status": "proved",
   "theorems": [
    "C55_view_stream",
    "C55_restore_refuted"
   ],
   "note": "Every view and history within the contract (a save point is restored only from a later position). Restoring does not clear the end-of-file flag (refuted as a promise)."
  },
  {
   "property": "C58",
   "status": "partial",
   "theorems": [
    "C58_remove_partial",
    "C58_up_twice_refuted",
    "C58_dot_refuted",
    "C58_through_refuted"
   ],
   "note": "Every file tree and every pattern of failing calls, at every point in time, for paths that lead down (after at most one \"..\" at the start) to a directory that does not contain the current one. Refuted: \"../../d\" removes files from the directory d inside the current one; \".\" removes everything in the current directory and then fails; a path through what is removed fails. Symbolic links are not modelled."
  },
  {
   "property": "C59",
   "status": "partial",
   "theorems": [
    "C59_inside_partial",
    "C59_apart",
    "C59_up_refuted",
    "C59_drive_refuted"
   ],
   "note": "For every full root and every path that does not go above where it starts, both formats, with the exact place reached; two such file systems with roots apart never meet. Refuted: \"..\" escapes, as does \"C:x\" on Windows."
  },
  {
   "property": "C60",
   "status": "proved",
   "theorems": [
    "C60_project",
    "C60_order_refuted"
   ],
   "note": "Every environment and list of roots with finitely many sources. Finding sources by name, source files and what extern providers do are not modelled. Refuted: that the order of the roots does not matter."
  },
  {
   "property": "C56",
   "status": "partial",
   "theorems": [
    "C56_log",
    "C56_safe",
    "C56_safe_rivals",
    "C56_available",
    "C56_freed_refuted",
    "C56_early_refuted",
    "C56_stats_refuted"
   ],
   "note": "Every schedule, number of threads, page size and page count, on a sequentially consistent memory. Refuted without a bound on how long a call is held up: a slow call goes on into a page that was deleted (C56_freed_refuted, for all sizes); safe up to MaxNumPages * EventsPerPage calls, or while fewer calls than fill all pages but one run beside any call. dumpEntireLog during logging shows unwritten events and dumpStats forgets deleted pages (refuted)."
  },
  {
   "property": "C57",
   "status": "partial",
   "theorems": [
    "C57_detects",
    "C57_turns",
    "C57_stolen_refuted",
    "C57_nested_refuted",
    "C57_race_refuted"
   ],
   "note": "Every sequence of calls: stopped exactly unless entering and leaving take turns; when threads leave only what they entered, exactly if sections overlap. Refuted: that what passes does not race (exit uses Acquire, so it orders nothing, shown on release/acquire memory for any two threads), that leaving the section of another thread is noticed, and that a thread may enter again inside its own section."
  },
  {
   "property": "C61",
   "status": "proved",
   "theorems": [
    "C61_atomic",
    "C61_woken",
    "C61_available"
   ],
   "note": "Every schedule with spurious wake-ups, any number of threads; a mutex and condition variable as the standard describes them, on a sequentially consistent memory."
  },
  {
   "property": "C62",
   "status": "partial",
   "theorems": [
    "C62_groups",
    "C62_counters",
    "C62_printed",
    "C62_used_refuted"
   ],
   "note": "Every schedule of registrations, also with compare-exchanges that fail for no reason; sequentially consistent memory. Counts are modulo 2^32, and a group used 2^32 times is not printed (refuted)."
  },
  {
   "property": "C63",
   "status": "partial",
   "theorems": [
    "C63_save",
    "C63_load_partial",
    "C63_bytes_kept",
    "C63_detect",
    "C63_auto_mark_partial",
    "C63_auto_utf8_partial",
    "C63_auto_utf16_partial",
    "C63_stray_refuted",
    "C63_feff_refuted",
    "C63_control_refuted",
    "C63_ideographs_refuted",
    "C63_bytes_refuted",
    "C63_bytes_mark_refuted",
    "C63_odd_refuted",
    "C63_block_refuted"
   ],
   "note": "Saving: every format and text (plain bytes: ASCII). Loading in the format: every text; files in UTF-16 or plain bytes must fit into a block, since larger ones may lose a character (refuted). Detection: total; exact for every file with a mark, for UTF-8 texts without control characters, for UTF-16 without a mark for ASCII texts, including the binary32 scores. Refuted outside: stray bytes, escape sequences, ideographs, a leading U+FEFF, plain bytes beyond ASCII, odd lengths."
  },
  {
   "property": "C64",
   "status": "proved",
   "theorems": [
    "C64_pieces",
    "C64_total",
    "C64_add",
    "C64_const_refuted"
   ],
   "note": "Every message below 2^64 bytes, every division and every content of the uninitialised memory; little endian, unaligned reads. Found beside it: get, although const, overwrites the buffer (C64_const_refuted), so two threads may not call it on one object."
  },
  {
   "property": "C65",
   "status": "partial",
   "theorems": [
    "C65_words",
    "C65_one_word",
    "C65_int",
    "C65_float",
    "C65_boundary_refuted",
    "C65_nul_refuted",
    "C65_int64_refuted"
   ],
   "note": "All keys: words, equal floats, no collision of 32-bit integers or of keys that differ in one word. Refuted: that sequences of parts are not confused - adjacent strings run into each other after a multiple of four bytes, zero bytes before the last one or two are not noticed, 64-bit integers are cut to 32 bits."
  },
  {
   "property": "C66",
   "status": "proved",
   "theorems": [
    "C66_url"
   ],
   "note": "Every byte string, against a percent-decoder after RFC 3986."
  },
  {
   "property": "C67",
   "status": "partial",
   "theorems": [
    "C67_dialogue",
    "C67_close",
    "C67_always",
    "C67_cut",
    "C67_half",
    "C67_body_refuted"
   ],
   "note": "Every dialogue, every handler that gives an answer or does nothing, every division of its writes and of the pieces of the stream, every input; against a client after RFC 7230. Requests without a body only: a body is taken for the next request (refuted). C67_half: after a response whose header was never ended the connection is closed. C67_cut: a request cut off by the end of the input is answered with an error."
  },
  {
   "property": "C68",
   "status": "partial",
   "theorems": [
    "C68_found_partial",
    "C68_missing",
    "C68_file",
    "C68_escape_refuted",
    "C68_source_partial",
    "C68_source_near",
    "C68_source_refuted",
    "C68_drive_refuted",
    "C68_page_partial",
    "C68_page_refuted"
   ],
   "note": "Paths that do not go above their start: the exact file, its type, its bytes; otherwise refuted: any file of a served type can be had by going up, source files also from the parent of the root folder (and not further, on POSIX), on Windows from any drive, and pages from anywhere; a root folder that is not full is entered twice. Pages on POSIX only."
  },
  {
   "property": "C69",
   "status": "partial",
   "theorems": [
    "C69_reading",
    "C69_written",
    "C69_intraword_refuted",
    "C69_backslash_refuted",
    "C69_underscore_refuted",
    "C69_links_refuted"
   ],
   "note": "All lines of all paragraphs give a reading of the text (total, lossless); nested items written with stars and spaces around them are read back. Refuted: emphasis inside words, backslashes in link targets, underscores around stars, links inside links. The reading is not shown to be the one of CommonMark beyond the written items; destinations with backslashes are only bounded."
  },
  {
   "property": "C70",
   "status": "partial",
   "theorems": [
    "C70_exact_partial",
    "C70_safe_partial",
    "C70_one_reading",
    "C70_paragraph",
    "C70_source",
    "C70_source_exact",
    "C70_empty_item_refuted"
   ],
   "note": "All documents whose tight lists have no empty items: exact for texts without overlong UTF-8, free of injected markup for all bytes; the reading of a page is unique. C70_source: from any source of bytes to its page; C70_source_exact: character for character for ASCII sources. Refuted for empty items of tight lists."
  },
  {
   "property": "C71",
   "status": "partial",
   "theorems": [
    "C71_text_partial",
    "C71_written",
    "C71_total_refuted",
    "C71_structure_refuted"
   ],
   "note": "C71_text_partial: whatever is parsed, no text is lost, doubled or moved. C71_written: documents of paragraphs, headings, code, nested quotes and lists of paragraphs, written with their blocks apart by blank lines, are parsed as what was written. Missing: the structure of other sources. Refuted: some sources fail assertions (C71_total_refuted), some structures are lost (C71_structure_refuted)."
  },
  {
   "property": "C72",
   "status": "partial",
   "theorems": [
    "C72_saves",
    "C72_round_trip_partial",
    "C72_tree_refuted",
    "C72_order_refuted",
    "C72_place_refuted",
    "C72_null_refuted",
    "C72_big_refuted",
    "C72_box_refuted"
   ],
   "note": "C72_saves: which objects can be saved. C72_round_trip_partial: what is saved is loaded as the same graph, if no owned object that is pointed to starts where an earlier one that is not pointed to does, only structs and switches are owned, arrays have fewer than ten million items and floats are not signalling NaNs. Not modelled: AnySavedObject, TypedArray, onPostSerialize. Refuted: trees of owned nodes, pointers in another order, null pointers, long arrays, owned arrays, empty objects at the same place."
  },
  {
   "property": "C73",
   "status": "partial",
   "theorems": [
    "C73_versions",
    "C73_numbers",
    "C73_wraps",
    "C73_switch_refuted",
    "C73_pointer_refuted",
    "C73_target_refuted",
    "C73_bool_refuted"
   ],
   "note": "C73_versions: every pair of versions between which [adapts] relates the object. C73_numbers: numbers keep every value the new kind has; C73_wraps: integers otherwise modulo a power of two. Refuted: reordered states of a switch (C73_switch_refuted), removed pointers (C73_pointer_refuted), large integers to bool (C73_bool_refuted). Rounding of values the new kind does not have is modelled but not specified."
  },
  {
   "property": "C74",
   "status": "partial",
   "theorems": [
    "C74_script_does_what_it_means_partial",
    "C74_steps_do_not_matter",
    "C74_copy_of_the_newest_variable_refuted",
    "C74_printing_empties_a_string_refuted",
    "C74_parameter_is_the_callers_variable_refuted",
    "C74_returned_argument_refuted",
    "C74_returned_variable_refuted",
    "C74_string_assigned_to_itself_refuted",
    "C74_or_does_not_short_circuit_refuted"
   ],
   "note": "C74_script_does_what_it_means_partial: every script in which right sides of assignments, arguments and returned expressions are not bare names of variables runs exactly as the reference interpreter on values says, at every number of steps, wherever that gives it a meaning. C74_steps_do_not_matter: more steps do not change an outcome. Missing, because false: scripts that hand over variables by their bare names (seven _refuted theorems: copies crash, strings are emptied, parameters alias, returned variables dangle)."
  },
  {
   "property": "C75",
   "status": "partial",
   "theorems": [
    "C75_script_is_parsed_as_written_partial",
    "C75_expression_is_parsed_as_written_partial",
    "C75_spelling_is_unambiguous",
    "C75_parsing_ends",
    "C75_only_strings_break",
    "C75_text_to_output_partial",
    "C75_unary_operator_takes_all_refuted",
    "C75_wrong_sum_refuted",
    "C75_large_number_refuted",
    "C75_after_return_refuted",
    "C75_unclosed_string_refuted"
   ],
   "note": "C75_script_is_parsed_as_written_partial: every spelling of a script by the grammar of CrowbarText.v is parsed as that script (C75_expression_is_parsed_as_written_partial for expressions in any context, C75_spelling_is_unambiguous, C75_parsing_ends for every source, C75_only_strings_break for every source without a quote). C75_text_to_output_partial composes this with C74. Missing, because false: an expression that ends in the operand of a unary operator, followed by a binary operator (C75_unary_operator_takes_all_refuted, C75_sum_after_minus_refuted, C75_wrong_sum_refuted); numbers of 2^32 or more become 0 (C75_large_number_refuted); an unclosed string fails an assertion (C75_unclosed_string_refuted); a statement may follow a return on its line (C75_after_return_refuted)."
  },
  {
   "property": "C76",
   "status": "partial",
   "theorems": [
    "C76_saved_is_loaded_partial",
    "C76_through_text_partial",
    "C76_other_version",
    "C76_build_folder_partial",
    "C76_import_ends",
    "C76_import_keeps_type",
    "C76_numbers_refuted",
    "C76_arrays_refuted",
    "C76_null_refuted",
    "C76_enum_refuted",
    "C76_shape_refuted",
    "C76_new_identifier_refuted",
    "C76_unreported_refuted",
    "C76_import_new_partial",
    "C76_items"
   ],
   "note": "C76_saved_is_loaded_partial and C76_through_text_partial (through the text of a file) for every object that can be saved, onto any object of the type; C76_other_version; C76_build_folder_partial (the file of a build folder with its signature); C76_import_ends; C76_import_keeps_type. Missing, false of the code (the refuted theorems): numbers, fixed arrays and enum-indexed arrays cannot be exported; null Owned pointers and enum values without identifier are read through null; malformed files fail assertions or are ignored without a report."
  },
  {
   "property": "C77",
   "status": "partial",
   "theorems": [
    "C77_every_byte_partial",
    "C77_reading_ends_partial",
    "C77_written_read_back_partial",
    "C77_locations_partial",
    "C77_raw_unterminated_refuted",
    "C77_raw_parenthesis_refuted",
    "C77_comment_stars_refuted",
    "C77_zero_minus_refuted",
    "C77_exponent_refuted",
    "C77_separator_refuted",
    "C77_null_directive_refuted",
    "C77_comment_directive_refuted",
    "C77_define_refuted",
    "C77_macro_string_refuted",
    "C77_recursive_macro_refuted",
    "C77_macro_location_refuted"
   ],
   "note": "C77_every_byte_partial (any source, without macros), C77_written_read_back_partial (every source that consists of written tokens), C77_reading_ends_partial (any source without raw strings, any macros not within each other), C77_locations_partial (any source, any macros). Missing: for raw strings, comments with several stars, 0-1, 0.5e3, digit separators, null directives, continued defines, strings in macro arguments, recursive macros and macro names it does not hold (the refuted theorems); the tree of the location map is taken to keep equal keys in order."
  },
  {
   "property": "C78",
   "status": "partial",
   "theorems": [
    "C78_going_back_partial",
    "C78_curly_skipped",
    "C78_balanced_skipped",
    "C78_skipping_ends",
    "C78_sources_end_partial",
    "C78_closing_ends_partial",
    "C78_angles_refuted",
    "C78_comments_refuted",
    "C78_same_place_refuted",
    "C78_error_lost_refuted",
    "C78_closing_marked_refuted",
    "C78_push_before_refuted",
    "C78_push_twice_refuted",
    "C78_told"
   ],
   "note": "C78_going_back_partial (any tokenizer, any commands), C78_curly_skipped, C78_balanced_skipped, C78_skipping_ends (any parser state), C78_sources_end_partial (the tokenizer of C77), C78_closing_ends_partial (outside of restore points). Missing: changes of how angles are read, comments handed over twice, restore points at the same place, errors under a restore point that is not gone back to, closing under a restore point, pushing back over the restore point; there it does not hold (the refuted theorems). The grammar above (declarations, expressions) is not modelled."
  },
  {
   "property": "C79",
   "status": "partial",
   "theorems": [
    "C79_owners_partial",
    "C79_once_partial",
    "C79_end_partial",
    "C79_inside_refuted",
    "C79_itself_refuted",
    "C79_again_refuted",
    "C79_cycle_refuted",
    "C79_functor_refuted",
    "C79_captured_refuted"
   ],
   "note": "Every use of Owned and OptionallyOwned allowed by the specification is proved, for every heap that gives free addresses. Not allowed, each with a theorem: assigning from inside of the owned object (C79_inside_refuted, always freed memory), to itself (C79_itself_refuted), borrowing the same object again (C79_again_refuted), into a member of its own (C79_cycle_refuted), and Functors, which leak (C79_functor_refuted, C79_captured_refuted)."
  },
  {
   "property": "C80",
   "status": "partial",
   "theorems": [
    "C80_rectangles",
    "C80_margins",
    "C80_point_refuted",
    "C80_full_refuted",
    "C80_crop_partial",
    "C80_inverted_refuted",
    "C80_copy_partial",
    "C80_flip_partial",
    "C80_copy32_partial",
    "C80_columns_refuted",
    "C80_in_place_refuted",
    "C80_large_refuted",
    "C80_clear",
    "C80_upwards_refuted",
    "C80_half_partial",
    "C80_convert_partial",
    "C80_infinity_refuted",
    "C80_rgba",
    "C80_abgr_refuted"
   ],
   "note": "Images must have columns (C80_columns_refuted), fewer than 2^31 bytes (C80_large_refuted) and positive strides (C80_upwards_refuted: such images are not cleared); source and destination must not overlap (C80_in_place_refuted). Refuted: Box::full() is empty, a rectangle extended to a point need not contain it, crop accepts inverted rectangles, infinity is converted to 1.0 and 131072 to 0, toABGR shifts the first channel by 16. Not modelled: linearToSRGB."
  },
  {
   "property": "C81",
   "status": "partial",
   "theorems": [
    "C81_commands_partial",
    "C81_sources_partial",
    "C81_normalized",
    "C81_include_refuted",
    "C81_backslash_refuted",
    "C81_dollar_refuted",
    "C81_control_refuted",
    "C81_case_refuted",
    "C81_twice_refuted",
    "C81_definitions"
   ],
   "note": "C81_commands_partial, C81_sources_partial: for every project whose names are words, whose source paths hold no dollars and no control characters but tabs and ends of lines, and whose other paths hold no quotes, backslashes and dollars. C81_normalized for every project. Missing, because false: include directories and libraries with quotes or backslashes are not escaped (C81_include_refuted, C81_backslash_refuted), dollars (C81_dollar_refuted), control characters (C81_control_refuted); names that differ in case share their files (C81_case_refuted), and two groups list every file twice (C81_twice_refuted)."
  },
  {
   "property": "C82",
   "status": "partial",
   "theorems": [
    "C82_commands_partial",
    "C82_accepted",
    "C82_one_meaning",
    "C82_no_assertion",
    "C82_empty_refuted",
    "C82_ambiguous_refuted",
    "C82_rpc_refuted",
    "C82_add",
    "C82_unique",
    "C82_remove",
    "C82_select",
    "C82_removed_refuted"
   ],
   "note": "C82_commands_partial: an equivalence for every command line without empty arguments, whose command is not rpc and whose extern command is not ambiguous. Missing, because false: empty arguments end the line (C82_empty_refuted), ambiguous beginnings are taken for the first command (C82_ambiguous_refuted), rpc ignores its arguments and fails an assertion (C82_rpc_refuted), a removed target stays active and shared (C82_removed_refuted). C82_accepted, C82_one_meaning, C82_no_assertion, C82_add, C82_unique, C82_remove, C82_select without these conditions."
  },
  {
   "property": "C83",
   "status": "partial",
   "theorems": [
    "C83_axes",
    "C83_apply",
    "C83_group",
    "C83_all",
    "C83_handed",
    "C83_plane",
    "C83_order",
    "C83_moved",
    "C83_matrix_refuted",
    "C83_opposite_refuted",
    "C83_reflection_refuted"
   ],
   "note": "C83_axes, C83_apply, C83_group, C83_all, C83_handed, C83_plane, C83_order, C83_moved for all axes, rotations, vectors and positions. Missing, because false: the matrix of a rotation with a position (C83_matrix_refuted), the opposite of X directions of the plane (C83_opposite_refuted), mirrored reflections (C83_reflection_refuted)."
  },
  {
   "property": "C84",
   "status": "partial",
   "theorems": [
    "C84_quaternions",
    "C84_axis_angle",
    "C84_matrices",
    "C84_from_matrix",
    "C84_between_partial",
    "C84_between_refuted",
    "C84_mix",
    "C84_motions",
    "C84_products",
    "C84_orthographic",
    "C84_perspective_partial",
    "C84_perspective_refuted",
    "C84_look",
    "C84_scaled",
    "C84_translation_refuted",
    "C84_curve_refuted",
    "C84_assertion_refuted"
   ],
   "note": "C84_quaternions, C84_axis_angle, C84_matrices, C84_from_matrix, C84_mix, C84_motions, C84_products, C84_orthographic, C84_look, C84_scaled for all real values; C84_between_partial unless the vectors are nearly opposite, C84_perspective_partial for frustums centred in y or square. Missing, because false: the rest of these two (C84_between_refuted, C84_perspective_refuted), translations of ScalePos2 (C84_translation_refuted), the slope of curves (C84_curve_refuted). Rounding is not modelled: floats are real numbers. Uses the axioms of the real numbers of the standard library."
  },
  {
   "property": "C85",
   "status": "partial",
   "theorems": [
    "C85_split",
    "C85_find_module",
    "C85_find_extern_partial",
    "C85_short_extern_refuted",
    "C85_find_provider_partial",
    "C85_provider_missing_refuted",
    "C85_full_module",
    "C85_full_extern",
    "C85_short_extern_partial",
    "C85_short_module_partial",
    "C85_short_module_refuted",
    "C85_full_provider_partial",
    "C85_full_provider_refuted",
    "C85_short_provider_partial",
    "C85_signature",
    "C85_signature_total"
   ],
   "note": "C85_split, C85_find_module, C85_full_module, C85_full_extern, C85_signature, C85_signature_total in full; C85_find_extern_partial and C85_find_provider_partial characterise all outcomes including the failing assertions; C85_short_extern_partial, C85_short_module_partial, C85_full_provider_partial, C85_short_provider_partial say exactly when written names read back. Missing, because false: no failed assertions (C85_short_extern_refuted, C85_provider_missing_refuted), reading back of short module names and full provider names (C85_short_module_refuted, C85_full_provider_refuted)."
  },
  {
   "property": "C86",
   "status": "partial",
   "theorems": [
    "C86_scope",
    "C86_module_dependency_partial",
    "C86_leftover_refuted",
    "C86_extern_dependency",
    "C86_register_provider",
    "C86_history",
    "C86_distinct_partial",
    "C86_nameable",
    "C86_duplicate_extern_refuted",
    "C86_duplicate_provider_refuted"
   ],
   "note": "C86_scope, C86_extern_dependency, C86_register_provider, C86_history, C86_nameable for all registries and histories; C86_module_dependency_partial: surplus components are ignored (C86_leftover_refuted); C86_distinct_partial: without ambiguous names. Missing, because false: the rest (C86_duplicate_extern_refuted, C86_duplicate_provider_refuted)."
  },
  {
   "property": "C87",
   "status": "partial",
   "theorems": [
    "C87_saturating",
    "C87_mix",
    "C87_mix_refused",
    "C87_blocks",
    "C87_order_partial",
    "C87_order_refuted",
    "C87_leveled",
    "C87_levels",
    "C87_level_ends",
    "C87_ramp",
    "C87_ramp_refuted",
    "C87_pitched",
    "C87_pitched_end",
    "C87_pitched_plain",
    "C87_pitched_empty_refuted",
    "C87_subregion",
    "C87_zero",
    "C87_format"
   ],
   "note": "C87_saturating, C87_mix, C87_mix_refused, C87_blocks, C87_leveled, C87_levels, C87_level_ends, C87_ramp, C87_pitched, C87_pitched_end, C87_pitched_plain, C87_subregion, C87_zero, C87_format. Not true in general: ramps above full level (C87_ramp_refuted), resampling no frames (C87_pitched_empty_refuted), independence of the order of sources (C87_order_partial without clamping, C87_order_refuted)."
  },
  {
   "property": "C88",
   "status": "partial",
   "theorems": [
    "C88_ends",
    "C88_completes",
    "C88_loaded",
    "C88_order_partial",
    "C88_circular_refuted",
    "C88_malformed_refuted"
   ],
   "note": "C88_ends, C88_completes, C88_loaded for all workspaces; C88_order_partial: a dependency comes first unless it needs the repo in turn. Missing, because false: circular dependencies are reported (C88_circular_refuted), malformed files have the same effect in every order (C88_malformed_refuted)."
  },
  {
   "property": "C89",
   "status": "partial",
   "theorems": [
    "C89_lookup",
    "C89_chain",
    "C89_chain_none",
    "C89_chain_exact",
    "C89_qualified_partial",
    "C89_twice_refuted",
    "C89_told",
    "C89_namespace",
    "C89_clash_refuted",
    "C89_dropped",
    "C89_added"
   ],
   "note": "C89_lookup, C89_chain, C89_chain_exact, C89_told, C89_namespace, C89_dropped, C89_added for all histories; C89_qualified_partial where names are declared once. Missing, because false: every class is found by its qualified name (C89_twice_refuted); a clash of names is told (C89_clash_refuted)."
  },
  {
   "property": "C90",
   "status": "proved",
   "theorems": [
    "C90_ends",
    "C90_exact",
    "C90_written",
    "C90_places",
    "C90_unclosed",
    "C90_close",
    "C90_nested",
    "C90_unknown",
    "C90_untyped",
    "C90_html"
   ],
   "note": "C90_exact in both directions; errors in C90_unclosed, C90_close, C90_nested, C90_unknown, C90_untyped; C90_html for texts and links of bytes without overlong encodings."
  },
  {
   "property": "C91",
   "status": "partial",
   "theorems": [
    "C91_recipe",
    "C91_converts_partial",
    "C91_heap_refuted"
   ],
   "note": "C91_recipe; C91_converts_partial for sources without arrays on the heap. Missing, because false: arrays on the heap (C91_heap_refuted). Recipes of more than one block are not modelled."
  },
  {
   "property": "C92",
   "status": "proved",
   "theorems": [
    "C92_read",
    "C92_scope",
    "C92_remark",
    "C92_registered",
    "C92_order",
    "C92_success",
    "C92_trailing_refuted"
   ],
   "note": "C92_read and C92_scope for names without quotes, backslashes and ends of lines; C92_registered, C92_order and C92_success for all sequences of events. C92_trailing_refuted: a command at the end of a file is not an error."
  },
  {
   "property": "C93",
   "status": "proved",
   "theorems": [
    "C93_exact",
    "C93_only",
    "C93_end_refuted",
    "C93_lines",
    "C93_own",
    "C93_inline",
    "C93_replaced",
    "C93_again",
    "C93_many",
    "C93_stable"
   ],
   "note": "All files and substitutions that do not reach the end of the file; C93_end_refuted says that those fail an assertion. Where includes and braces are is given, as the parser of C++ would find them."
  },
  {
   "property": "C94",
   "status": "proved",
   "theorems": [
    "C94_files",
    "C94_contents",
    "C94_lossless",
    "C94_numbered",
    "C94_stateless_refuted",
    "C94_member_refuted"
   ],
   "note": "All classes, enumerations and switches; C94_lossless for names without ends of lines, commas and closing parentheses. C94_stateless_refuted and C94_member_refuted say where headers of switches cannot be used."
  }
 ]
}