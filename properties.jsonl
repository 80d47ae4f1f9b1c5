{"id": "C01", "title": "UTF-8 encode/decode round trip", "statement": "Encoding any code point below 0x200000 with the UTF-8 encoder and decoding the result, followed by any further bytes, returns the same code point, status Valid, and consumes exactly the encoded bytes; every Unicode scalar value is therefore preserved. The encoder writes between 1 and 4 bytes, the number the decoder consumes.", "quantifier": "every code point below 2^21 and every trailing byte sequence", "why_tests_cant": "2^21 points times unboundedly many continuations of the buffer.", "anchors": ["repos/plywood/src/runtime/ply-runtime/string/TextEncoding.h: Encoding_UTF8::encodePoint, decodePoint", "repos/plywood/src/runtime/ply-runtime/string/TextEncoding.cpp: UTF8::decodePointSlowPath"]}
{"id": "C02", "title": "UTF-8 decoding is total, makes progress and classifies its input", "statement": "Decoding never reads past the view; it returns a point iff it consumes at least one byte, never consumes more than the view holds, consumes nothing only on an empty view, and reports Truncated only when the view is a proper prefix of a longer encoding (so that waiting for more bytes can help).", "quantifier": "every byte sequence", "why_tests_cant": "The claim is about all byte sequences, including every malformed one.", "anchors": ["repos/plywood/src/runtime/ply-runtime/string/TextEncoding.cpp: UTF8::decodePointSlowPath", "repos/plywood/src/runtime/ply-runtime/string/TextEncoding.h: DecodeResult"]}
{"id": "C03", "title": "UTF-16 encode/decode round trip", "statement": "For both byte orders, decoding the UTF-16 encoding of any Unicode scalar value followed by any bytes returns that value, status Valid, and consumes exactly the encoded bytes. A lone surrogate is never reported Valid.", "quantifier": "every scalar value below 0x110000, both endiannesses, every trailing byte sequence", "why_tests_cant": "All points and all continuations.", "anchors": ["repos/plywood/src/runtime/ply-runtime/string/TextEncoding.h: Encoding_UTF16"]}
{"id": "C04", "title": "Text conversion does not depend on buffering", "statement": "Converting a text from one encoding to another produces the same bytes whatever the sizes of the output buffers, and whatever way the source is cut into pieces that are written one after the other and then flushed.", "quantifier": "every source byte sequence, every chunking of the source, every sequence of destination buffer sizes, every pair of encodings", "why_tests_cant": "The number of chunkings is exponential in the text length and faults occur only at particular splits.", "anchors": ["repos/plywood/src/runtime/ply-runtime/io/text/TextConverter.cpp: TextConverter::convert, writeTo, OutPipe_TextConverter_write"]}
{"id": "C05", "title": "Newline filter does not depend on buffering", "statement": "Writing text through the newline filter yields the text with every CR removed and every LF replaced by the configured line ending, and reading through it yields the same, however the source and destination are cut into buffers.", "quantifier": "every byte sequence, both newline modes, every sequence of source and destination buffer sizes", "why_tests_cant": "Filter state carried across buffer boundaries must be right for every split.", "anchors": ["repos/plywood/src/runtime/ply-runtime/io/text/NewLineFilter.cpp: NewLineFilter::process, InPipe_NewLineFilter_read, OutPipe_NewLineFilter_write"]}
{"id": "C06", "title": "Printing and parsing an unsigned integer is lossless in every radix", "statement": "Printing any 64-bit unsigned integer in any radix from 2 to 36 and parsing the result in the same radix, followed by end of input or any non-digit, returns the same value without a parse error and stops exactly after the digits.", "quantifier": "all 2^64 values, all 35 radices, any following text", "why_tests_cant": "2^64 times 35 cases.", "anchors": ["repos/plywood/src/runtime/ply-runtime/io/impl/FormatString.cpp: TypePrinter<u64>::print", "repos/plywood/src/runtime/ply-runtime/io/impl/TypeParser.cpp: TypeParser<u64>::parse"]}
{"id": "C07", "title": "Integer parsing is exact and detects overflow", "statement": "Parsing an unsigned integer reports a parse error exactly when there is no leading digit or the digit string denotes a value of 2^64 or more; otherwise it returns exactly the denoted value. The same holds for the narrower unsigned and signed types with their ranges.", "quantifier": "every byte sequence and every radix from 2 to 36", "why_tests_cant": "Digit strings are unbounded in length; the overflow test is a hand-optimised comparison.", "anchors": ["repos/plywood/src/runtime/ply-runtime/io/impl/TypeParser.cpp: TypeParser<u64>::parse, TypeParser<s64>::parse", "repos/plywood/src/runtime/ply-runtime/io/impl/TypeParser.h: TypeParser_Integral"]}
{"id": "C08", "title": "Printing and parsing a signed integer is lossless", "statement": "Printing any 64-bit signed integer and parsing the result returns the same value without a parse error.", "quantifier": "all 2^64 values, all radices 2..36", "why_tests_cant": "2^64 values; the boundary value -2^63 is the delicate one.", "anchors": ["repos/plywood/src/runtime/ply-runtime/io/impl/FormatString.cpp: TypePrinter<s64>::print", "repos/plywood/src/runtime/ply-runtime/io/impl/TypeParser.cpp: TypeParser<s64>::parse"]}
{"id": "C09", "title": "Variable-length label encoding round trip", "statement": "Decoding the variable-length encoding of any 32-bit value, followed by any bytes, returns the value and stops at the following byte; the announced encoded length equals the number of bytes written and is at most 5.", "quantifier": "all 2^32 values and every trailing byte sequence", "why_tests_cant": "2^32 values times any continuation.", "anchors": ["repos/plywood/src/runtime/ply-runtime/string/details/LabelEncoder.h", "repos/plywood/src/runtime/ply-runtime/string/Label.cpp: LabelEncoder::decodeValue, encodeValue"]}
{"id": "C10", "title": "Label interning", "statement": "In any sequence of insertions into a label map, inserting equal strings yields equal labels, inserting different strings yields different labels, viewing a label returns the string it was created from forever after, and looking up a string that was never inserted reports nothing.", "quantifier": "every sequence of insertOrFind/find/view operations over every set of strings", "why_tests_cant": "Property over all histories.", "anchors": ["repos/plywood/src/runtime/ply-runtime/string/Label.cpp: LabelMap::insertOrFind, find, view"]}
{"id": "C11", "title": "Calendar conversion is a bijection", "statement": "Converting a day number to year/month/day and back returns the same day number, the month is 1..12 and the day is valid for that month in the proleptic Gregorian calendar, and converting any valid date to a day number and back returns the same date; consecutive day numbers are consecutive dates.", "quantifier": "every integer day number whose year fits 32 bits, every valid Gregorian date", "why_tests_cant": "Infinitely many dates; leap-year rules interact with 400-year cycles.", "anchors": ["repos/plywood/src/runtime/ply-runtime/time/DateTime.cpp: setDateFromEpochDays, getEpochDaysFromDate"]}
{"id": "C12", "title": "Timestamp to calendar time and back", "statement": "Converting a microsecond timestamp to calendar fields and back returns the same timestamp, and the fields are in range (hour 0..23, minute 0..59, second 0..59, microsecond 0..999999), for timestamps before as well as after 1970.", "quantifier": "every timestamp in the representable range", "why_tests_cant": "2^63 timestamps.", "anchors": ["repos/plywood/src/runtime/ply-runtime/time/DateTime.cpp: floorDiv, DateTime::fromEpochMicroseconds, toEpochMicroseconds"]}
{"id": "C13", "title": "Weekday is correct", "statement": "The weekday reported for a timestamp is the weekday of that day: it advances by one modulo seven each day and 1970-01-01 is a Thursday (4, with Sunday 0).", "quantifier": "every day number", "why_tests_cant": "All days, but one wrong constant makes every answer wrong.", "anchors": ["repos/plywood/src/runtime/ply-runtime/time/DateTime.cpp: setDateFromEpochDays"]}
{"id": "C14", "title": "Sort sorts", "statement": "Sorting an array with any strict weak ordering terminates and leaves a permutation of the original items in non-decreasing order.", "quantifier": "every array and every strict weak ordering", "why_tests_cant": "Array contents and orderings are unbounded; the in-place quicksort reads its pivot by index after the items moved.", "anchors": ["repos/plywood/src/runtime/ply-runtime/algorithm/Sort.h: sort"]}
{"id": "C15", "title": "Filter keeps exactly the matching items", "statement": "Filtering an array in place leaves exactly the items that satisfy the predicate, with multiplicity.", "quantifier": "every array and predicate", "why_tests_cant": "All arrays; the quick-erase loop must not skip the item moved into the hole.", "anchors": ["repos/plywood/src/runtime/ply-runtime/algorithm/Filter.h", "repos/plywood/src/runtime/ply-runtime/container/Array.h: Array::eraseQuick(u32)"]}
{"id": "C16", "title": "Array behaves like a list", "statement": "Every sequence of append, insert, erase, quick-erase, resize, pop and reserve operations on an array leaves it holding exactly the items the same operations leave in a mathematical list, with capacity never below the number of items.", "quantifier": "every operation sequence, every position and count accepted by the operations", "why_tests_cant": "Property over all histories and all positions.", "anchors": ["repos/plywood/src/runtime/ply-runtime/container/Array.h", "repos/plywood/src/runtime/ply-runtime/container/details/BaseArray.cpp"]}
{"id": "C17", "title": "Pool handles stay valid and unique", "statement": "In any sequence of pool allocations and frees, an allocation never returns an index that is still allocated, an allocated item keeps its value until it is freed, and iterating the pool visits exactly the allocated items, in increasing index order, once each.", "quantifier": "every history of alloc/free/iterate operations", "why_tests_cant": "Property over all histories.", "anchors": ["repos/plywood/src/runtime/ply-runtime/container/Pool.h", "repos/plywood/src/runtime/ply-runtime/container/Pool.cpp: BasePool::sortFreeList"]}
{"id": "C18", "title": "Hash map behaves like a finite map", "statement": "In any sequence of insertOrFind, find and erase operations, find reports an item exactly if its key was inserted and not erased since, with the item last stored under it, and the item count is the number of such keys, whatever the hash values are.", "quantifier": "every operation history and every hash function", "why_tests_cant": "The leapfrog probing structure is sensitive to collision patterns that tests do not reach.", "anchors": ["repos/plywood/src/runtime/ply-runtime/container/HashMap.cpp", "repos/plywood/src/runtime/ply-runtime/container/HashMap.h"]}
{"id": "C19", "title": "Hash map iteration", "statement": "Iterating a hash map visits every item exactly once.", "quantifier": "every reachable table", "why_tests_cant": "All reachable table layouts.", "anchors": ["repos/plywood/src/runtime/ply-runtime/container/HashMap.cpp: iterator functions", "repos/plywood/src/runtime/ply-runtime/container/HashMap.h"]}
{"id": "C20", "title": "B-tree is a sorted multiset", "statement": "After any sequence of insertions and removals, traversing a B-tree from beginning to end yields exactly the inserted and not removed items in non-decreasing key order; a lower-bound search returns the first item not less than the key.", "quantifier": "every operation history, every total preorder on keys, every node capacity", "why_tests_cant": "Node splits and merges depend on the whole history.", "anchors": ["repos/plywood/src/runtime/ply-runtime/container/BTree.h"]}
{"id": "C21", "title": "Sequence behaves like a list across blocks", "statement": "Appending to, popping from and truncating a sequence leaves it holding exactly the corresponding list of items, its item count is the length of that list, and iteration yields the items in order, whatever the block boundaries are.", "quantifier": "every operation history and every block size", "why_tests_cant": "Boundary cases depend on the history of fill levels.", "anchors": ["repos/plywood/src/runtime/ply-runtime/container/Sequence.h", "repos/plywood/src/runtime/ply-runtime/container/Sequence.cpp", "repos/plywood/src/runtime/ply-runtime/container/BlockList.cpp"]}
{"id": "C22", "title": "In-memory output stream returns everything written", "statement": "After any sequence of writes to a memory output stream, moving it to a string returns the concatenation of the written pieces.", "quantifier": "every sequence of write/writeByte operations, every block size", "why_tests_cant": "All write sizes relative to block boundaries.", "anchors": ["repos/plywood/src/runtime/ply-runtime/io/OutStream.cpp: MemOutStream::moveToString, writeSlowPath", "repos/plywood/src/runtime/ply-runtime/container/BlockList.cpp"]}
{"id": "C23", "title": "Piped output stream delivers every byte once, in order", "statement": "After any sequence of writes and a flush, the pipe underlying an output stream has received exactly the concatenation of the written pieces; if the pipe fails, it has received a prefix and the stream reports end of file; the seek position equals the number of bytes written.", "quantifier": "every write sequence, every block size, every failure point of the pipe", "why_tests_cant": "Every failure point times every write sequence.", "anchors": ["repos/plywood/src/runtime/ply-runtime/io/OutStream.cpp"]}
{"id": "C24", "title": "Input stream delivers the source exactly", "statement": "Whatever sequence of byte requests, reads and skips is made on an input stream, and however the underlying pipe cuts its data, the bytes delivered are exactly the bytes of the source, in order, with none lost or repeated.", "quantifier": "every source, every chunking by the pipe, every sequence of requests of any size", "why_tests_cant": "Request sizes interact with block boundaries.", "anchors": ["repos/plywood/src/runtime/ply-runtime/io/InStream.cpp: tryMakeBytesAvailableInternal, readSlowPath, skipSlowPath", "repos/plywood/src/runtime/ply-runtime/io/InStream.h"]}
{"id": "C25", "title": "Path normalisation preserves meaning", "statement": "Normalising a path yields a path that designates the same location as the original, contains no \".\" or inner \"..\" components, is absolute iff the original is, and normalising again changes nothing.", "quantifier": "every path string, POSIX and Windows formats", "why_tests_cant": "All component sequences.", "anchors": ["repos/plywood/src/runtime/ply-runtime/filesystem/Path.cpp: getNormalizedComps, joinAndNormalize"]}
{"id": "C26", "title": "Path splitting loses nothing", "statement": "Splitting a path into directory and file, or file and extension, gives parts that recompose to the path, the last part contains no separator, and splitting into all components and joining them again gives an equivalent path.", "quantifier": "every path string", "why_tests_cant": "All strings.", "anchors": ["repos/plywood/src/runtime/ply-runtime/filesystem/Path.cpp: split, splitFull, splitExt", "repos/plywood/src/runtime/ply-runtime/filesystem/Path.h"]}
{"id": "C27", "title": "Relative paths resolve back", "statement": "Joining an ancestor path with the relative path computed from it to a descendant path, and normalising, gives the normalised descendant path.", "quantifier": "every pair of absolute paths", "why_tests_cant": "All pairs of paths.", "anchors": ["repos/plywood/src/runtime/ply-runtime/filesystem/Path.cpp: makeRelative"]}
{"id": "C28", "title": "String comparison is a total order", "statement": "String comparison is reflexive, antisymmetric, transitive and total, equals zero iff the strings are equal, and agrees with lexicographic order on unsigned bytes.", "quantifier": "all pairs and triples of strings", "why_tests_cant": "All triples of strings of any length.", "anchors": ["repos/plywood/src/runtime/ply-runtime/string/StringView.cpp: compare", "repos/plywood/src/runtime/ply-runtime/string/StringView.h"]}
{"id": "C29", "title": "String slicing, searching, trimming, splitting", "statement": "findByte returns the first and rfindByte the last matching position or -1; trim removes exactly the leading and trailing matching bytes; splitByte returns exactly the maximal nonempty separator-free pieces in order; join inserts the separator between items; sub-string operations equal list slices.", "quantifier": "all strings, positions and predicates", "why_tests_cant": "All strings and positions.", "anchors": ["repos/plywood/src/runtime/ply-runtime/string/StringView.cpp", "repos/plywood/src/runtime/ply-runtime/string/StringView.h"]}
{"id": "C30", "title": "XML escaping is safe and lossless", "statement": "XML-escaped text contains no '<', '>' or '\"' and no '&' other than the start of an entity, and unescaping the entities yields the original text.", "quantifier": "every byte string", "why_tests_cant": "All strings, including malformed UTF-8.", "anchors": ["repos/plywood/src/runtime/ply-runtime/io/impl/FormatString.cpp: TypePrinter<XMLEscape>::print"]}
{"id": "C31", "title": "Escaped strings parse back", "statement": "Enclosing the escaped form of a string in quotes and parsing it as a quoted string returns the original string and consumes exactly the quoted text.", "quantifier": "every byte string and any following text", "why_tests_cant": "All strings; escape classes and the end-of-input case matter.", "anchors": ["repos/plywood/src/runtime/ply-runtime/io/impl/FormatString.cpp: TypePrinter<EscapedString>::print", "repos/plywood/src/runtime/ply-runtime/io/impl/TypeParser.cpp: FormatParser<QuotedString>::parse"]}
{"id": "C32", "title": "Windows command-line quoting is lossless", "statement": "An argument quoted for the Windows C runtime is parsed back by the documented C runtime rules to exactly one argument equal to the original.", "quantifier": "every argument string", "why_tests_cant": "All strings; runs of backslashes and quotes.", "anchors": ["repos/plywood/src/runtime/ply-runtime/io/impl/FormatString.cpp: TypePrinter<CmdLineArg_WinCrt>::print"]}
{"id": "C33", "title": "Line and column lookup", "statement": "The line and column reported for a byte offset are those obtained by scanning the text from the start.", "quantifier": "every text and every offset up to its length", "why_tests_cant": "All texts and offsets; the lookup table is sampled every 256 bytes.", "anchors": ["repos/plywood/src/runtime/ply-runtime/io/text/FileLocationMap.cpp"]}
{"id": "C34", "title": "Template tags are extracted verbatim", "statement": "Extracting liquid tags copies every byte outside tags to the output and passes every byte between '<%' and '%>' to the handler, in order, none lost or duplicated.", "quantifier": "every text", "why_tests_cant": "All texts.", "anchors": ["repos/plywood/src/runtime/ply-runtime/io/text/LiquidTags.cpp: extractLiquidTags"]}
{"id": "C35", "title": "Scanning to a terminator stops at its first occurrence", "statement": "Scanning up to and including a terminator string consumes exactly the shortest prefix of the input ending in the terminator, and the whole input with failure if there is none.", "quantifier": "every input and every terminator", "why_tests_cant": "All texts and terminators, including self-overlapping ones.", "anchors": ["repos/plywood/src/runtime/ply-runtime/io/impl/TypeParser.cpp: scanUpToAndIncludingSpecial"]}
{"id": "C36", "title": "Identifier parsing", "statement": "Parsing an identifier consumes exactly the longest prefix that is an identifier under the given flags and succeeds iff that prefix is nonempty and does not start with a digit.", "quantifier": "every input and every combination of flags", "why_tests_cant": "All inputs.", "anchors": ["repos/plywood/src/runtime/ply-runtime/io/impl/TypeParser.cpp: FormatParser<Identifier>::parse"]}
{"id": "C37", "title": "Pylon documents survive writing and parsing", "statement": "Writing any Pylon tree to text and parsing that text returns the same tree.", "quantifier": "every tree of text, array and object nodes with distinct keys", "why_tests_cant": "Trees are unbounded in depth and width.", "anchors": ["repos/plywood/src/pylon/pylon/pylon/Write.cpp", "repos/plywood/src/pylon/pylon/pylon/Parse.cpp"]}
{"id": "C38", "title": "Pylon parsing terminates without crashing on any input", "statement": "Parsing any byte string as Pylon terminates and either returns a tree or reports an error; it never dereferences a null node, trips an assertion or loops forever.", "quantifier": "every byte string", "why_tests_cant": "All malformed inputs.", "anchors": ["repos/plywood/src/pylon/pylon/pylon/Parse.cpp"]}
{"id": "C39", "title": "Pylon object nodes behave like ordered maps", "statement": "After any sequence of set and remove operations on an object node, get returns the value last set under a key and not removed since, and the items are in order of first insertion.", "quantifier": "every operation history", "why_tests_cant": "Property over histories: the index must be renumbered on removal.", "anchors": ["repos/plywood/src/pylon/pylon/pylon/Node.cpp: Node::get, set, remove"]}
{"id": "C40", "title": "Directory walk visits everything once", "statement": "Walking a directory tree visits every directory in it exactly once, parents before children, and reports each directory's files and subdirectories.", "quantifier": "every finite directory tree", "why_tests_cant": "Trees are unbounded.", "anchors": ["repos/plywood/src/runtime/ply-runtime/filesystem/FileSystem.cpp: WalkImpl"]}
{"id": "C41", "title": "makeDirs creates the path or fails cleanly", "statement": "If makeDirs returns OK or AlreadyExists then the path and all its ancestors are directories afterwards; no existing file or directory is changed or removed; if a file is in the way it returns an error and every directory created is an ancestor of the path.", "quantifier": "every file system state and every path", "why_tests_cant": "All file system states.", "anchors": ["repos/plywood/src/runtime/ply-runtime/filesystem/FileSystem.cpp: FileSystem::makeDirs"]}
{"id": "C42", "title": "Save-if-different", "statement": "makeDirsAndSaveBinaryIfDifferent returns Unchanged and writes nothing iff the file already had exactly those contents, and after OK the file holds exactly those contents; other files keep their contents.", "quantifier": "every file system state, path and contents", "why_tests_cant": "All states; crash points in the middle of the rewrite.", "anchors": ["repos/plywood/src/runtime/ply-runtime/filesystem/FileSystem.cpp: makeDirsAndSaveBinaryIfDifferent"]}
{"id": "C43", "title": "Build dependency propagation computes the public closure", "statement": "After propagation, the dependencies visible through a target are exactly the targets reachable from it along public edges, each listed once, and its private include directories are those of every target visible through a direct dependency.", "quantifier": "every acyclic dependency graph", "why_tests_cant": "All graphs.", "anchors": ["repos/plywood/src/build/target/ply-build-target/Dependency.cpp: propagateDependencyProperties"]}
{"id": "C44", "title": "Integer hash finalisers are bijections", "statement": "deavalanche inverts avalanche and avalanche inverts deavalanche for 32-bit and 64-bit integers, so distinct integer keys have distinct full hashes.", "quantifier": "all 2^32 and 2^64 values", "why_tests_cant": "2^64 values.", "anchors": ["repos/plywood/src/platform/ply-platform/Util.h: avalanche, deavalanche"]}
{"id": "C45", "title": "Power-of-two helpers", "statement": "roundUpPowerOf2 returns the least power of two not below its argument; alignPowerOf2 returns the least multiple of the alignment not below its argument; both wherever the result fits the type; countSetBits counts the ones.", "quantifier": "all 32-bit and 64-bit arguments", "why_tests_cant": "2^64 arguments.", "anchors": ["repos/plywood/src/platform/ply-platform/Util.h"]}
{"id": "C46", "title": "Reference counting destroys once, and only when unreferenced", "statement": "Under every interleaving of threads copying and dropping references, the object's zero-count callback runs exactly once, when the last reference is dropped, and no thread holds a reference then.", "quantifier": "every number of threads and every interleaving", "why_tests_cant": "All schedules.", "anchors": ["repos/plywood/src/runtime/ply-runtime/container/Reference.h: RefCounted"]}
{"id": "C47", "title": "Weak references never see a destroyed object", "statement": "Under every interleaving of threads dropping strong and weak references, the partial-zero callback runs exactly once, the full-zero callback runs exactly once, and the full one runs only after the partial one has completed.", "quantifier": "every number of threads and every interleaving", "why_tests_cant": "All schedules.", "anchors": ["repos/plywood/src/runtime/ply-runtime/container/WeakRef.h: DualRefCounted"]}
{"id": "C48", "title": "Lazily initialised mutex and spin lock", "statement": "Under every interleaving, the lazily initialised mutex constructs its inner mutex exactly once, before any thread locks it, and at most one thread holds the lock; likewise for the spin lock.", "quantifier": "every number of threads and every interleaving", "why_tests_cant": "All schedules.", "anchors": ["repos/plywood/src/runtime/ply-runtime/thread/impl/Mutex_LazyInit.h", "repos/plywood/src/runtime/ply-runtime/thread/impl/Mutex_SpinLock.h"]}
{"id": "C49", "title": "Format strings", "statement": "Formatting copies literal text, expands '{{' and '}}' to single braces and substitutes each '{}' by the next argument, in order; mismatched counts or malformed braces are rejected rather than misread.", "quantifier": "every format string and argument list", "why_tests_cant": "All format strings.", "anchors": ["repos/plywood/src/runtime/ply-runtime/io/impl/FormatString.cpp: OutStream::formatInternal"]}
{"id": "C50", "title": "Cooking brings every reachable job up to date, once, and only when needed", "statement": "After every session that cooks some jobs and then all deferred ones, the result of each of these jobs and of every job they refer to, directly or indirectly, is what its cook function gives on the files as they are now, whatever happened in the sessions before; no job is cooked twice in a session; a session in which none of the files looked at has changed cooks nothing; cooking ends if finitely many jobs can be reached, also if references form cycles; no deleted job is used.", "quantifier": "every cook function, every job graph, every history of sessions with any changes to the files between them, every reuse of addresses and every order in which deferred jobs are found", "why_tests_cant": "All job graphs, all histories of file changes and all places where memory may be reused.", "anchors": ["repos/plywood/src/cook/ply-cook/CookJob.cpp: CookContext::ensureCooked, cookDeferred, CookResult::openFileAsDependency, addReference, DependencyTracker", "repos/plywood/src/cook/ply-cook/CookJob.h"]}
{"id": "C51", "title": "Searching an array", "statement": "find returns the index of the first item satisfying the predicate and rfind the index of the last one, or -1 if there is none.", "quantifier": "every array and every predicate or key", "why_tests_cant": "The claim ranges over all arrays and predicates; the empty array and arrays near the 32-bit limit are the interesting cases.", "anchors": ["repos/plywood/src/runtime/ply-runtime/algorithm/Find.h: find, rfind"]}
{"id": "C52", "title": "Items of a sequence are destructed exactly once", "statement": "Every item appended to a sequence is destructed exactly once by the time the sequence is cleared or goes away, unless it was moved to an array.", "quantifier": "every history of appends, pops, truncations and moves, and every block size", "why_tests_cant": "All histories; a leaked or doubly destructed item shows only for particular histories and block boundaries.", "anchors": ["repos/plywood/src/runtime/ply-runtime/container/Sequence.h: popTail, truncate, clear", "repos/plywood/src/runtime/ply-runtime/container/Sequence.cpp"]}
{"id": "C53", "title": "A stream on a buffer never overruns it", "statement": "A stream opened on a buffer of n bytes puts the first n bytes written in it and no more; a piece is accepted exactly if it fits entirely, and the stream reports the end of file from the first piece on that did not fit.", "quantifier": "every buffer size and every sequence of writes, flushes and position queries", "why_tests_cant": "All splits of the data into pieces relative to the end of the buffer; tests try a few.", "anchors": ["repos/plywood/src/runtime/ply-runtime/io/OutStream.h: ViewOutStream, write, writeByte", "repos/plywood/src/runtime/ply-runtime/io/OutStream.cpp: tryMakeBytesAvailableInternal, writeSlowPath"]}
{"id": "C54", "title": "Converting a path between formats keeps its names", "statement": "Converting a path from one format to the other replaces every separator by the separator of the new format and changes nothing else, and the names between the separators stay the same.", "quantifier": "every path string without a backslash in a name", "why_tests_cant": "All strings.", "anchors": ["repos/plywood/src/runtime/ply-runtime/filesystem/Path.cpp: from"]}
{"id": "C55", "title": "A stream on a view delivers the view", "statement": "A stream opened on a view of bytes answers reads, skips, byte requests of any size, save points, restores and queries of the bytes since a save point exactly from the bytes of the view at the current position; a short answer occurs only at the end of the view.", "quantifier": "every view below 4 GB and every sequence of calls", "why_tests_cant": "All request sizes relative to the end of the view and all histories of save points.", "anchors": ["repos/plywood/src/runtime/ply-runtime/io/InStream.h: ViewInStream", "repos/plywood/src/runtime/ply-runtime/io/InStream.cpp: tryMakeBytesAvailableInternal, readSlowPath, skipSlowPath"]}
{"id": "C58", "title": "Removing a directory tree removes that tree and nothing else", "statement": "Removing the directory tree at a path leaves everything outside the directory unchanged at every moment, whatever fails on the way; if it reports success nothing of the tree is left, and it reports success if no system call fails.", "quantifier": "every file tree, path, current directory and set of failing system calls, and every crash point", "why_tests_cant": "All trees, all points at which a call may fail or the program may stop.", "anchors": ["repos/plywood/src/runtime/ply-runtime/filesystem/impl/FileSystem_POSIX.cpp: removeDirTree"]}
{"id": "C59", "title": "A virtual file system stays inside its root", "statement": "A path given to a file system created below a root directory designates the same place below the root as it does below the root of a file system; no path reaches anything outside the root.", "quantifier": "every root, every path, and both path formats", "why_tests_cant": "All path strings; the ones that escape are exactly those not thought of.", "anchors": ["repos/plywood/src/runtime/ply-runtime/filesystem/impl/FileSystem_Virtual.cpp: convertToTargetPath"]}
{"id": "C60", "title": "Each target a project needs is instantiated once", "statement": "Instantiating the root targets of a project makes exactly one entry for every target and extern that the roots need, with the dependencies its module asked for in that order and the include directories, definitions and type it set; the lists of externs to select or install are complete; and it stops with an error exactly if something needed is on a loop, asks for a dependency twice or gives a public definition two values.", "quantifier": "every set of module functions and every list of roots", "why_tests_cant": "All dependency graphs.", "anchors": ["repos/plywood/src/build/repo/ply-build-repo/ProjectInstantiator.cpp: ProjectInstantiator::instantiate", "repos/plywood/src/build/repo/ply-build-repo/ModuleArgs.cpp: addDependency"]}
{"id": "C56", "title": "The trace log keeps the latest events of all threads, in order", "statement": "Threads log events to memory concurrently; when all calls have returned, going through the log or dumping it gives the events of the latest calls, each exactly once, with the thread and arguments of the call, a call that returned before another began coming first; nothing is lost before the pages are full, and at least all pages but one are kept after that. No call touches memory that was freed, and no call is held up for ever.", "quantifier": "every number of threads, every interleaving of their accesses, every page size and number of pages", "why_tests_cant": "All interleavings of the unlocked slot reservation with the page change under the lock; the failing ones need a thread held up while others fill several pages.", "anchors": ["repos/plywood/src/runtime/ply-runtime/thread/impl/Trace_MemLog.h: log, Iterator, begin, end", "repos/plywood/src/runtime/ply-runtime/thread/impl/Trace_MemLog.cpp: allocateEventFromNewPage, dumpStats, dumpEntireLog"]}
{"id": "C57", "title": "A race detector stops the program exactly when two sections overlap", "statement": "If every thread that leaves a guarded section has entered it, the program is stopped when a section is entered while another is open, and is not stopped otherwise; sections that the detector lets pass do not race.", "quantifier": "every sequence of enter and exit calls by any number of threads", "why_tests_cant": "All interleavings; whether a race happened cannot be seen from a run that gave the right result.", "anchors": ["repos/plywood/src/runtime/ply-runtime/thread/RaceDetector.h: RaceDetector::enter, RaceDetector::exit"]}
{"id": "C61", "title": "Waiting on an event ends exactly when it is signalled", "statement": "Calls of signal, reset and wait by any number of threads behave as if each took effect at one moment between its beginning and its end; wait ends only at a moment when the event is set; no thread goes on sleeping when the event has been set and stays set, whatever spurious wake-ups there are.", "quantifier": "every initial state, number of threads and interleaving, with spurious wake-ups anywhere", "why_tests_cant": "All interleavings; a lost wake-up needs one exact order of the steps.", "anchors": ["repos/plywood/src/runtime/ply-runtime/thread/impl/ManualResetEvent_CondVar.h: signal, reset, wait"]}
{"id": "C62", "title": "Counted trace points register every group once and count every use", "statement": "Groups of trace points used for the first time by threads at the same time are all listed, each once; every counter says how often its point was passed; a group is printed exactly if it was used.", "quantifier": "every number of groups and threads, every interleaving of their registration with failing compare-exchanges, every number of uses", "why_tests_cant": "All interleavings of a lock-free list, and more uses than a test can make.", "anchors": ["repos/plywood/src/runtime/ply-runtime/thread/impl/Trace_Counters.h: TraceGroup, PLY_TRACE", "repos/plywood/src/runtime/ply-runtime/thread/impl/Trace_Counters.cpp: addGroup, dumpStats, dumpIfUsed"]}
{"id": "C63", "title": "Text files survive saving, detection and loading", "statement": "Saving a text in a format (encoding, line endings, byte order mark) writes that text with that mark, those line endings and that encoding; loading the file in the format, or without knowing it, gives the text back with LF line endings, and the format that is detected is the one it was saved in, up to line endings in a text that shows none; a format is detected for every file.", "quantifier": "all texts, formats, file contents, divisions into writes, blocks and reads", "why_tests_cant": "texts are unbounded, the boundaries of three chained streams fall anywhere, and detection depends on counts over the first 4000 bytes", "anchors": ["repos/plywood/src/runtime/ply-runtime/io/text/TextFormat.cpp: TextFormat::autodetect, createImporter, createExporter, scanTextFile, guessFileEncoding", "repos/plywood/src/runtime/ply-runtime/filesystem/FileSystem.cpp: loadText, loadTextAutodetect, makeDirsAndSaveTextIfDifferent"]}
{"id": "C64", "title": "A 128-bit hash does not depend on how the message is given", "statement": "Appending a message to a Hash128 in pieces, and asking for the hash in between, gives at every moment the hash of all that was appended, the same as in one call; every message of any length has a hash, and no call reads or writes outside of the message and the object; adding hashes is addition modulo 2^128.", "quantifier": "all messages below 2^64 bytes, seeds, divisions into appends with gets anywhere, and contents of uninitialised memory", "why_tests_cant": "the two paths of the code switch at 16, 32, 96 and 192 bytes, and divisions combine without bound", "anchors": ["repos/plywood/src/runtime/ply-runtime/container/Hash128.cpp: Hash128::append, Hash128::get, SpookyHash::Short, Update, Final, Hash128", "repos/plywood/src/runtime/ply-runtime/container/Hash128.h: SpookyHash::Mix, End, ShortMix, ShortEnd", "repos/plywood/src/runtime/ply-runtime/container/Int128.h: operator+="]}
{"id": "C65", "title": "A key is hashed by the values of its parts", "statement": "The hash of a key is a function of the 32-bit words of its parts in order; equal floats hash alike; different 32-bit integers never collide, and neither do keys that differ in exactly one word. Different sequences of parts should not be confused.", "quantifier": "all keys of any number of integers, floats and strings of any length", "why_tests_cant": "keys are unbounded; freedom from collisions is a statement about all pairs", "anchors": ["repos/plywood/src/runtime/ply-runtime/container/Hash.h: Hasher, operator<<", "repos/plywood/src/runtime/ply-runtime/container/Hash.cpp: operator<<"]}
{"id": "C66", "title": "URL escaping is decoded to what was escaped", "statement": "Text escaped for a URL consists only of unreserved characters and percent signs, and percent-decoding it gives the text back, for every sequence of bytes.", "quantifier": "all byte strings", "why_tests_cant": "all strings, also with bytes that are no ASCII", "anchors": ["repos/plywood/src/web/common/web-common/URLEscape.cpp: ply::fmt::TypePrinter<URLEscape>::print"]}
{"id": "C67", "title": "A client of the web server gets the answers to its requests", "statement": "HTTP/1.1 requests on one connection are answered in order; a client that decodes chunks as the standard says gets exactly the status, header lines and body that the handler wrote, however it divided its writes and however the stream buffered them; the first request of another version ends the connection after its answer; a handler that does nothing is answered for with error 500; whatever bytes a client sends, the server does not crash and what it sends is a sequence of responses.", "quantifier": "all sequences of requests, all handlers, all divisions of the body into writes and pieces, all inputs of any length", "why_tests_cant": "unbounded dialogues and bodies; chunk boundaries fall anywhere", "anchors": ["repos/plywood/src/web/common/web-common/Server.cpp: ResponseIface_WebServer, serverThreadEntry", "repos/plywood/src/web/common/web-common/OutPipe_HTTPChunked.cpp: OutPipe_HTTPChunked::write", "repos/plywood/src/web/common/web-common/Response.h: Request, ResponseIface"]}
{"id": "C68", "title": "The web server sends files from its folders only", "statement": "A request for a file of a type that is served leads to that file in the root folder, with its type, and to no file outside of it; other requests are not found; the file is sent byte for byte. The same for pages of the documentation and source files.", "quantifier": "all requests, root folders and file systems", "why_tests_cant": "paths are unbounded; no test tries all ways out", "anchors": ["repos/plywood/src/web/common/web-common/FetchFromFileSystem.cpp: FetchFromFileSystem::serve", "repos/plywood/src/web/common/web-common/SourceCode.cpp: SourceCode::serve", "repos/plywood/src/web/serve-docs/ply-web-serve-docs/DocServer.cpp: getPageSource"]}
{"id": "C69", "title": "Markdown text is read as what it says", "statement": "The text of a paragraph or heading is read as a sequence of plain text, code spans, emphasis, strong emphasis, links and line breaks that is a way to write exactly this text: nothing is lost, added or moved, and no text fails. Text in which such elements are written one inside the other, with their delimiters next to words, is read as these elements.", "quantifier": "all lines of all paragraphs; all nestings of elements", "why_tests_cant": "texts and nestings are unbounded; delimiters interact", "anchors": ["repos/plywood/src/web/markdown/web-markdown/ParseMarkdown.cpp: expandInlineElements, processEmphasis, getCodeSpan, parseLinkDestination"]}
{"id": "C70", "title": "The HTML page of a Markdown document shows the document and nothing else", "statement": "For every document the converter writes a page with properly nested tags, in which a reader finds exactly the blocks, elements, link targets and characters of the document; no text of the document acts as markup.", "quantifier": "all documents, of any depth, with any texts", "why_tests_cant": "documents and texts are unbounded; an injection needs only one missed character", "anchors": ["repos/plywood/src/web/markdown/web-markdown/ConvertToHTML.cpp: convertToHTML", "repos/plywood/src/runtime/ply-runtime/io/impl/FormatString.cpp: TypePrinter<XMLEscape>::print"]}
{"id": "C71", "title": "Every line of a Markdown source is in the document once, in the block its markers say", "statement": "Parsing a Markdown source never fails an assertion nor reads outside of the source. Every line with text is, once and in order, in one paragraph, heading or code block, and blocks nested in quotes and lists come out with the nesting they were written with.", "quantifier": "all sources, of any length and with any nesting of blocks", "why_tests_cant": "the parser keeps a stack of open blocks between lines; a lost or misplaced line needs a particular history of markers, indents and blank lines", "anchors": ["repos/plywood/src/web/markdown/web-markdown/ParseMarkdown.cpp: matchExistingIndentation, parseNewMarkers, parseParagraphText, Parser::parse, markdown::parse"]}
{"id": "C72", "title": "A saved object graph is loaded again as the same graph", "statement": "Saving an object with everything it owns to a file and loading the file into the same types gives an equal object: the same numbers, strings, lengths and states, new owned objects, and pointers to the counterparts of the objects they pointed to. Objects whose pointers stay within what is saved can be saved.", "quantifier": "all type descriptions, all objects of these types, all ways to point between their parts", "why_tests_cant": "type descriptions and graphs are unbounded; schema, data and link table are written and read by different code and must agree at every offset", "anchors": ["repos/plywood/src/reflect/ply-reflect/Asset.cpp: writeAsset, readAsset", "repos/plywood/src/reflect/ply-reflect/PersistWriteSchema.cpp: addFormatDesc, writeChildFormatDesc", "repos/plywood/src/reflect/ply-reflect/PersistReadSchema.cpp: readFormatDescriptor, readSchema", "repos/plywood/src/reflect/ply-reflect/PersistWriteObject.cpp: resolveLinks", "repos/plywood/src/reflect/ply-reflect/PersistReadObject.cpp: readObject, skip", "repos/plywood/src/reflect/ply-reflect/TypeKey.cpp: the write and read functions of each type"]}
{"id": "C73", "title": "A file saved by one version of a program is loaded by another with every value under its name", "statement": "If the types have changed between saving and loading, members and enum values are matched by name: members that both versions have are loaded with their values, converted to the new type, members that were added keep the values of a fresh object, members that were removed are skipped, and everything that follows is read correctly. Converted numbers keep their values if the new type can hold them.", "quantifier": "all pairs of type descriptions and all saved objects", "why_tests_cant": "pairs of versions are unbounded; one wrong skip shifts everything that follows", "anchors": ["repos/plywood/src/reflect/ply-reflect/TypeKey.cpp: the read functions of each type", "repos/plywood/src/reflect/ply-reflect/PersistReadObject.cpp: skip, resolveLinks", "repos/plywood/src/runtime/ply-runtime/container/Numeric.h: Numeric"]}
{"id": "C74", "title": "Running a Crowbar script prints what the script means", "statement": "Calling a function of a script prints what a reading of the script on plain values says: expressions have the values their operators and operands give, variables hold what was last assigned to them, a call evaluates its arguments from left to right and binds the parameters to their values, conditions and loops choose and repeat, a return ends its function. If an operator, property, call or name is not supported, the script stops there with the error that says so, after everything printed until then.", "quantifier": "all scripts, inputs, depths of recursion and numbers of steps, including scripts that do not end", "why_tests_cant": "scripts are unbounded; the interpreter keeps values on a stack of objects that it moves and deletes, so that a wrong result depends on what else is on the stack", "anchors": ["repos/plywood/src/crowbar/ply-crowbar/Interpreter.cpp: eval, execBlock, execFunction", "repos/plywood/src/reflect/ply-reflect/methods/ObjectStack.cpp: deleteRange", "repos/plywood/src/reflect/ply-reflect/builtin/TypeDescriptor_Arithmetic.cpp: ArithmeticMethodTable", "repos/plywood/src/apps/CrowbarTest/Main.cpp: callScriptFunction"]}
{"id": "C75", "title": "A Crowbar script is parsed as it is written", "statement": "A text that spells a script by the rules of the language (names, decimal numbers below 2^32, strings with escapes and embedded expressions, parentheses, property lookups, calls, unary operators, binary operators that bind as in C and group to the left; statements ended by a line, a semicolon or a closing brace; if, else, while and return, with or without braces around a return; blanks, comments and, where they do not matter, ends of lines anywhere between tokens) is accepted and parsed as just that script. Parsing ends on every source text and fails no assertion.", "quantifier": "all scripts, all their spellings, and all source texts", "why_tests_cant": "scripts nest without bound and every one has infinitely many spellings; precedence, grouping and the places where ends of lines matter interact", "anchors": ["repos/plywood/src/crowbar/ply-crowbar/Tokenizer.cpp: Tokenizer::readToken, readString", "repos/plywood/src/crowbar/ply-crowbar/Parser.cpp: parseExpression, parseStatement, parseStatementBlock, parseFunctionDefinition, Parser::parseFile"]}
{"id": "C76", "title": "What is saved as Pylon is loaded as the same object", "statement": "An object that is exported with pylon::exportObj, written with pylon::toString, read with pylon::Parser and imported with pylon::import or pylon::importInto is the same object again, whatever the object that it is imported onto held before. Between versions of a program whose structs have other members, the common members are carried over, the others of the object keep their values and unknown ones are ignored. Importing any node ends, and gives an object of the type.", "quantifier": "all sets of reflected types (recursive ones included), all objects of them, all constructors, all objects that are imported onto, all nodes", "why_tests_cant": "Unit tests load a few settings files; the number of types, nested objects, versions and previous contents is unbounded.", "anchors": ["repos/plywood/src/pylon/reflect/pylon-reflect/Export.cpp: exportObj", "repos/plywood/src/pylon/reflect/pylon-reflect/Import.cpp: convertFrom, import, importInto", "repos/plywood/src/build/folder/ply-build-folder/BuildFolder.cpp: load, save", "repos/plywood/src/reflect/ply-reflect/builtin/TypeDescriptor_Enum.h: findValue", "repos/plywood/src/reflect/ply-reflect/builtin/TypeDescriptor_Switch.h: ensureStateIs"]}
{"id": "C77", "title": "C++ sources are read as the tokens that are written in them", "statement": "Reading a C++ source with cpp::Preprocessor gives tokens that together cover it: every byte is in exactly one token, which stands where its location says, or between tokens, and what is between tokens is white space unless an error was reported. A source that is written as a sequence of tokens (names, numbers, strings, raw strings, comments, directives, operators; closing angles one by one when the parser asks for it) is read as this sequence, and nothing is reported. Reading ends. The location of a token, also of one that came out of a macro, leads back to the file or expansion and the place at which the token's text stands.", "quantifier": "all sources, all predefined macros, all requests for single closing angles", "why_tests_cant": "Unit tests read a few headers; sources, their layout and the macros in them are unbounded.", "anchors": ["repos/plywood/src/cpp/ply-cpp/Preprocessor.cpp: readToken, readNumericLiteral, readDirective, readStringLiteral, readRawStringLiteral, readIdentifierOrLiteral, readMacroArguments, expandFileLocation", "repos/plywood/src/cpp/ply-cpp/Preprocessor.h: PPVisitedFiles, Preprocessor", "repos/plywood/src/cpp/ply-cpp/PPVisitedFiles.h", "repos/plywood/src/runtime/ply-runtime/io/text/TypeParser.cpp: TypeParser<double>::parse, readLine, captureSpecialBlock"]}
{"id": "C78", "title": "The C++ parser goes back and skips without losing its place", "statement": "Going back to a restore point is as if the tokens read since then had not been read and the errors since then had not occurred: the same tokens come again, whatever was read, pushed back, marked and forgotten in between; errors outside of restore points are told to the user once. Skipping what is not understood ends: at the bracket that closes the scope (for curly brackets even if the other brackets inside do not match, for every kind if they match, and then without an error), or before the token at which an outer scope goes on, or at the end of the file.", "quantifier": "all tokenizers (token sequences, sources), all sequences of reads, push-backs, marks, backtracks and errors, all nestings of brackets, all states of the parser", "why_tests_cant": "Unit tests parse a few headers; how far the parser reads ahead, and how broken sources nest, is unbounded.", "anchors": ["repos/plywood/src/cpp/ply-cpp/RestorePoint.h: RestorePoint", "repos/plywood/src/cpp/ply-cpp/ParseMisc.cpp: readToken, pushBackToken, okToStayInScope, skipAnyScope, handleUnexpectedToken, SetAcceptFlagsInScope", "repos/plywood/src/cpp/ply-cpp/Parser.cpp: Parser::error", "repos/plywood/src/cpp/ply-cpp/ParseSpecifiersAndDeclarators.cpp: closeScope"]}
{"id": "C79", "title": "Owning pointers destroy every object exactly once and only when its owner lets go of it", "statement": "A program that creates objects through Owned pointers, moves them between Owned and OptionallyOwned variables and members, releases, adopts, borrows and clears them never uses freed memory and never fails an assertion; an object is destroyed, together with everything it owns (members last to first), exactly when its owner ends, is cleared or is assigned something else; every object ever made is at any time either destroyed once or owned by exactly one pointer; a borrowed pointer finds its object as long as the object is there; and when the last variable ends nothing is left in memory. Functors destroy their callables.", "quantifier": "every sequence of declarations, assignments, releases, borrows and scope ends over every shape of objects, and every choice of addresses by the heap (reusing freed ones or not)", "why_tests_cant": "ownership bugs depend on the shape of the object graph and on which addresses the heap reuses; a test runs one shape with one allocator", "anchors": ["repos/plywood/src/runtime/ply-runtime/container/Owned.h: Owned, OptionallyOwned, Borrowed", "repos/plywood/src/runtime/ply-runtime/container/Functor.h: Functor", "repos/plywood/src/runtime/ply-runtime/container/Subst.h: destroyByMember"]}
{"id": "C80", "title": "Images are copied, cleared, cropped, turned over and converted pixel by pixel", "statement": "Rectangles behave as the sets of their points: intersection, smallest rectangle around two, containment, emptiness, margins. A cropped view shows the pixels of the rectangle. Copying an image, clearing it, turning it upside down and converting floats to half floats give every pixel its expected value, change no byte outside the pixels of the destination (padding between rows included) and stay inside the memory of the images. A float in the range of half floats becomes the half float next to it towards zero, smaller ones become zero.", "quantifier": "all rectangles, all images with any stride, size and place in memory, all pixel contents, all 32-bit floats", "why_tests_cant": "Errors show only for certain strides, sizes and values; padding and neighbouring memory are not looked at by tests.", "anchors": ["repos/plywood/src/image/image/image/Image.h: Image, crop, getPixel, OwnImage", "repos/plywood/src/image/image/image/Image.cpp: copy, clear, verticalFlip, copy32Bit, convertFloatToHalf, convertFloat4ToHalf4, convertFloat2ToHalf2", "repos/plywood/src/math/math/ply-math/Box.h: Box, makeUnion, intersect", "repos/plywood/src/math/math/ply-math/Half.h: floatToHalf"]}
{"id": "C81", "title": "A project is written so that CMake builds what was meant", "statement": "The CMakeLists.txt that is written for a set of targets is a file CMake accepts, and reading it by the rules of the CMake language gives back the commands of the targets in order: the same names, paths, definitions, libraries and frameworks, whatever characters the paths hold. Every target is built from exactly its own source files. Paths that are not normalized are not written.", "quantifier": "all projects: any number of targets of any type, with any names, source groups, include directories, definitions, libraries, DLLs and frameworks", "why_tests_cant": "Quoting errors show only for certain characters in certain positions, and mix-ups only for certain combinations of names; tests generate a few projects.", "anchors": ["repos/plywood/src/build/target/ply-build-target/CMakeLists.cpp: writeCMakeLists", "repos/plywood/src/build/target/ply-build-target/Dependency.h: BuildTarget, Dependency", "repos/plywood/src/runtime/ply-runtime/io/impl/FormatString.cpp: EscapedString"]}
{"id": "C82", "title": "plytool does what its command line asks for", "statement": "A plytool command line is carried out as a command exactly if its words ask for this command (by name or by an unambiguous beginning of at least two letters), its options, wherever they stand and in any order, are options of this command given at most once, and there is a current build folder if the command needs one. Every other command line ends with an error message; no assertion fails. Adding, removing and selecting change exactly the setting meant: targets are never listed twice, an extern has one provider selected.", "quantifier": "all command lines: any number of arguments of any bytes, with or without a build folder; all histories of settings", "why_tests_cant": "There are unboundedly many command lines, and mistakes show only for particular abbreviations, orders and repetitions of options; tests try a few.", "anchors": ["repos/plywood/src/apps/plytool/plytool/ConsoleUtils.cpp: CommandLine::readToken, finalize, ensureTerminated, checkForSkippedOpt, prefixMatch", "repos/plywood/src/apps/plytool/plytool/Main.cpp: main", "repos/plywood/src/apps/plytool/plytool/Command_Folder.cpp, Command_Target.cpp, Command_Module.cpp, Command_Extern.cpp, Command_Generate.cpp, Command_Build.cpp, Command_Run.cpp", "repos/plywood/src/apps/plytool/plytool/CommandHelpers.cpp: AddParams, BuildParams"]}
{"id": "C83", "title": "Axes and rotations by right angles are those of their vectors", "statement": "The cross product, dot product, sign, absolute value and negation of axes are those of the unit vectors they stand for; the cross product fails its assertion exactly for parallel axes. A rotation of axes acts on vectors and on axes as the matrix of its columns; products compose, the inverse undoes it from both sides, and all of this stays so with positions. The enumeration visits each of the 48 possible ones exactly once, and the ones reported to be right-handed are the rotations. Quarter turns of the plane turn counterclockwise. The conversion of a rotation with a position to a matrix keeps the position; the opposite of a direction is its negation.", "quantifier": "all axes, all rotations of axes, all real vectors and positions", "why_tests_cant": "Sign mistakes show only for some of the 48 rotations and their products (2304 pairs) and only for some components of the vectors.", "anchors": ["repos/plywood/src/math/math/ply-math/AxisVector.h: Axis3, Axis2, cross, dot, isPerp, AxisRot, AxisRotPos, forEachAxisRot, makeBasis, inverted, isRightHanded, toFloat4x4"]}
{"id": "C84", "title": "Quaternions, matrices and motions are rotations, motions and projections", "statement": "A unit quaternion acts on vectors as a rotation (linear, keeping inner and outer products); products compose, inverses undo, and the quaternion and matrix made from an axis and an angle turn by that angle around that axis. The matrix of a quaternion and the quaternion of a rotation matrix act in the same way, whatever the matrix; the quaternion between two unit vectors takes one to the other; mixing goes from the first to the second within unit quaternions. Motions, scaled motions and matrices of all shapes compose as maps do and are undone by their inverses. The orthographic and perspective projections take their volume to the cube from -1 to 1; the camera that looks along a direction sees it straight ahead. The slope of a cubic curve is its derivative.", "quantifier": "all real quaternions, vectors, matrices, angles, rectangles and depths", "why_tests_cant": "Each formula has dozens of signs and indices, and the four cases of the conversion from a matrix depend on its entries; tests check a few matrices up to rounding.", "anchors": ["repos/plywood/src/math/math/ply-math/Quaternion.h, Quaternion.cpp: Quaternion", "repos/plywood/src/math/math/ply-math/Matrix.h, Matrix.cpp: Float3x3, Float3x4, Float4x4", "repos/plywood/src/math/math/ply-math/QuatPos.h, QuatPos.cpp: QuatPos, QuatPosScale, ScalePos2", "repos/plywood/src/math/math/ply-math/Interpolate.h: interpolateCubic, derivativeCubic", "repos/plywood/src/math/math/ply-math/Extra.h: makeLookAt"]}
{"id": "C85", "title": "Names of modules, externs and providers find what they name", "statement": "A dotted name is split into its identifiers in one way or refused. A module, extern or provider is found exactly when the name is qualified by its repo, or is unqualified, is no repo's name and only one repo offers it; otherwise nothing is found and an error is logged. The full and short names that the tool writes, and signatures, read back as what they were written for.", "quantifier": "all byte strings, all registries of repos with any modules, externs and providers, in any order, all 128-bit signatures", "why_tests_cant": "Ambiguities depend on which names several repos share, and on names of repos used for other things; tests have one or two repos.", "anchors": ["repos/plywood/src/build/repo/ply-build-repo/RepoRegistry.cpp: findTargetInstantiator, findExtern, getExternProvider, getShortDepSourceName, getShortProviderName, signatureToString, parseSignatureString", "repos/plywood/src/build/repo/ply-build-repo/DependencySource.cpp: splitName, getFullyQualifiedName", "repos/plywood/src/build/repo/ply-build-repo/ExternProvider.cpp: getFullyQualifiedName"]}
{"id": "C86", "title": "Inside a repo, names mean what it and its dependencies declare", "statement": "A name used by a module is looked up in its repo and the repos it depends on, directly or not, each searched once, also when dependencies are circular. A dependency is accepted exactly when the name stands for one module or extern there. Registering a provider appends it for the extern named, creating that extern when there is none; registrations keep the modules and externs of a repo distinct, leave the rest as it was, and every provider has a name that finds it.", "quantifier": "all registries, with any graph of dependencies, all byte strings, all sequences of registrations", "why_tests_cant": "Depends on the graph of dependencies and the order of registrations; the faults need names shared by several repos.", "anchors": ["repos/plywood/src/build/repo/ply-build-repo/Repo.cpp: addTargetInstantiator, addExternProvider, RepoVisitor, findChildRepo, findExternRecursive, findOrCreateExtern, findTargetInstantiatorRecursive", "repos/plywood/src/build/repo/ply-build-repo/ModuleArgs.cpp: addTarget, addExtern"]}
{"id": "C87", "title": "Sound buffers are mixed sample by sample", "statement": "Mixing adds to each sample of the destination the sample of the source at the same place, at the given level, clamped to what a sample can hold, and changes nothing else; a sound may be mixed in blocks, and at the full level mixing at a level is mixing. A ramp gives each frame its own level. Resampling reads each frame at its position between two frames of the source and never outside it. Parts of buffers are the samples they say, and are refused when they do not lie inside.", "quantifier": "all memories of 16-bit samples, all buffers in them, with any number of channels and frames, overlapping or not, all levels, steps and positions", "why_tests_cant": "Rounding, clamping, wrapping of products and positions depend on every sample, level and step; the faults need levels above one or empty blocks.", "anchors": ["repos/plywood/src/audio/primitives/audio-primitives/Render.cpp: mix, mixLeveled, mixDynLevel, mixPitchedDirect", "repos/plywood/src/audio/primitives/audio-primitives/Saturate.h: saturatingAdd", "repos/plywood/src/audio/primitives/audio-primitives/Buffer.h: getSizeBytes, getEndPtr, getSubregion, zero", "repos/plywood/src/audio/primitives/audio-primitives/Format.h: encode, onPostSerialize, operator=="]}
{"id": "C88", "title": "The repos of a workspace are loaded in the order of their dependencies", "statement": "Loading ends for every workspace. It completes if every repo can be loaded, and then each repo has been registered once, after the repos it depends on, with the children it declares; a missing or repeated dependency, an unreadable file or a bad DLL ends it with an error.", "quantifier": "all lists of repos, all graphs of dependencies, circular or not, all ways in which reading the files and loading the DLLs can end", "why_tests_cant": "Depends on the graph of dependencies, the order of the folders and which files are bad; tests load one workspace.", "anchors": ["repos/plywood/src/build/repo/ply-build-repo/RepoRegistry.cpp: RepoInstantiator::instantiate, RepoRegistry::create"]}
{"id": "C89", "title": "Names in the documentation mean what the innermost scope declares", "statement": "Looking a name up from any scope ends and gives what the innermost scope around that declares it declares; the parts of a qualified name lead into scopes one by one; the qualified name of an entity leads back to it if its name is declared once; an entity that is thrown away, with all it contains, and nothing else, stops being declared.", "quantifier": "all histories of classes, namespaces, members, constructors and parameters added to and thrown away from the documentation, all scopes, all names below 2 GB, every place the tree may choose among equal names", "why_tests_cant": "Depends on the nesting, on which scopes share names and on what was added and removed before; tests extract a few files.", "anchors": ["repos/plywood/src/web/cook-docs/ply-web-cook-docs/SemaEntity.cpp: SemaEntity::lookup, SemaEntity::lookupChain, SemaEntity::appendToQualifiedID, SemaEntity::~SemaEntity", "repos/plywood/src/web/cook-docs/ply-web-cook-docs/CookResult_ExtractAPI.cpp: APIExtractor::enter", "repos/plywood/src/web/cook-docs/ply-web-cook-docs/CookResult_Page.cpp: resolveClassScope"]}
{"id": "C90", "title": "Titles of members are read as they are written", "statement": "Reading the title of a member always ends; it gives no errors, and certain spans, if and only if the title is ordinary text and spans in brackets by turns with backslashes before special characters; every sequence of spans can be written; what is wrong (a span left open, a span in a span, a bracket too many, an unknown or missing type) is told, at its place, and the text is kept; the HTML shows exactly the spans.", "quantifier": "all titles, all sequences of spans, all texts of bytes, all functions from names to links", "why_tests_cant": "Depends on every combination of escapes, brackets and types; tests cook a few titles.", "anchors": ["repos/plywood/src/web/cook-docs/ply-web-cook-docs/SymbolTitle.cpp: parseTitle", "repos/plywood/src/web/cook-docs/ply-web-cook-docs/SymbolTitle.h: TitleSpan"]}
{"id": "C91", "title": "Structs are converted member by member", "statement": "A recipe that converts structs exists if and only if every member of the destination has a member of the same name in some source, the types of both go together and everything fits into 16 bits; applying it gives every float of the destination the value that belongs to it in the first source with that member, as far as fixed arrays on both sides go, and changes nothing else.", "quantifier": "all structs of floats, nested fixed arrays and arrays, all lists of sources, all contents of memory, all addresses where destination and sources do not overlap", "why_tests_cant": "Depends on nesting, strides, offsets and the order of sources; there are no tests of the converter.", "anchors": ["repos/plywood/src/reflect/ply-reflect/TypeConverter.cpp: createConversionRecipe, applyConversionRecipe, makeConversionRecipe, convert"]}
{"id": "C92", "title": "Commands in comments register the functions that follow them", "statement": "A comment of the form [ply module=...] or [ply extern=... provider=...], with white space anywhere between its parts, is read as it is written, and only at file scope; a function is registered for it if and only if it is the next declaration, with no other command in between; functions are registered in the order of the file; there are no errors if and only if every command is right and leads to exactly one function.", "quantifier": "all sequences of comments and declarations, all texts of comments, all names, all placements of white space", "why_tests_cant": "Depends on every interleaving of comments, commands and declarations; tests build a few modules.", "anchors": ["repos/plywood/src/build/repo/ply-build-repo/ExtractModuleFunctions.cpp: extractInstantiatorFunctions, InstantiatorHooks::gotMacroOrComment, InstantiatorHooks::onGotDeclaration"]}
{"id": "C93", "title": "Generated directives are put where they belong and nothing else changes", "statement": "When code is generated, the lines of a source file that are generated includes are removed, each switch gets its include before its closing brace, and every other byte of the file stays; running the generator again leaves the file as it is.", "quantifier": "all files in less than 2^32 bytes, all placements of includes and switches in them, all substitutions", "why_tests_cant": "Depends on every placement of lines, white space and braces in a file, and on what an earlier run has left; no test runs the generator.", "anchors": ["repos/plywood/src/apps/plytool/plytool/Command_CodeGen.cpp: performSubsts", "repos/plywood/src/apps/plytool/plytool/ReflectionHooks.cpp: insertDirectiveSubst, ReflectionHooks::onGotInclude"]}
{"id": "C94", "title": "Generated files hold exactly what was reflected", "statement": "When code is generated, every reflected class, enumeration and switch is written to exactly one file, that of its source, in the order found; there is no other file and nothing else in them; from the text of a file one can tell what was reflected; the identifiers of states in the header of a switch are numbered as in its table.", "quantifier": "all lists of classes, enumerations and switches, all names, members, enumerators and states, all distributions over files", "why_tests_cant": "Depends on every distribution of things over files and every name; no test runs the generator.", "anchors": ["repos/plywood/src/apps/plytool/plytool/Command_CodeGen.cpp: generateAllCppInls, getSwitchInl"]}
