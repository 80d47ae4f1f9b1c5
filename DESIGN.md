# A Rocq model of arc80/plywood

`RT/` abbreviates `repos/plywood/src/runtime/ply-runtime/` and `SRC/` abbreviates
`repos/plywood/src/` here; each model file states its own abbreviations.

## Method

* Every modelled function is a small total Gallina function in a `*Model.v` file. Its comment
  cites the file and lines it models and says what is simplified.
* A byte is a `Z` (0..255), a byte string a `list Z`. Machine integers are `Z` with explicit
  `mod 2^32` / `mod 2^64` where the code can wrap. Lengths and indices into lists are `nat`.
* Undefined behaviour, a failed `PLY_ASSERT` and running out of fuel are distinct outcomes
  (`None`, or a constructor of a result type), never a normal-looking value.
* Specifications that are not obvious from the statement live in `*Spec.v`, written without the
  model's helpers. Property theorems live in `*Props.v`, each closed by `exact` or by computation on a
  literal (refutations), each followed by `Print Assumptions` and by an `Example` that meets its hypotheses.
* If the faithful model violates the property, the violation is a theorem named `..._refuted` with
  a witness (for a whole class of inputs where possible), and the strongest true variant is proved next to it:
  with the suffix `_partial` if it says less than the property.
* Theorems are tested against wrong programs: `seeded/LOG.jsonl` has one line per edited model.

## Plan per property

| id | property | what is modelled | how it is proved |
|----|----------|------------------|------------------|
| C01 | UTF-8 encode/decode round trip | UTF-8 encoder and decoder (fast and slow path) on byte lists | case split on the length class, arithmetic on shifts and masks |
| C02 | UTF-8 decoding is total, makes progress and classifies its input | same decoder | case analysis over all byte lists |
| C03 | UTF-16 encode/decode round trip | UTF-16 encoder and decoder, both byte orders | arithmetic |
| C04 | Text conversion does not depend on buffering | TextConverter::convert as a step function over its small buffers; write, flush and read of the pipes | simulation of one-shot conversion, invariant on the pending bytes |
| C05 | Newline filter does not depend on buffering | NewLineFilter::process as a function of capacity and source; the two pipes | induction on the source and on the list of buffers |
| C06 | Printing and parsing an unsigned integer is lossless in every radix | the digit printing loop | induction on digits |
| C07 | Integer parsing is exact and detects overflow | the digit parsing loop with its overflow test, all widths | induction on digits, arithmetic mod 2^64 |
| C08 | Printing and parsing a signed integer is lossless | signed printing and parsing | reduction to C06 and C07 |
| C09 | Variable-length label encoding round trip | base-128 encoder and decoder | induction on the number of groups |
| C10 | Label interning | label storage as the bytes of its pool, with the hash map of C18 | invariant over operation lists, simulation of the map |
| C11 | Calendar conversion is a bijection | the civil-date arithmetic | lia with div/mod equations on 400-year cycles |
| C12 | Timestamp to calendar time and back | time stamps | reduction to C11 |
| C13 | Weekday is correct | weekdays | arithmetic |
| C14 | Sort sorts | the quicksort on lists with index accesses | loop invariants, well-founded induction on the length |
| C15 | Filter keeps exactly the matching items | the filter loop with quick erase | induction |
| C16 | Array behaves like a list | the array as a block of cells, live or dead | refinement to a list over all histories |
| C17 | Pool handles stay valid and unique | the pool as slots with an embedded free list | invariant over operations |
| C18 | Hash map behaves like a finite map | the leapfrog table with its cells | chain invariant, refinement to a finite map; up to 64 keys unconditional |
| C19 | Hash map iteration | iteration over the table | same invariant |
| C20 | B-tree is a sorted multiset | the B-tree as a tree of bounded nodes | sortedness and flattening by induction |
| C21 | Sequence behaves like a list across blocks | the sequence as a list of blocks | refinement to a list |
| C22 | In-memory output stream returns everything written | memory streams as current block and finished blocks | invariant over operations |
| C23 | Piped output stream delivers every byte once, in order | pipe streams with a pipe that may fail | invariant over operations |
| C24 | Input stream delivers the source exactly | input streams over a pipe that cuts as it likes | invariant over operations, save points included |
| C25 | Path normalisation preserves meaning | Path::join, normalisation | induction on the components; meaning as a walk through folders |
| C26 | Path splitting loses nothing | Path::split, splitFull, splitExt | induction on the string |
| C27 | Relative paths resolve back | Path::makeRelative | meaning as for C25 |
| C28 | String comparison is a total order | StringView::compare | induction |
| C29 | String slicing, searching, trimming, splitting | string views as byte lists | induction |
| C30 | XML escaping is safe and lossless | XML escaping | induction on the string, a separate unescaper as specification |
| C31 | Escaped strings parse back | string escaping and the quoted string parser | induction on the string |
| C32 | Windows command-line quoting is lossless | command line quoting, C runtime argument rules as specification | induction on the string |
| C33 | Line and column lookup | construction of the location table and look-up | loop invariant |
| C34 | Template tags are extracted verbatim | the tag extraction state machine | induction, a separate grammar as specification |
| C35 | Scanning to a terminator stops at its first occurrence | scanner with match counter | induction |
| C36 | Identifier parsing | identifier mask | induction |
| C37 | Pylon documents survive writing and parsing | Pylon writer and parser | structural induction on trees |
| C38 | Pylon parsing terminates without crashing on any input | Pylon tokenizer and parser | separate grammar as specification, both directions |
| C39 | Pylon object nodes behave like ordered maps | object nodes as items plus the index of C18 | refinement to an association list |
| C40 | Directory walk visits everything once | the walk stack machine over a file tree | induction on the tree |
| C41 | makeDirs creates the path or fails cleanly | the recursion of makeDirs over a file tree with failing calls | induction on the path |
| C42 | Save-if-different | makeDirsAndSaveBinaryIfDifferent over the same | case analysis on the calls |
| C43 | Build dependency propagation computes the public closure | propagation over a graph with memo flags | induction on a rank; inductively defined closures as specification |
| C44 | Integer hash finalisers are bijections | integer hash finalisers | modular inverses |
| C45 | Power-of-two helpers | power-of-two helpers | Z.testbit reasoning |
| C46 | Reference counting destroys once, and only when unreferenced | any number of threads on reference counts; a second model on release/acquire memory | inductive invariants over interleavings |
| C47 | Weak references never see a destroyed object | any number of threads on strong and weak counts | inductive invariants over interleavings |
| C48 | Lazily initialised mutex and spin lock | lazily made mutex and spin lock on release/acquire memory | inductive invariants over interleavings and visible values |
| C49 | Format strings | format string interpreter | induction |
| C50 | Cooking brings every reachable job up to date, once, and only when needed | CookJob.cpp: the tracker, contexts, reference counts with address reuse, cook functions as trees of actions | invariant: counts, anchoring of every checked or deferred job, results as cooked from the current or an earlier set of files; induction over cook functions, fuel and histories |
| C51 | Searching an array | find and rfind | induction |
| C52 | Items of a sequence are destructed exactly once | array cells, live or dead | invariant over histories |
| C53 | A stream on a buffer never overruns it | output streams into a fixed buffer | invariant over histories |
| C54 | Converting a path between formats keeps its names | path format conversion | induction on the string |
| C55 | A stream on a view delivers the view | input streams from a view | invariant over histories |
| C56 | The trace log keeps the latest events of all threads, in order | Trace_MemLog.h, .cpp: every shared access of log and allocateEventFromNewPage a step, pages with a liveness flag, iteration and dumps | invariant: the claims of slots form one list whose k-th entry has slot (k / size, k mod size), and it is a linearization; counting of claims against deleted pages; solo runs for progress and for the refutation |
| C57 | A race detector stops the program exactly when two sections overlap | RaceDetector.h: both exchanges; once on a total order of calls, once on the release/acquire memory of WeakMemModel | induction over the calls, two at a time; symbolic run on the weak memory |
| C58 | Removing a directory tree removes that tree and nothing else | removeDirTree over a file tree with failing calls | induction on the tree |
| C59 | A virtual file system stays inside its root | virtual file systems | reduction to C25 |
| C60 | Each target a project needs is instantiated once | ProjectInstantiator::instantiate as depth-first search | invariant with marked and finished sources, a rank as certificate that there is no loop |
| C61 | Waiting on an event ends exactly when it is signalled | ManualResetEvent_CondVar.h: every step of signal, reset, wait on a mutex and condition variable | invariant: who holds the mutex, and that a sleeper beside a set event has a waker under way; refinement to an atomic event; solo runs for progress |
| C62 | Counted trace points register every group once and count every use | Trace_Counters.h, .cpp: every shared access of addGroup, the walk of dumpStats, the counters | invariant: the list is a chain of exactly the added groups, in an order that respects the history |
| C63 | Text files survive saving, detection and loading | TextFormat.cpp: the scan, scores in binary32 as integers with exponents, detection, importer and exporter as chains of the modelled streams, converters and filters | detection as a function of the file; a tally over the characters of a text; signs of scores; composition of C04, C05 and C24 |
| C64 | A 128-bit hash does not depend on how the message is given | Hash128.cpp, .h: Short, Hash128, Update, Final over a memory of bytes; the mixing rounds as lists of word operations | invariant over the calls: what is buffered is the rest of the message after the mixed blocks; each stage depends only on the bytes it may read |
| C65 | A key is hashed by the values of its parts | Hash.h, Hash.cpp: feeding integers, floats and strings, finalize | rotation, multiplication by odd numbers and xor shifts are injective; induction over the words |
| C66 | URL escaping is decoded to what was escaped | URLEscape.cpp: the printer, byte by byte | each of the 256 bytes by computation, then induction |
| C67 | A client of the web server gets the answers to its requests | Server.cpp, Response.h, OutPipe_HTTPChunked.cpp: requests read from bytes, handlers as lists of acts, the buffered chunk stream with pieces of any size | the wire as a sequence of response texts; a decoder after the RFC applied to it; induction over the requests |
| C68 | The web server sends files from its folders only | FetchFromFileSystem.cpp, SourceCode.cpp, DocServer.cpp: the choice of the path, over PathModel | meaning of joins (C25); a location is within another; universal escape by as many steps up as the root folder is deep |
| C69 | Markdown text is read as what it says | ParseMarkdown.cpp: the inline parser, as a consumer over the lines, a list of delimiters and the emphasis loop with its opener positions | a relation between elements and texts; invariant of the loop: the delimiters write the text consumed so far; round trip by induction over nested items; refutations for all words |
| C70 | The HTML page of a Markdown document shows the document and nothing else | ConvertToHTML.cpp: one function per kind of node, over XMLEscape (C30) | a grammar of pages, shown to be unambiguous, events of a document, nesting of tags; induction over the tree |
| C71 | Every line of a Markdown source is in the document once, in the block its markers say | ParseMarkdown.cpp: line consumer, stack of open blocks, new markers, paragraph text, the tree of nodes | each line has an entry that says where its text goes; invariant over lines for the contents of blocks; counting of the nodes in the tree; documents are written as lines and read back |
| C72 | A saved object graph is loaded again as the same graph | Asset.cpp, PersistWrite*.cpp, PersistRead*.cpp, TypeKey.cpp: schema, data and link table as bytes; types as a table of descriptions with numbers for pointers; objects as trees with addresses | the data of an object is a list of pieces (bytes, pointers, starts of owned objects); the schema is read back as the format of each type by a walk over the types; the reader against the pieces by induction; boolean checks for the examples |
| C73 | A file saved by one version of a program is loaded by another with every value under its name | the same reader, with two tables of descriptions; Numeric.h with IEEE 754 bits | a relation [adapts] between the saved and the loaded object, by names; induction over it; values of numbers as integer times power of two |
| C74 | Running a Crowbar script prints what the script means | Interpreter.cpp, ObjectStack.cpp, the operators of u32, bool and String, the host of CrowbarTest: a stack of objects with identities, references to them, undefined behaviour as an outcome | a reference interpreter on values; simulation: between statements every variable is an object of its own in its frame, during an expression the temporaries lie above, what is returned lies on top; induction over the number of steps |
| C75 | A Crowbar script is parsed as it is written | Tokenizer.cpp, Parser.cpp of ply-crowbar: tokens, expressions, statements, files, as functions of the rest of the source, with a bound on nesting | a grammar with all spellings (CrowbarText.v); induction over it, with the loop that extends an operand as a continuation; the bound suffices because every step takes up source; a walk for the assertion |
| C76 | What is saved as Pylon is loaded as the same object | Export.cpp, Import.cpp of pylon-reflect on the type descriptions of C73, objects without addresses, nodes of C37; constructors and number texts are arbitrary functions; AnySavedObject and TypedArray are left out | mutual induction over the objects that can be saved, for every old object; the struct of another version as the general case; termination by the height of the node; composed with C37 |
| C77 | C++ sources are read as the tokens that are written in them | Preprocessor.cpp of ply-cpp (all of readToken and what it calls, expansion of predefined macros, the location map, expandFileLocation) and the parts of TypeParser.cpp it calls, as functions on byte lists; the callback for includes is left out, the location map keeps items in the order in which they are inserted | one step of the tokenizer takes a non-empty prefix (induction over the steps gives coverage and termination); for every written form of a token the step takes exactly this form; locations by an invariant over stack, chains and location map |
| C78 | The C++ parser goes back and skips without losing its place | the token queue, restore points, push-back, error counting and muting, accept flags, skipAnyScope, handleUnexpectedToken and closeScope, over any tokenizer (the one of C77 is an instance) | restore points by refinement to an abstract client whose marks are copies of what is to come (relation: the queue from a mark on is what was pending there followed by what the tokenizer has given since); skipping by induction over bracketed stretches, ending by induction on the number of tokens to come |
| C79 | Owning pointers destroy every object exactly once and only when its owner lets go of it | the three pointer classes as slots in a heap of objects with members; every operation as the reads, destructor runs and writes of the source, in their order; the heap chooses addresses by an arbitrary function that only avoids those in use. The specification has no heap: variables are trees of what they own | simulation: a map from objects to addresses relates the trees (and trees that are detached for the moment) to the heap; destroying by induction on trees; each command by detaching, destroying and attaching |
| C80 | Images are copied, cleared, cropped, turned over and converted pixel by pixel | Image.h/Image.cpp (crop, copy, clear, verticalFlip, copy32Bit, the half-float conversions) over a byte memory where unallocated addresses fail; Box.h for integer rectangles; Half.h bit by bit. linearToSRGB (powf) is not modelled. | closed forms for the loops over rows and cells by induction on the number of rows and columns; bit arithmetic of floatToHalf turned into division and remainder |
| C81 | A project is written so that CMake builds what was meant | writeCMakeLists byte by byte, on POSIX paths. The specification is a reader of the CMake language (a state machine over bytes: comments, command invocations, quoted and unquoted arguments, escapes, variable references) and the list of commands of a project; a small evaluator of the macros SetSourceFolders and SetNonParticipatingFiles and of add_library, add_executable and add_custom_target. The macros themselves (Helper.cmake) are taken from their text | the reader runs over the concatenated pieces: a lemma per kind of line (adds arguments) and per command (adds a command), then induction over groups and targets |
| C82 | plytool does what its command line asks for | the command line of plytool (ConsoleUtils, the dispatch in main and the reading of arguments by every command) and the changes of the settings of a build folder by target add, target remove and extern select. What the commands then do with files and processes is not modelled. The specification says which words and options ask for which command, without saying how they are read | the reader is related to the words and the options of the whole line (one lemma for the next word, one for taking an option); each command is characterised by an equivalence; the dispatch by cases on the names and the lemma that one beginning cannot match two names; settings by closed forms |
| C83 | Axes and rotations by right angles are those of their vectors | the axes, rotations of axes and rotations with positions of AxisVector.h, with floats as real numbers; an axis is the number of its enumerator and the bit operations are those of the code. The specification gives each axis its vector and says the rest with inner and outer products | cases on the six axes; the 48 rotations are shown to be the listed ones and the laws are checked for each with symbolic vectors (ring); composition and inverse of motions by algebra from the matrix form |
| C84 | Quaternions, matrices and motions are rotations, motions and projections | quaternions, matrices, motions and projections of ply-math as functions on real numbers (the standard library of Coq), operation by operation. Rounding, overflow and division by zero of floats are not modelled. The specification says what a rotation is (linear, keeps inner and outer products), what turning by an angle around an axis is (the formula of Rodrigues), and what a projection takes where | the sandwich product and the multiplicativity of the norm for quaternions; for the quaternion of a matrix, the cofactor and row equations of an orthonormal matrix give all products of its components, and each of the four cases divides by a number bounded away from zero; projections and motions by field and ring |
| C85 | Names of modules, externs and providers find what they name | the registry as a list of repos (name, modules, externs, providers), and the lookups, written names and signatures line by line, with the logging of errors and the failing assertions as outcomes. The specification says what it is to spell a list of identifiers, and which module, extern or provider a list of components names | splitting and joining are inverse by induction on the text; the loops over repos are characterised by the list of their hits; case analysis on the components |
| C86 | Inside a repo, names mean what it and its dependencies declare | visits of a repo and its children with the list of repos checked (fuel: the number of repos plus one), lookups in scope, registration of modules and providers, and runs of registrations. The specification defines scope as reachability through children | invariant of the depth-first visit (what is new is reachable and closed under children) by induction on the fuel with the number of unchecked repos as measure; invariants of registries by induction on runs |
| C87 | Sound buffers are mixed sample by sample | memory as a list of 16-bit cells addressed by bytes, formats, buffers and the four mixing loops with their assertions, with the widths of every product, sum and conversion; undefined behaviour and failed assertions are None. The specification says that a memory is another one with clamped additions at some places, and what lies between two frames | induction on the number of samples or frames left with the memory, places and level generalised; positions by division with remainder; blocks and orders by uniqueness of the specified result |
| C88 | The repos of a workspace are loaded in the order of their dependencies | instantiate and create line by line, over what reading each info.pylon and loading each DLL gives; the state has the repos with their children, the order of registrations and the logged errors; fatal messages end the run. The specification defines needing a repo as reachability through declared dependencies | invariant of the depth-first loading with the stack of repos in progress, each of which needs the current one, by induction on the fuel with the number of repos not yet inserted as measure |
| C89 | Names in the documentation mean what the innermost scope declares | entities with parent, type, name and the sequence of their children in the order of names; adding classes, namespaces, members, constructors and parameters, and the destructor, as steps; lookup, lookupChain, qualified names and their resolution line by line. The specification says what a scope declares without the order of children | invariant of all histories (parents older and alive, children exactly what is declared, in order, no repetitions); the search in the ordered sequence finds the first of the equal names; induction along parents and along the parts of a name |
| C90 | Titles of members are read as they are written | the loop over the bytes of a title with what is read, the open span and the errors with their places; the identifiers are those of ScanModel; the HTML writer with links as a function. The specification is an inductive grammar of titles and one of the HTML | induction on the grammar in one direction and on the length of what is left in the other; a title is constructed for every sequence of spans; errors by running the loop over their pieces |
| C91 | Structs are converted member by member | the recipe as a list of commands in one block, made by recursion on the type of the destination; the interpreter as a recursion on the commands left, with memory as a function from addresses to bytes. The specification relates offsets of floats in both types, and names the first source | a recipe is a list of copies that is exactly the specified relation, by induction on the type and on items; copies that do not overlap commute, by induction on the list |
| C92 | Commands in comments register the functions that follow them | the reading of one comment step by step with the scanners of ScanModel and the quoted strings of EscapeModel; the hooks as a machine over comments and declarations. The specification gives the written form of commands, and says by splitting the sequence of events what a command leads to | what is written is read, by running the reader over each part; the machine by induction on events with the pending command generalised |
| C93 | Generated directives are put where they belong and nothing else changes | the substitutions with their assertions, the deletion of generated includes and the insertion of directives, as functions on positions in a file. The specification has no positions: a file is in pieces, or in lines | positions against pieces by induction on the pieces; lines are turned into pieces; the loops back to the start of a line by induction on what is before |
| C94 | Generated files hold exactly what was reflected | the writers of the three kinds, the map of files and the header of a switch, as texts. The specification gives the lines for each thing | the map by induction with its keys distinct; that texts determine things by taking lines apart, then runs of lines up to the one that ends them |

## Theorems per property

Status as in `MANIFEST.json`. "Partial" nearly always means that the property as a user would state it is false of
the code; what is missing is in the note, and the refutations show that it is missing for a reason.

* **C01** (proved; TextEncodingProps.v): `C01_utf8_roundtrip`, `C01_utf8_encode_shortest`, `C01_utf8_numBytes`, `C01_utf8_reencode`, `C01_overlong_accepted_refuted`. Encoding, decoding and re-encoding of UTF-8. The decoder also accepts overlong forms (C01_overlong_accepted_refuted records it).
* **C02** (partial; TextEncodingProps.v): `C02_utf8_progress`, `C02_utf8_valid_iff`, `C02_utf8_truncated_iff_partial`, `C02_utf8_stable`, `C02_truncated_refuted`, `C02_utf8_back`. Totality, progress, exact characterisation of Valid. The Truncated clause holds once the lead byte announces a length; it is false for stray bytes (C02_truncated_refuted).
* **C03** (proved; TextEncodingProps.v): `C03_utf16_roundtrip`, `C03_utf16_layout`, `C03_utf16_valid`, `C03_utf16_progress`, `C03_utf16_back`. UTF-16 little and big endian.
* **C04** (partial; TextConvProps.v): `C04_one_shot`, `C04_characters`, `C04_pieces_partial`, `C04_pieces_of_three`, `C04_pending_short`, `C04_reading_partial`, `C04_three_pieces_refuted`, `C04_stray_refuted`, `C04_odd_byte_refuted`. Converting whole strings: every byte string, every pair of encodings, every sequence of output buffer sizes, unconditionally. Written in pieces or read through a pipe: every cut that spreads no character over three pieces (in particular all pieces but the last of three bytes or more), for text without stray bytes. Three-piece characters lose bytes, stray bytes overrun a buffer, an odd last UTF-16 byte fails (all refuted).
* **C05** (proved; NewLineProps.v): `C05_writing`, `C05_reading`, `C05_tiny_blocks_refuted`. Every text, every cut into pieces, every sequence of blocks of two bytes or more (the default block has 4096 bytes; with blocks of one byte text would be lost, shown separately); reading with buffers of any sizes.
* **C06** (proved; NumTextProps.v): `C06_print_u64_canonical`, `C06_u64_roundtrip`. Unsigned 64-bit, radix 2 to 36, any following non-digit text.
* **C07** (partial; NumTextProps.v): `C07_parse_u64_digits`, `C07_parse_u64_no_digits`, `C07_every_input_splits`, `C07_parse_u32`, `C07_parse_u16`, `C07_parse_u8`, `C07_parse_s64_partial`, `C07_parse_s32_partial`, `C07_parse_s16_partial`, `C07_parse_s8_partial`, `C07_to_u64`, `C07_to_u64_reject`. Exact characterisation of success, overflow and consumed text for all unsigned widths; the signed parsers are exact except for the most negative value, where the code overflows.
* **C08** (partial; NumTextProps.v): `C08_print_s64`, `C08_s64_roundtrip_partial`, `C08_to_s64_roundtrip_partial`, `C08_s64_min_refuted`. All signed values but the 64-bit minimum, where printing and parsing overflow (refuted).
* **C09** (proved; VarintProps.v): `C09_roundtrip`, `C09_shortest`, `C09_prefix_free`. For every 32-bit value and any following bytes.
* **C10** (partial; LabelProps.v): `C10_labels`, `C10_many_labels_partial`, `C10_history`. Unconditional up to 64 distinct strings, for every hash function; beyond that the answers are right whenever the calls return (hash map insertion can fail to end, see C18).
* **C11** (proved; DateTimeProps.v): `C11_days_total`, `C11_days_roundtrip`, `C11_date_total`, `C11_date_roundtrip`, `C11_days_consecutive`, `C11_days_after_epoch`. Over the whole 32-bit range the code can represent (stated as explicit bounds).
* **C12** (partial; DateTimeProps.v): `C12_us_roundtrip_partial`, `C12_datetime_roundtrip_partial`, `C12_before_1970_refuted`. Proved from 1970 on. Every timestamp before 1970 fails an assertion (refuted for all of them).
* **C13** (partial; DateTimeProps.v): `C13_weekday_value_partial`, `C13_epoch_weekday_refuted`. The reported weekday is always one too far (refuted at the epoch); it advances correctly.
* **C14** (proved; SortProps.v): `C14_sort`. Any strict weak order, any array; includes termination and absence of assertion failures.
* **C15** (proved; SortProps.v): `C15_filter`. As a multiset; the order is not preserved by design.
* **C16** (partial; ArrayProps.v): `C16_array_is_list_partial`, `C16_eraseQuick_overlap_refuted`. All operations; the two-argument quick-erase needs a guard against overlap (refuted without it) and sizes stay within 2^31.
* **C17** (proved; PoolProps.v): `C17_pool`. Every operation sequence, up to the first call outside the contract; includes clearing.
* **C18** (partial; HashMapProps.v): `C18_small_maps`, `C18_any_size_partial`, `C18_insert_hangs_refuted`, `C18_erase_loses_refuted`, `C18_erase_wrong_memory_refuted`. Unconditional for maps holding at most 64 keys, for every hash function. For larger maps: every answer is right as long as calls return and no erase stores 255 as a link; both can fail (refuted: an insertion that never ends, an erase that loses a key, an erase that reads wrong memory).
* **C19** (partial; HashMapProps.v): `C19_iterate_small_maps`, `C19_iterate_any_size_partial`. As for C18.
* **C20** (proved; BTreeProps.v): `C20_sorted_multiset`, `C20_always_sorted`, `C20_queue_order_partial`, `C20_queue_order_refuted`. Sorted multiset and both searches for every order, capacity and history; the queue order among equal keys promised by a source comment holds only while the tree is one node (refuted beyond).
* **C21** (partial; SequenceProps.v): `C21_sequence`, `C21_big_items_refuted`, `C21_count_wraps_refuted`, `C21_normalized_refuted`. Every history and block size, for items that fit in a block and fewer than 4 GB where bytes are counted. Larger items make the sequence look empty, the count wraps at 4 GB, and a normalised reference points into the wrong block (all refuted).
* **C22** (proved; OutStreamProps.v): `C22_memory_stream`. Every history of writes, reservations and flushes, every block size, below 4 GB in total.
* **C23** (partial; OutStreamProps.v): `C23_pipe_delivers`, `C23_pipe_prefix`, `C23_no_assert_partial`, `C23_large_request_refuted`, `C23_huge_write_refuted`. Every history; every pipe, including one that fails at any point. Reservations of two or more bytes on a failing pipe end in a failed assertion, and a single write of 2 GB or more overruns the block (both refuted).
* **C24** (partial; InStreamProps.v): `C24_stream_partial`, `C24_request_refuted`, `C24_request_rewound_refuted`, `C24_readString_refuted`, `C24_short_request_refuted`, `C24_zero_fill_refuted`. Every source, every chunking by the pipe, every block size above 100 bytes and every history of reads, skips, single-byte requests, save points, rewinds, position queries and readRemainingContents. Contiguous requests of several bytes are covered when they do not cross a multiple of the block size; those that cross lose bytes or fail (refuted for all sizes), and readString fails (refuted).
* **C25** (partial; PathProps.v): `C25_meaning_partial`, `C25_tidy`, `C25_up_twice_refuted`, `C25_above_root_refuted`, `C25_windows_refuted`, `C25_empty_refuted`. Every list of full or relative paths in both formats, when ".." does not lead above the root or more than one folder above the start. Going up twice, going above the root, and on Windows drive-relative or rooted paths change meaning (refuted); tidiness and idempotence hold for all but the empty path.
* **C26** (partial; PathProps.v): `C26_split`, `C26_split_full`, `C26_components_lead_there`, `C26_rejoin_partial`, `C26_split_ext`. split, splitFull and splitExt for every path below 2 GB; rejoining under the conditions of C25.
* **C27** (partial; PathProps.v): `C27_relative_partial`, `C27_above_refuted`. Every pair of full paths or of relative paths that do not go above their start, in both formats; refuted for an ancestor that starts with "..".
* **C28** (partial; StringViewProps.v): `C28_compare_lex`, `C28_order_total`, `C28_compare_huge_refuted`. Strings up to 2 GB; beyond, the sign is wrong (refuted).
* **C29** (partial; StringViewProps.v): `C29_left_subStr`, `C29_shortenedBy_right`, `C29_slice_checked`, `C29_back`, `C29_subStr2_partial`, `C29_subStr2_wrap_refuted`, `C29_findByte`, `C29_rfindByte`, `C29_rfindByte_default`, `C29_startsWith`, `C29_endsWith`, `C29_trim`, `C29_ltrim`, `C29_rtrim`, `C29_splitByte`, `C29_join`, `C29_split_join`, `C29_upperAsc`, `C29_lowerAsc`, `C29_reversedBytes`, `C29_reversedUTF8`, `C29_reversedUTF8_total`, `C29_withNullTerminator`, `C29_concat_partial`, `C29_repeat_partial`, `C29_concat_overflow_refuted`. Two-argument subStr, concatenation and repetition need a 32-bit guard on lengths (refuted without it). All else unconditional.
* **C30** (partial; EscapeProps.v): `C30_xml_safe`, `C30_xml_no_markup`, `C30_xml_lossless`, `C30_xml_unescape_unique`, `C30_overlong_refuted`. Safety for all bytes; losslessness for text without overlong ASCII forms (refuted otherwise).
* **C31** (partial; EscapeProps.v): `C31_escaped_roundtrip_partial`, `C31_line_break_reported`, `C31_control_char_refuted`, `C31_empty_at_end_refuted`. Guards: no control characters other than tab/CR/LF, no overlong ASCII, and a following byte when the string is empty; each guard is shown necessary.
* **C32** (partial; EscapeProps.v): `C32_cmdline_roundtrip_partial`, `C32_trailing_backslash_refuted`, `C32_empty_refuted`. Guards: arguments that need quoting must not end in a backslash; the empty argument vanishes (both refuted).
* **C33** (partial; FileLocProps.v): `C33_location_partial`, `C33_ascii`, `C33_location_refuted`, `C33_end_refuted`. Every text below 64 MB and every offset on a character, unless a multi-byte character straddles the 256-byte boundary before it (wrong column, refuted) or the offset is the end of a text whose length is a multiple of 256 (out of bounds, refuted). ASCII text: closed form for the line and column.
* **C34** (partial; LiquidProps.v): `C34_tags_partial`, `C34_percent_refuted`, `C34_missed_refuted`, `C34_unclosed_refuted`. Every text whose tags have no "%" inside and no odd run of "<" before them. Every "%" inside a tag gives the handler one byte too many (refuted for all such tags); "<<%" hides a tag and tags cut off by the end of the file are treated unevenly (refuted).
* **C35** (partial; ScanProps.v): `C35_scan_first_occurrence_partial`, `C35_scan_sound`, `C35_scan_defined`, `C35_restart_missed_refuted`, `C35_line_exact`, `C35_skip_whitespace`. Exact under the guard that no partial match is directly followed by the first terminator byte; one-byte terminators (lines) need no guard. The unguarded claim is refuted ("**/" with terminator "*/").
* **C36** (partial; ScanProps.v): `C36_identifier_partial`, `C36_empty_accepted_refuted`. Consumed text is always the longest identifier; the success flag is wrong for an empty identifier when a flag is given (refuted).
* **C37** (partial; PylonProps.v): `C37_roundtrip_partial`, `C37_byte_255_refuted`, `C37_control_refuted`, `C37_overlong_refuted`. Writing a node and parsing the text gives the node back, for every tree whose texts hold no byte 255, no control character and no overlong encoding of an ASCII character, and whose objects have at most 64 distinct keys. Each excluded kind of text is shown to break the round trip (refuted theorems). Objects with more than 64 keys are outside the model: see C39 and C18.
* **C38** (partial; PylonProps.v): `C38_parse_partial`, `C38_documents`, `C38_trailing`, `C38_blank_refuted`, `C38_unclosed_refuted`, `C38_word_refuted`, `C38_asserts_refuted`, `C38_trailing_refuted`. A tree comes back exactly for the documents of a separately stated grammar, with the tree they stand for (if and only if, for every text); every other text has one of the listed outcomes. The full claim (every malformed text is reported as an error) is false of the code: syntax errors before the end of the document read a null node, a word at the end of the text loops for ever, and some escapes fail an assertion. Each is a refuted theorem.
* **C39** (partial; PylonNodeProps.v): `C39_history`, `C39_many_partial`, `C39_copy_partial`, `C39_copy_refuted`. Every history of get, set, remove and listing on objects of at most 64 items at a time, for every hash function, including all collisions; larger objects when the calls return and no removal cuts a chain (C18, C19). Copying a node works exactly when no two keys share a hash: otherwise it reads a null pointer (refuted for every hash function).
* **C40** (partial; WalkProps.v): `C40_walk_partial`, `C40_edited_partial`, `C40_up_twice_refuted`, `C40_empty_refuted`, `C40_missing_refuted`. The walk loop and POSIX directory listing on every file tree of properly named entries, from every path that goes up at most once from the current directory and is joined to less than 2 GB; also with a loop body that removes or reorders subdirectories. Refuted: from "../.." directories that do not exist are reported in place of those that do; the walk of the empty path is empty; a missing directory is reported as an empty one. Symbolic links are not modelled.
* **C41** (partial; FsProps.v): `C41_makeDirs_partial`, `C41_blocked`, `C41_returns`, `C41_succeeds`, `C41_dotdot_refuted`, `C41_trailing_refuted`, `C41_through_file_refuted`. POSIX makeDirs on a file tree, with any system call allowed to fail. Proved: results and effects for all paths (AlreadyExists only without ".."), errors for a file in the way, success conditions. Refuted: "a/../f" answers AlreadyExists for a file; a trailing separator makes nothing; with assertions a path through a file stops the program.
* **C42** (partial; FsProps.v): `C42_save_partial`, `C42_unchanged_iff`, `C42_succeeds`, `C42_lost_refuted`, `C42_crash_refuted`, `C42_big_refuted`. POSIX makeDirsAndSaveBinaryIfDifferent on a file tree, with failing and short writes. Proved: Unchanged iff same contents (files below 4 GB), effects of every result, success conditions. Refuted: a failing write is answered with OK and loses the file; a crash can leave the file empty although a temporary file is promised; files of 4 GB and more.
* **C43** (proved; BuildProps.v): `C43_handed`, `C43_project`, `C43_add`, `C43_loop_refuted`. Every graph without loops: when propagation ends, every list of every target is as specified (visible dependencies, include directories, definitions, flags, libraries, import and export definitions), in place of only the two lists of the statement; it ends unless an assertion about containers fails, and exactly when is stated; clashing definitions are reported exactly if there are any. Graphs with loops, which the instantiator never makes but addDependency can, never end (refuted).
* **C44** (proved; UtilProps.v): `C44_avalanche32_bijection`, `C44_avalanche64_bijection`. For all 32-bit and 64-bit values.
* **C45** (proved; UtilProps.v): `C45_isPowerOf2`, `C45_alignPowerOf2`, `C45_isAligned`, `C45_roundUpPowerOf2_32`, `C45_roundUpPowerOf2_64`, `C45_roundUp_out_of_range_refuted`, `C45_countSetBits`, `C45_countSetBits_negative_refuted`, `C45_reverseBytes32`. Wherever the result fits; out of range it returns 0 and countSetBits loops on negative arguments (refuted).
* **C46** (proved; RefCountProps.v): `C46_safe`, `C46_alive`, `C46_once`, `C46_exact`, `C46_settle`, `C46_move_out_refuted`, `C46_construction_seen`, `C46_fenced_uses_seen`, `C46_use_races_refuted`. Any number of threads, handles and objects holding handles, every interleaving of the atomic steps, up to 65535 references per object (asserted). Moving a handle out of an object is outside the theorem: overwriting a handle from inside the object it held uses freed memory (refuted). On release/acquire memory the callback sees the construction if the fences asked for are issued; uses by other threads are seen only if they also fence before dropping, which Reference does not do (refuted).
* **C47** (partial; DualRefProps.v): `C47_at_most_once`, `C47_both_called`, `C47_order_partial`, `C47_defined`, `C47_full_overtakes_refuted`, `C47_copy_weak_refuted`, `C47_upgrade_refuted`. Any number of threads and every interleaving, counts up to 32767 (asserted): each callback at most once, exactly once when all references are gone. That the full callback waits for the partial one holds only if no weak reference is dropped while the partial one runs (otherwise refuted, also with one thread). Copying a weak reference after the last strong one is gone fails an assertion, making a strong one from it runs the partial callback again (both refuted).
* **C48** (proved; LockProps.v): `C48_lazy_mutex`, `C48_spin_lock`, `C48_lazy_mutex_available`, `C48_spin_lock_available`. Every number of threads and every schedule, on a release/acquire memory in which loads may return old values; the inner mutex is an abstract lock. Also: every thread can always get in again. The destructor is not modelled.
* **C49** (proved; EscapeProps.v): `C49_format`, `C49_format_literal`. Exact characterisation of success and output; an ill-formed string or a wrong argument count fails an assertion.
* **C50** (partial; CookProps.v): `C50_right`, `C50_once`, `C50_only`, `C50_idle`, `C50_safe`, `C50_ends`, `C50_ask_refuted`, `C50_ask_skips_refuted`, `C50_recycled_refuted`, `C50_dropped_refuted`, `C50_untidy_refuted`, `C50_missing_refuted`, `C50_zero_refuted`, `C50_second_refuted`, `C50_shut_refuted`. Every history of sessions that keep what they cook, do not ask whether a job is cooked and end with cookDeferred; cook functions that cook a job right now also refer to it; the time of a file is not 0 and tells its contents. Refuted without these: asking marks a job as being cooked, dropped jobs leave dangling or recycled addresses, a file that has gone fails an assertion, a change within a second goes unnoticed. Jobs in cycles of references are never deleted; that is not stated.
* **C51** (partial; SortProps.v): `C51_find`, `C51_rfind_partial`, `C51_rfind_empty_refuted`. rfind on an empty array fails an assertion (refuted).
* **C52** (partial; SequenceProps.v): `C52_destructed_once_partial`, `C52_truncate_leaks_refuted`. Holds for histories without truncate; truncate never destructs what it drops (refuted).
* **C53** (proved; OutStreamProps.v): `C53_view_stream`. write, writeByte, flush and position queries; pieces below 2 GB.
* **C54** (proved; PathProps.v): `C54_convert`, `C54_same_names`. Both directions; from POSIX the names must have no backslash.
* **C55** (proved; InStreamProps.v): `C55_view_stream`, `C55_restore_refuted`. Every view and history within the contract (a save point is restored only from a later position). Restoring does not clear the end-of-file flag (refuted as a promise).
* **C56** (partial; TraceProps.v): `C56_log`, `C56_safe`, `C56_safe_rivals`, `C56_available`, `C56_freed_refuted`, `C56_early_refuted`, `C56_stats_refuted`. Every schedule, number of threads, page size and page count, on a sequentially consistent memory. Refuted without a bound on how long a call is held up: a slow call goes on into a page that was deleted (C56_freed_refuted, for all sizes); safe up to MaxNumPages * EventsPerPage calls, or while fewer calls than fill all pages but one run beside any call. dumpEntireLog during logging shows unwritten events and dumpStats forgets deleted pages (refuted).
* **C57** (partial; SyncProps.v): `C57_detects`, `C57_turns`, `C57_stolen_refuted`, `C57_nested_refuted`, `C57_race_refuted`. Every sequence of calls: stopped exactly unless entering and leaving take turns; when threads leave only what they entered, exactly if sections overlap. Refuted: that what passes does not race (exit uses Acquire, so it orders nothing, shown on release/acquire memory for any two threads), that leaving the section of another thread is noticed, and that a thread may enter again inside its own section.
* **C58** (partial; WalkProps.v): `C58_remove_partial`, `C58_up_twice_refuted`, `C58_dot_refuted`, `C58_through_refuted`. Every file tree and every pattern of failing calls, at every point in time, for paths that lead down (after at most one ".." at the start) to a directory that does not contain the current one. Refuted: "../../d" removes files from the directory d inside the current one; "." removes everything in the current directory and then fails; a path through what is removed fails. Symbolic links are not modelled.
* **C59** (partial; WalkProps.v): `C59_inside_partial`, `C59_apart`, `C59_up_refuted`, `C59_drive_refuted`. For every full root and every path that does not go above where it starts, both formats, with the exact place reached; two such file systems with roots apart never meet. Refuted: ".." escapes, as does "C:x" on Windows.
* **C60** (proved; BuildProps.v): `C60_project`, `C60_order_refuted`. Every environment and list of roots with finitely many sources. Finding sources by name, source files and what extern providers do are not modelled. Refuted: that the order of the roots does not matter.
* **C61** (proved; SyncProps.v): `C61_atomic`, `C61_woken`, `C61_available`. Every schedule with spurious wake-ups, any number of threads; a mutex and condition variable as the standard describes them, on a sequentially consistent memory.
* **C62** (partial; SyncProps.v): `C62_groups`, `C62_counters`, `C62_printed`, `C62_used_refuted`. Every schedule of registrations, also with compare-exchanges that fail for no reason; sequentially consistent memory. Counts are modulo 2^32, and a group used 2^32 times is not printed (refuted).
* **C63** (partial; TextFormatProps.v): `C63_save`, `C63_load_partial`, `C63_bytes_kept`, `C63_detect`, `C63_auto_mark_partial`, `C63_auto_utf8_partial`, `C63_auto_utf16_partial`, `C63_stray_refuted`, `C63_feff_refuted`, `C63_control_refuted`, `C63_ideographs_refuted`, `C63_bytes_refuted`, `C63_bytes_mark_refuted`, `C63_odd_refuted`, `C63_block_refuted`. Saving: every format and text (plain bytes: ASCII). Loading in the format: every text; files in UTF-16 or plain bytes must fit into a block, since larger ones may lose a character (refuted). Detection: total; exact for every file with a mark, for UTF-8 texts without control characters, for UTF-16 without a mark for ASCII texts, including the binary32 scores. Refuted outside: stray bytes, escape sequences, ideographs, a leading U+FEFF, plain bytes beyond ASCII, odd lengths.
* **C64** (proved; HashProps.v): `C64_pieces`, `C64_total`, `C64_add`, `C64_const_refuted`. Every message below 2^64 bytes, every division and every content of the uninitialised memory; little endian, unaligned reads. Found beside it: get, although const, overwrites the buffer (C64_const_refuted), so two threads may not call it on one object.
* **C65** (partial; HashProps.v): `C65_words`, `C65_one_word`, `C65_int`, `C65_float`, `C65_boundary_refuted`, `C65_nul_refuted`, `C65_int64_refuted`. All keys: words, equal floats, no collision of 32-bit integers or of keys that differ in one word. Refuted: that sequences of parts are not confused - adjacent strings run into each other after a multiple of four bytes, zero bytes before the last one or two are not noticed, 64-bit integers are cut to 32 bits.
* **C66** (proved; WebProps.v): `C66_url`. Every byte string, against a percent-decoder after RFC 3986.
* **C67** (partial; WebProps.v): `C67_dialogue`, `C67_close`, `C67_always`, `C67_cut`, `C67_half`, `C67_body_refuted`. Every dialogue, every handler that gives an answer or does nothing, every division of its writes and of the pieces of the stream, every input; against a client after RFC 7230. Requests without a body only: a body is taken for the next request (refuted). C67_half: after a response whose header was never ended the connection is closed. C67_cut: a request cut off by the end of the input is answered with an error.
* **C68** (partial; WebProps.v): `C68_found_partial`, `C68_missing`, `C68_file`, `C68_escape_refuted`, `C68_source_partial`, `C68_source_near`, `C68_source_refuted`, `C68_drive_refuted`, `C68_page_partial`, `C68_page_refuted`. Paths that do not go above their start: the exact file, its type, its bytes; otherwise refuted: any file of a served type can be had by going up, source files also from the parent of the root folder (and not further, on POSIX), on Windows from any drive, and pages from anywhere; a root folder that is not full is entered twice. Pages on POSIX only.
* **C69** (partial; MarkdownProps.v): `C69_reading`, `C69_written`, `C69_intraword_refuted`, `C69_backslash_refuted`, `C69_underscore_refuted`, `C69_links_refuted`. All lines of all paragraphs give a reading of the text (total, lossless); nested items written with stars and spaces around them are read back. Refuted: emphasis inside words, backslashes in link targets, underscores around stars, links inside links. The reading is not shown to be the one of CommonMark beyond the written items; destinations with backslashes are only bounded.
* **C70** (partial; MarkdownProps.v): `C70_exact_partial`, `C70_safe_partial`, `C70_one_reading`, `C70_paragraph`, `C70_source`, `C70_source_exact`, `C70_empty_item_refuted`. All documents whose tight lists have no empty items: exact for texts without overlong UTF-8, free of injected markup for all bytes; the reading of a page is unique. C70_source: from any source of bytes to its page; C70_source_exact: character for character for ASCII sources. Refuted for empty items of tight lists.
* **C71** (partial; MarkdownBlockProps.v): `C71_text_partial`, `C71_written`, `C71_total_refuted`, `C71_structure_refuted`. C71_text_partial: whatever is parsed, no text is lost, doubled or moved. C71_written: documents of paragraphs, headings, code, nested quotes and lists of paragraphs, written with their blocks apart by blank lines, are parsed as what was written. Missing: the structure of other sources. Refuted: some sources fail assertions (C71_total_refuted), some structures are lost (C71_structure_refuted).
* **C72** (partial; PersistProps.v): `C72_saves`, `C72_round_trip_partial`, `C72_tree_refuted`, `C72_order_refuted`, `C72_place_refuted`, `C72_null_refuted`, `C72_big_refuted`, `C72_box_refuted`. C72_saves: which objects can be saved. C72_round_trip_partial: what is saved is loaded as the same graph, if no owned object that is pointed to starts where an earlier one that is not pointed to does, only structs and switches are owned, arrays have fewer than ten million items and floats are not signalling NaNs. Not modelled: AnySavedObject, TypedArray, onPostSerialize. Refuted: trees of owned nodes, pointers in another order, null pointers, long arrays, owned arrays, empty objects at the same place.
* **C73** (partial; PersistProps.v): `C73_versions`, `C73_numbers`, `C73_wraps`, `C73_switch_refuted`, `C73_pointer_refuted`, `C73_target_refuted`, `C73_bool_refuted`. C73_versions: every pair of versions between which [adapts] relates the object. C73_numbers: numbers keep every value the new kind has; C73_wraps: integers otherwise modulo a power of two. Refuted: reordered states of a switch (C73_switch_refuted), removed pointers (C73_pointer_refuted), large integers to bool (C73_bool_refuted). Rounding of values the new kind does not have is modelled but not specified.
* **C74** (partial; CrowbarProps.v): `C74_script_does_what_it_means_partial`, `C74_steps_do_not_matter`, `C74_copy_of_the_newest_variable_refuted`, `C74_printing_empties_a_string_refuted`, `C74_parameter_is_the_callers_variable_refuted`, `C74_returned_argument_refuted`, `C74_returned_variable_refuted`, `C74_string_assigned_to_itself_refuted`, `C74_or_does_not_short_circuit_refuted`. C74_script_does_what_it_means_partial: every script in which right sides of assignments, arguments and returned expressions are not bare names of variables runs exactly as the reference interpreter on values says, at every number of steps, wherever that gives it a meaning. C74_steps_do_not_matter: more steps do not change an outcome. Missing, because false: scripts that hand over variables by their bare names (seven _refuted theorems: copies crash, strings are emptied, parameters alias, returned variables dangle).
* **C75** (partial; CrowbarParseProps.v): `C75_script_is_parsed_as_written_partial`, `C75_expression_is_parsed_as_written_partial`, `C75_spelling_is_unambiguous`, `C75_parsing_ends`, `C75_only_strings_break`, `C75_text_to_output_partial`, `C75_unary_operator_takes_all_refuted`, `C75_wrong_sum_refuted`, `C75_large_number_refuted`, `C75_after_return_refuted`, `C75_unclosed_string_refuted`. C75_script_is_parsed_as_written_partial: every spelling of a script by the grammar of CrowbarText.v is parsed as that script (C75_expression_is_parsed_as_written_partial for expressions in any context, C75_spelling_is_unambiguous, C75_parsing_ends for every source, C75_only_strings_break for every source without a quote). C75_text_to_output_partial composes this with C74. Missing, because false: an expression that ends in the operand of a unary operator, followed by a binary operator (C75_unary_operator_takes_all_refuted, C75_sum_after_minus_refuted, C75_wrong_sum_refuted); numbers of 2^32 or more become 0 (C75_large_number_refuted); an unclosed string fails an assertion (C75_unclosed_string_refuted); a statement may follow a return on its line (C75_after_return_refuted).
* **C76** (partial; PylonReflectProps.v): `C76_saved_is_loaded_partial`, `C76_through_text_partial`, `C76_other_version`, `C76_build_folder_partial`, `C76_import_ends`, `C76_import_keeps_type`, `C76_numbers_refuted`, `C76_arrays_refuted`, `C76_null_refuted`, `C76_enum_refuted`, `C76_shape_refuted`, `C76_new_identifier_refuted`, `C76_unreported_refuted`, `C76_import_new_partial`, `C76_items`. C76_saved_is_loaded_partial and C76_through_text_partial (through the text of a file) for every object that can be saved, onto any object of the type; C76_other_version; C76_build_folder_partial (the file of a build folder with its signature); C76_import_ends; C76_import_keeps_type. Missing, false of the code (the refuted theorems): numbers, fixed arrays and enum-indexed arrays cannot be exported; null Owned pointers and enum values without identifier are read through null; malformed files fail assertions or are ignored without a report.
* **C77** (partial; CppTokProps.v): `C77_every_byte_partial`, `C77_reading_ends_partial`, `C77_written_read_back_partial`, `C77_locations_partial`, `C77_raw_unterminated_refuted`, `C77_raw_parenthesis_refuted`, `C77_comment_stars_refuted`, `C77_zero_minus_refuted`, `C77_exponent_refuted`, `C77_separator_refuted`, `C77_null_directive_refuted`, `C77_comment_directive_refuted`, `C77_define_refuted`, `C77_macro_string_refuted`, `C77_recursive_macro_refuted`, `C77_macro_location_refuted`. C77_every_byte_partial (any source, without macros), C77_written_read_back_partial (every source that consists of written tokens), C77_reading_ends_partial (any source without raw strings, any macros not within each other), C77_locations_partial (any source, any macros). Missing: for raw strings, comments with several stars, 0-1, 0.5e3, digit separators, null directives, continued defines, strings in macro arguments, recursive macros and macro names it does not hold (the refuted theorems); the tree of the location map is taken to keep equal keys in order.
* **C78** (partial; CppSkipProps.v): `C78_going_back_partial`, `C78_curly_skipped`, `C78_balanced_skipped`, `C78_skipping_ends`, `C78_sources_end_partial`, `C78_closing_ends_partial`, `C78_angles_refuted`, `C78_comments_refuted`, `C78_same_place_refuted`, `C78_error_lost_refuted`, `C78_closing_marked_refuted`, `C78_push_before_refuted`, `C78_push_twice_refuted`, `C78_told`. C78_going_back_partial (any tokenizer, any commands), C78_curly_skipped, C78_balanced_skipped, C78_skipping_ends (any parser state), C78_sources_end_partial (the tokenizer of C77), C78_closing_ends_partial (outside of restore points). Missing: changes of how angles are read, comments handed over twice, restore points at the same place, errors under a restore point that is not gone back to, closing under a restore point, pushing back over the restore point; there it does not hold (the refuted theorems). The grammar above (declarations, expressions) is not modelled.
* **C79** (partial; OwnProps.v): `C79_owners_partial`, `C79_once_partial`, `C79_end_partial`, `C79_inside_refuted`, `C79_itself_refuted`, `C79_again_refuted`, `C79_cycle_refuted`, `C79_functor_refuted`, `C79_captured_refuted`. Every use of Owned and OptionallyOwned allowed by the specification is proved, for every heap that gives free addresses. Not allowed, each with a theorem: assigning from inside of the owned object (C79_inside_refuted, always freed memory), to itself (C79_itself_refuted), borrowing the same object again (C79_again_refuted), into a member of its own (C79_cycle_refuted), and Functors, which leak (C79_functor_refuted, C79_captured_refuted).
* **C80** (partial; ImageProps.v): `C80_rectangles`, `C80_margins`, `C80_point_refuted`, `C80_full_refuted`, `C80_crop_partial`, `C80_inverted_refuted`, `C80_copy_partial`, `C80_flip_partial`, `C80_copy32_partial`, `C80_columns_refuted`, `C80_in_place_refuted`, `C80_large_refuted`, `C80_clear`, `C80_upwards_refuted`, `C80_half_partial`, `C80_convert_partial`, `C80_infinity_refuted`, `C80_rgba`, `C80_abgr_refuted`. Images must have columns (C80_columns_refuted), fewer than 2^31 bytes (C80_large_refuted) and positive strides (C80_upwards_refuted: such images are not cleared); source and destination must not overlap (C80_in_place_refuted). Refuted: Box::full() is empty, a rectangle extended to a point need not contain it, crop accepts inverted rectangles, infinity is converted to 1.0 and 131072 to 0, toABGR shifts the first channel by 16. Not modelled: linearToSRGB.
* **C81** (partial; CMakeProps.v): `C81_commands_partial`, `C81_sources_partial`, `C81_normalized`, `C81_include_refuted`, `C81_backslash_refuted`, `C81_dollar_refuted`, `C81_control_refuted`, `C81_case_refuted`, `C81_twice_refuted`, `C81_definitions`. C81_commands_partial, C81_sources_partial: for every project whose names are words, whose source paths hold no dollars and no control characters but tabs and ends of lines, and whose other paths hold no quotes, backslashes and dollars. C81_normalized for every project. Missing, because false: include directories and libraries with quotes or backslashes are not escaped (C81_include_refuted, C81_backslash_refuted), dollars (C81_dollar_refuted), control characters (C81_control_refuted); names that differ in case share their files (C81_case_refuted), and two groups list every file twice (C81_twice_refuted).
* **C82** (partial; ToolProps.v): `C82_commands_partial`, `C82_accepted`, `C82_one_meaning`, `C82_no_assertion`, `C82_empty_refuted`, `C82_ambiguous_refuted`, `C82_rpc_refuted`, `C82_add`, `C82_unique`, `C82_remove`, `C82_select`, `C82_removed_refuted`. C82_commands_partial: an equivalence for every command line without empty arguments, whose command is not rpc and whose extern command is not ambiguous. Missing, because false: empty arguments end the line (C82_empty_refuted), ambiguous beginnings are taken for the first command (C82_ambiguous_refuted), rpc ignores its arguments and fails an assertion (C82_rpc_refuted), a removed target stays active and shared (C82_removed_refuted). C82_accepted, C82_one_meaning, C82_no_assertion, C82_add, C82_unique, C82_remove, C82_select without these conditions.
* **C83** (partial; MathProps.v): `C83_axes`, `C83_apply`, `C83_group`, `C83_all`, `C83_handed`, `C83_plane`, `C83_order`, `C83_moved`, `C83_matrix_refuted`, `C83_opposite_refuted`, `C83_reflection_refuted`. C83_axes, C83_apply, C83_group, C83_all, C83_handed, C83_plane, C83_order, C83_moved for all axes, rotations, vectors and positions. Missing, because false: the matrix of a rotation with a position (C83_matrix_refuted), the opposite of X directions of the plane (C83_opposite_refuted), mirrored reflections (C83_reflection_refuted).
* **C84** (partial; MathProps.v): `C84_quaternions`, `C84_axis_angle`, `C84_matrices`, `C84_from_matrix`, `C84_between_partial`, `C84_between_refuted`, `C84_mix`, `C84_motions`, `C84_products`, `C84_orthographic`, `C84_perspective_partial`, `C84_perspective_refuted`, `C84_look`, `C84_scaled`, `C84_translation_refuted`, `C84_curve_refuted`, `C84_assertion_refuted`. C84_quaternions, C84_axis_angle, C84_matrices, C84_from_matrix, C84_mix, C84_motions, C84_products, C84_orthographic, C84_look, C84_scaled for all real values; C84_between_partial unless the vectors are nearly opposite, C84_perspective_partial for frustums centred in y or square. Missing, because false: the rest of these two (C84_between_refuted, C84_perspective_refuted), translations of ScalePos2 (C84_translation_refuted), the slope of curves (C84_curve_refuted). Rounding is not modelled: floats are real numbers. Uses the axioms of the real numbers of the standard library.
* **C85** (partial; NamesProps.v): `C85_split`, `C85_find_module`, `C85_find_extern_partial`, `C85_short_extern_refuted`, `C85_find_provider_partial`, `C85_provider_missing_refuted`, `C85_full_module`, `C85_full_extern`, `C85_short_extern_partial`, `C85_short_module_partial`, `C85_short_module_refuted`, `C85_full_provider_partial`, `C85_full_provider_refuted`, `C85_short_provider_partial`, `C85_signature`, `C85_signature_total`. C85_split, C85_find_module, C85_full_module, C85_full_extern, C85_signature, C85_signature_total in full; C85_find_extern_partial and C85_find_provider_partial characterise all outcomes including the failing assertions; C85_short_extern_partial, C85_short_module_partial, C85_full_provider_partial, C85_short_provider_partial say exactly when written names read back. Missing, because false: no failed assertions (C85_short_extern_refuted, C85_provider_missing_refuted), reading back of short module names and full provider names (C85_short_module_refuted, C85_full_provider_refuted).
* **C86** (partial; RepoProps.v): `C86_scope`, `C86_module_dependency_partial`, `C86_leftover_refuted`, `C86_extern_dependency`, `C86_register_provider`, `C86_history`, `C86_distinct_partial`, `C86_nameable`, `C86_duplicate_extern_refuted`, `C86_duplicate_provider_refuted`. C86_scope, C86_extern_dependency, C86_register_provider, C86_history, C86_nameable for all registries and histories; C86_module_dependency_partial: surplus components are ignored (C86_leftover_refuted); C86_distinct_partial: without ambiguous names. Missing, because false: the rest (C86_duplicate_extern_refuted, C86_duplicate_provider_refuted).
* **C87** (partial; AudioProps.v): `C87_saturating`, `C87_mix`, `C87_mix_refused`, `C87_blocks`, `C87_order_partial`, `C87_order_refuted`, `C87_leveled`, `C87_levels`, `C87_level_ends`, `C87_ramp`, `C87_ramp_refuted`, `C87_pitched`, `C87_pitched_end`, `C87_pitched_plain`, `C87_pitched_empty_refuted`, `C87_subregion`, `C87_zero`, `C87_format`. C87_saturating, C87_mix, C87_mix_refused, C87_blocks, C87_leveled, C87_levels, C87_level_ends, C87_ramp, C87_pitched, C87_pitched_end, C87_pitched_plain, C87_subregion, C87_zero, C87_format. Not true in general: ramps above full level (C87_ramp_refuted), resampling no frames (C87_pitched_empty_refuted), independence of the order of sources (C87_order_partial without clamping, C87_order_refuted).
* **C88** (partial; LoadProps.v): `C88_ends`, `C88_completes`, `C88_loaded`, `C88_order_partial`, `C88_circular_refuted`, `C88_malformed_refuted`. C88_ends, C88_completes, C88_loaded for all workspaces; C88_order_partial: a dependency comes first unless it needs the repo in turn. Missing, because false: circular dependencies are reported (C88_circular_refuted), malformed files have the same effect in every order (C88_malformed_refuted).
* **C89** (partial; DocNamesProps.v): `C89_lookup`, `C89_chain`, `C89_chain_none`, `C89_chain_exact`, `C89_qualified_partial`, `C89_twice_refuted`, `C89_told`, `C89_namespace`, `C89_clash_refuted`, `C89_dropped`, `C89_added`. C89_lookup, C89_chain, C89_chain_exact, C89_told, C89_namespace, C89_dropped, C89_added for all histories; C89_qualified_partial where names are declared once. Missing, because false: every class is found by its qualified name (C89_twice_refuted); a clash of names is told (C89_clash_refuted).
* **C90** (proved; TitleProps.v): `C90_ends`, `C90_exact`, `C90_written`, `C90_places`, `C90_unclosed`, `C90_close`, `C90_nested`, `C90_unknown`, `C90_untyped`, `C90_html`. C90_exact in both directions; errors in C90_unclosed, C90_close, C90_nested, C90_unknown, C90_untyped; C90_html for texts and links of bytes without overlong encodings.
* **C91** (partial; ConvertProps.v): `C91_recipe`, `C91_converts_partial`, `C91_heap_refuted`. C91_recipe; C91_converts_partial for sources without arrays on the heap. Missing, because false: arrays on the heap (C91_heap_refuted). Recipes of more than one block are not modelled.
* **C92** (proved; CommandProps.v): `C92_read`, `C92_scope`, `C92_remark`, `C92_registered`, `C92_order`, `C92_success`, `C92_trailing_refuted`. C92_read and C92_scope for names without quotes, backslashes and ends of lines; C92_registered, C92_order and C92_success for all sequences of events. C92_trailing_refuted: a command at the end of a file is not an error.
* **C93** (proved; SubstProps.v): `C93_exact`, `C93_only`, `C93_end_refuted`, `C93_lines`, `C93_own`, `C93_inline`, `C93_replaced`, `C93_again`, `C93_many`, `C93_stable`. All files and substitutions that do not reach the end of the file; C93_end_refuted says that those fail an assertion. Where includes and braces are is given, as the parser of C++ would find them.
* **C94** (proved; InlProps.v): `C94_files`, `C94_contents`, `C94_lossless`, `C94_numbered`, `C94_stateless_refuted`, `C94_member_refuted`. All classes, enumerations and switches; C94_lossless for names without ends of lines, commas and closing parentheses. C94_stateless_refuted and C94_member_refuted say where headers of switches cannot be used.

## What is modelled, and what is not

Modelled, function by function (the header of each model file lists its own simplifications):

| model | code |
|-------|------|
| TextEncodingModel | RT/string/TextEncoding |
| UtilModel | SRC/platform/ply-platform/Util.h |
| StringViewModel | RT/string/StringView, String (the operations on bytes) |
| NumTextModel, EscapeModel, ScanModel | RT/io/impl/FormatString.cpp, TypeParser.cpp |
| VarintModel, LabelModel | RT/string/details/LabelEncoder.h, RT/string/Label, BigPool |
| DateTimeModel | RT/time/DateTime |
| SortModel | RT/algorithm/Sort.h, Filter.h, Find.h |
| ArrayModel, PoolModel, HashMapModel, BTreeModel, SequenceModel | RT/container/ |
| OutStreamModel, InStreamModel | RT/io/OutStream, InStream, RT/container/BlockList |
| TextConvModel, NewLineModel, TextFormatModel, FileLocModel, LiquidModel | RT/io/text/, RT/filesystem/FileSystem.cpp (loading text) |
| PathModel | RT/filesystem/Path |
| FsModel | RT/filesystem/FileSystem.cpp, impl/FileSystem_POSIX.cpp, impl/FileSystem_Virtual.cpp |
| PylonModel, PylonNodeModel | SRC/pylon/pylon/pylon/ |
| WeakMemModel, LockModel, RefCountModel, RefOrderModel, DualRefModel | RT/thread/impl/Atomic_CPP11.h, Mutex_LazyInit.h, Mutex_SpinLock.h, RT/container/Reference.h, WeakRef.h |
| BuildModel | SRC/build/target/, SRC/build/repo/ (propagation and instantiation) |
| CookModel | SRC/cook/ply-cook/CookJob.h, CookJob.cpp |
| TraceModel | RT/thread/impl/Trace_MemLog.h, Trace_MemLog.cpp |
| HashModel | RT/container/Hash.h, Hash.cpp, Hash128.h, Hash128.cpp, Int128.h |
| WebModel | SRC/web/common/web-common/, the choice of pages in SRC/web/serve-docs/ |
| MarkdownModel | SRC/web/markdown/web-markdown/ |
| PersistModel | SRC/reflect/ply-reflect/ (Asset, PersistRead, PersistWrite, TypeKey), RT/container/Numeric.h |
| CrowbarModel | SRC/crowbar/ply-crowbar/Interpreter.cpp, SRC/reflect/ply-reflect/methods/, the operators in SRC/reflect/ply-reflect/builtin/, SRC/apps/CrowbarTest/Main.cpp |
| PylonReflectModel | SRC/pylon/reflect/pylon-reflect/Export.cpp, Import.cpp |
| CppTokModel | SRC/cpp/ply-cpp/Preprocessor.cpp, Preprocessor.h, PPVisitedFiles.h |
| OwnModel | RT/container/Owned.h, Functor.h, Subst.h:73-90 |
| ImageModel | SRC/image/image/image/Image.h, Image.cpp, SRC/math/math/ply-math/Box.h (s32), Half.h |
| CMakeModel | SRC/build/target/ply-build-target/CMakeLists.cpp:16-242, Dependency.h:30-89, CMakeLists.h:31-37 (writeCMakeLists) |
| ToolModel | SRC/apps/plytool/plytool/ConsoleUtils.cpp:11-63, ConsoleUtils.h:15-33, Main.cpp:68-107, CommandHelpers.cpp:16-49, the reading of arguments in Command_*.cpp; Command_Target.cpp:122-129, Command_Extern.cpp:185-196 (settings) |
| MathModel | SRC/math/math/ply-math: Quaternion.h/.cpp, Matrix.h/.cpp, QuatPos.h/.cpp, AxisVector.h, Vector.h and Vector.cpp (operations they use), Interpolate.h:10-27, Extra.h:14-25; float is the real numbers |
| NamesModel | SRC/build/repo/ply-build-repo: DependencySource.cpp:13-45, RepoRegistry.cpp:23-37, 166-420, ExternProvider.cpp:17-25 |
| RepoModel | SRC/build/repo/ply-build-repo: Repo.cpp, Repo.h:34-42, ModuleArgs.cpp:71-123 |
| LoadModel | SRC/build/repo/ply-build-repo/RepoRegistry.cpp:39-164 (files and DLLs as given outcomes) |
| DocNamesModel | SRC/web/cook-docs/ply-web-cook-docs: SemaEntity.h, SemaEntity.cpp (without hashes and dumps), CookResult_ExtractAPI.cpp:156-235, 509-555 (entities only), CookResult_Page.cpp:27-32 |
| TitleModel | SRC/web/cook-docs/ply-web-cook-docs: SymbolTitle.h:15-33, SymbolTitle.cpp:39-146 |
| ConvertModel | SRC/reflect/ply-reflect/TypeConverter.cpp:58-267, for recipes that lie in one block |
| CommandModel | SRC/build/repo/ply-build-repo/ExtractModuleFunctions.cpp:104-326, without locations of errors; the parser of C++ is a sequence of events |
| SubstModel | SRC/apps/plytool/plytool/Command_CodeGen.cpp:64-82, ReflectionHooks.cpp:23-52, 252-268; what the parser finds in a file is given; the contents of generated files are not modelled |
| InlModel | SRC/apps/plytool/plytool/Command_CodeGen.cpp:24-50, 100-198; the hash map is a list in the order of insertion; saving is not part of it |
| AudioModel | SRC/audio/primitives/audio-primitives: Render.cpp, Saturate.h:21-24 (portable version), Buffer.h:37-66, Format.h:30-47, Format.cpp |
| CppSkipModel | SRC/cpp/ply-cpp/ParseMisc.cpp, RestorePoint.h, Parser.cpp, closeScope of ParseSpecifiersAndDeclarators.cpp |
| CrowbarParse | SRC/crowbar/ply-crowbar/Tokenizer.cpp, Parser.cpp |
| SyncModel | RT/thread/RaceDetector.h, RT/thread/impl/ManualResetEvent_CondVar.h, Trace_Counters.h, Trace_Counters.cpp |

Not modelled: the heap (allocation never fails; use after free appears only where objects are tracked: arrays, pools, reference
counts), the operating system beyond the POSIX calls named in FsModel (no symbolic links, no other processes, no permissions other than calls that fail), Windows and macOS
back ends, sockets, subprocesses, threads other than through atomics and locks, rounding and overflow of floating point (conversions are modelled in PersistModel, geometry on real numbers in MathModel), reflection other than saved assets and the operators of scripts, the grammar of the C++ parser (ply-cpp; its tokenizer, reading ahead and skipping are modelled), the storage blocks of script objects (at ObjectStack.cpp:42 an object moved to the next block is given the address of the previous one),
the pages of the documentation server, and what the plytool commands do with files and processes.

Memory model (C46, C48): every location has a list of messages in modification order, each with the view that its writer released; a
thread has a view and may read any message not older than it; a read-modify-write reads the last message; release and acquire
accesses and fences transfer views. Stores are appended at the end of the modification order (no promises). Sequentially
consistent and consume accesses do not occur in the modelled code.

## Findings

Every `..._refuted` theorem is a defect or a limit of the code, with a witness. The most serious:

* `C18_insert_hangs_refuted`, `C18_erase_loses_refuted`: hash map insertion can fail to end, and erasing can lose other keys, once more than 128 keys meet in neighbouring cells (below that, C18 is proved).
* `C46_use_races_refuted`, `C47_full_overtakes_refuted`: relaxed reference counts do not publish uses to the destructor; the full callback can run while the partial one is still running.
* `C46_move_out_refuted`: `head = std::move(head->next)` uses freed memory.
* `C42_lost_refuted`, `C42_crash_refuted`: saving a file truncates it first; a failing write is answered with OK.
* `C58_up_twice_refuted`: removeDirTree("../../d") removes files from another directory.
* `C59_up_refuted`, `C59_drive_refuted`: a virtual file system can be left through ".." (Windows: also "C:x").
* `C25_up_twice_refuted`: normalising drops every second "..".
* `C24_request_refuted`, `C04_three_pieces_refuted`: input streams and text converters lose bytes at block boundaries.
* `C38_unclosed_refuted`, `C38_word_refuted`: the Pylon parser reads a null node or loops for ever on unclosed objects, blank texts and single words.
* `C39_copy_refuted`: copying a Pylon object with a hash collision reads a null pointer.
* `C32_trailing_backslash_refuted`: command line quoting is not safe for a trailing backslash.
* `C12_before_1970_refuted`, `C13_epoch_weekday_refuted`: times before 1970 fail an assertion, weekdays are off by one.
* `C52_truncate_leaks_refuted`, `C16_eraseQuick_overlap_refuted`: array operations that leak or copy over live items.
* `C20_queue_order_refuted`: the B-tree does not keep equal keys in order.
* `C50_ask_refuted`, `C50_recycled_refuted`, `C50_dropped_refuted`: asking whether a job is cooked makes cooking it fail; a dropped job's address is taken for cooked or used after it was deleted.
* `C56_freed_refuted`, `C56_early_refuted`: a slow call of the trace log writes into a page that was deleted; dumping during logging prints unwritten events.
* `C57_race_refuted`: sections that a race detector lets pass one after the other still race; it would take a release on exit.
* `C63_block_refuted`, `C63_odd_refuted`: UTF-16 files larger than a block lose characters; with an odd number of bytes they fail an assertion.
* `C63_control_refuted`, `C63_ideographs_refuted`, `C63_stray_refuted`: escape sequences are detected as UTF-16, ideographs as UTF-8, and a file is not looked at beyond a stray byte.
* `C63_bytes_refuted`: saving in the format of plain bytes writes UTF-8.
* `C65_boundary_refuted`, `C65_nul_refuted`: adjacent strings in a key run into each other, zero bytes go unnoticed.
* `C64_const_refuted`: asking a Hash128 for its hash writes to it, although the function is const.
* `C68_escape_refuted`, `C68_source_refuted`, `C68_page_refuted`: the web server sends files outside of its folders.
* `C67_body_refuted`: the body of a request is taken for the next request.
* `C69_backslash_refuted`, `C69_intraword_refuted`, `C69_underscore_refuted`, `C69_links_refuted`: backslashes in links double characters, emphasis inside words or around stars is lost, links contain links.
* `C70_empty_item_refuted`: converting a tight list with an empty item reads outside of an array.
* `C71_total_refuted`, `C71_structure_refuted`: Markdown sources such as ">" or "#" fail an assertion; the text of a quote after a paragraph lands in the paragraph, lists three deep are flattened.
* `C72_tree_refuted`, `C72_order_refuted`, `C72_place_refuted`, `C72_null_refuted`, `C72_big_refuted`, `C72_box_refuted`: trees of owned nodes, arrays of ten million items and owned arrays are saved but cannot be loaded; null pointers and objects pointed to in another order cannot be saved; a pointer to the second of two empty objects is loaded as one to the first.
* `C73_switch_refuted`, `C73_pointer_refuted`, `C73_target_refuted`, `C73_bool_refuted`: reordering the states of a switch loses their contents, removing a pointer, or an object that is pointed to, makes old files unreadable, 2^32 becomes false.
* `C74_copy_of_the_newest_variable_refuted`, `C74_printing_empties_a_string_refuted`, `C74_parameter_is_the_callers_variable_refuted`, `C74_returned_argument_refuted`, `C74_returned_variable_refuted`, `C74_string_assigned_to_itself_refuted`, `C74_or_does_not_short_circuit_refuted`: in scripts, `y = x` of the newest variable runs off the stack, printing or passing a string empties it, parameters are the caller's variables, returned variables dangle, both sides of "||" are evaluated.
* `C75_unary_operator_takes_all_refuted`, `C75_sum_after_minus_refuted`, `C75_wrong_sum_refuted`, `C75_large_number_refuted`, `C75_unclosed_string_refuted`, `C75_after_return_refuted`: in scripts, `-a + b` is -(a + b), numbers of 2^32 or more are 0, an unclosed string fails an assertion, and a statement may follow a return on its line.
* `C76_numbers_refuted`, `C76_arrays_refuted`, `C76_null_refuted`, `C76_enum_refuted`: pylon::exportObj fails an assertion on every
  number, fixed array and enum-indexed array (all of which can be imported), and reads through null for a null Owned pointer
  and for an enum value without identifier. `C76_shape_refuted`, `C76_new_identifier_refuted`: settings files that a user or
  a newer version wrote fail assertions; `C76_unreported_refuted`: a malformed string or bool is ignored silently. (Read, not
  modelled: importing onto an Owned pointer overwrites it without destroying what it owned.)
* `C77_raw_unterminated_refuted`, `C77_raw_parenthesis_refuted`: a raw string that is not ended, and every raw string whose
  contents end with a closing parenthesis, fail an assertion. `C77_comment_stars_refuted`: a comment that ends with two stars and
  a slash runs on, and hides what follows. `C77_separator_refuted`: a digit separator hides the rest of the source.
  `C77_zero_minus_refuted`, `C77_exponent_refuted`: 0-1 is one number and 0.5e3 is two tokens.
  `C77_define_refuted`: a define that is continued with an empty line hides the line behind it. `C77_null_directive_refuted`,
  `C77_comment_directive_refuted`: directives that are reported although they are at the beginning of their lines.
  `C77_macro_string_refuted`: a parenthesis in a string ends the arguments of a macro. `C77_recursive_macro_refuted`: a macro that
  names itself is expanded for ever. `C77_macro_location_refuted`: the location of a macro's name fails an assertion.
* `C78_angles_refuted`: two closing angles that were read as a shift stay one after going back. `C78_comments_refuted`: comments
  are handed over again after going back. `C78_same_place_refuted`: a restore point set where the outermost one is fails an
  assertion when it is cancelled. `C78_error_lost_refuted`: an error after a restore point is not told, and the destructor of the
  restore point then fails an assertion. `C78_closing_marked_refuted`: an unclosed parenthesis under a restore point fails an
  assertion. `C78_push_before_refuted`, `C78_push_twice_refuted`: pushing back over a restore point gives a token twice; pushing
  back two tokens with a comment between them fails under a restore point. (Read, not modelled: parseExpression asserts on tokens
  that it does not know, as in `int x = ;`.)
* `C79_inside_refuted`, `C79_itself_refuted`, `C79_again_refuted`: `Owned::operator=(Owned&&)` destroys its object before it reads the other pointer, so `head = std::move(head->next)` always reads freed memory (`head = head->next.release()` is proved correct); assigning a pointer to itself fails an assertion, and so does borrowing again what is borrowed already.
* `C79_cycle_refuted`, `C79_functor_refuted`, `C79_captured_refuted`: an object moved into its own member is never destroyed; assigning a `Functor` leaks the callable it had (or loses it, if it is assigned to itself); deleting a functor's wrapper through its base class never runs the destructor of the callable.
* `C80_full_refuted`: `Box<V>::full()` builds {Min, Min}, which contains no point.
* `C80_point_refuted`, `C80_inverted_refuted`: `makeUnion` with a point past the end does not contain the point; `Image::crop` accepts a rectangle turned inside out and returns an image of negative width.
* `C80_columns_refuted`, `C80_in_place_refuted`, `C80_upwards_refuted`, `C80_large_refuted`: images without columns fail an assertion when copied or turned over; turning over in place loses half of the rows; images with a negative stride are not cleared; 32768 x 32768 RGBA overflows the size.
* `C80_infinity_refuted`: the image conversions to half floats turn infinity into 1.0 and 131072 into 0, and drop the sign of zero.
* `C80_abgr_refuted`: `toABGR` shifts the first channel by 16 instead of 24, onto the second one.
* `C81_include_refuted`, `C81_backslash_refuted`, `C81_dollar_refuted`, `C81_control_refuted`: in CMakeLists.txt, include directories, libraries, DLLs, definitions and precompiled headers are written without escapes, so that a quote breaks the file and a backslash names another directory; `${` in any path is read as a variable; control characters are escaped as hexadecimal digits, which CMake rejects.
* `C81_case_refuted`, `C81_twice_refuted`: the variable with the sources of a target is its name in upper case, so that targets `Gui` and `gui` share their files; with several groups of sources it is listed once per group.
* `C82_empty_refuted`, `C82_ambiguous_refuted`, `C82_rpc_refuted`: an empty argument ends the plytool command line, and whatever follows is ignored; `extern in` is `extern info` and never refused as ambiguous, and no abbreviation of `selected` works; `rpc` ignores the rest of its arguments and fails the assertion at the end of main.
* `C82_removed_refuted`: a removed target stays the active one and stays in the list of shared targets, so that it is shared when it is added again without `--shared`.
* `C83_matrix_refuted`, `C83_opposite_refuted`, `C83_reflection_refuted`: `AxisRotPos::toFloat4x4` leaves the position out; the opposite of XPos in the plane is XPos itself (AxisVector.h: `(4 - a) & 3`); the four mirrored reflections fail the assertion of their conversion.
* `C84_perspective_refuted`: `makeProjection` divides the y offset by the width (Matrix.cpp:288), so that every frustum that is neither centred in y nor square is projected too high or too low. `C84_between_refuted`: nearly opposite unit vectors are treated as opposite. `C84_translation_refuted`: the translation of `ScalePos2` has scale zero and sends all points to one. `C84_curve_refuted`: `derivativeCubic` gives a third of the derivative. `C84_assertion_refuted`: the assertion that a matrix is orthonormal cannot fail.
* `C85_short_extern_refuted`, `C85_provider_missing_refuted`: looking up a one-byte extern name missing from the named repo fails an assertion (RepoRegistry.cpp:245 prints `externName[1]`); an extern's name where a provider's is expected logs its error and then reads the first of no components (line 313). Surplus components of an extern name are reported but the extern is returned.
* `C85_short_module_refuted`, `C85_full_provider_refuted`: short names of modules are qualified by looking at other repos' externs instead of their modules, so an ambiguous module is shown by a name that does not find it; the full name of a provider in the extern's own repo, which is what build folders record, is ambiguous when another repo offers the same provider name.
* `C86_leftover_refuted`, `C86_duplicate_extern_refuted`, `C86_duplicate_provider_refuted`: surplus components of a module dependency are ignored without a message; registering a provider under an extern name that is ambiguous in scope makes a second extern of that name, which (with its providers) no name finds; a provider registered twice is accepted and the second is never found.
* `C87_ramp_refuted`, `C87_pitched_empty_refuted`, `C87_order_refuted`: mixDynLevel computes in unsigned numbers and narrows to s16, so above full level loud samples are added with the wrong sign, without any assertion (mixLeveled overflows there, see C87_levels); mixPitchedDirect with no frames to write at the end of the source fails the assertion after the loop (Render.cpp:91); clamping makes the order of sources matter.
* `C88_circular_refuted`, `C88_malformed_refuted`: repos that depend on each other are loaded without a message, one of them before its dependency; a repo whose info.pylon is malformed stays in the registry without having been registered, so that repos that need it are dropped if they come first and loaded if they come later.
* `C89_clash_refuted`, `C89_twice_refuted`: a namespace with the name of something else makes the documentation extractor read through a null pointer (CookResult_ExtractAPI.cpp:220 uses `record`, which is null in that branch); of two classes of the same name in one scope both are kept and at most one is found by name.
* `C91_heap_refuted`: converting an array on the heap to a fixed array never copies its items: the nested call gets the cursor of the next block (TypeConverter.cpp:197, 221-222) and returns at once, then the commands meant for one item are applied to the whole struct, and the end of the inner scope ends the conversion, so that later members are lost.
* `C92_trailing_refuted`: a command that no declaration follows (at the end of a file) is forgotten without an error, although a command that cannot be applied is an error elsewhere (ExtractModuleFunctions.cpp:300-304, 318-326).
* `C93_end_refuted`: a substitution that reaches the end of the file fails an assertion (Command_CodeGen.cpp:74, `endPos < src.numBytes`), so a generated include cannot be removed when it is the last line of a file (`C93_end_case`).
* `C94_stateless_refuted`: generating code for a switch without states reads the first of no states (Command_CodeGen.cpp:41-42, noted there).
* `C94_member_refuted`: states of a switch that differ in the case of their first letter only get one member name (Command_CodeGen.cpp:33, 43-46).
* `C60_order_refuted`: the order of the root targets decides whether a project builds.

Noticed while reading, outside the model: Array.h:53-55 (initialiser list of an empty array), `HashMap::ConstCursor::next` and `findNext` use wrong
addresses, `OutPipe_FD::write` ignores EINTR, `RWLock_CPP14::lockShared` calls functions that do not exist, `ConditionVariable_POSIX::timedWait` on
Apple uses an uninitialised value, `writeCMakeLists` dereferences a null dependency for an unselected extern,
WebServer.cpp:97-111 reads the port from PORT and does not use it, `WithRadix` prints a float as its bit pattern (FormatString.h:32-37),
`Thread_POSIX::sleepMillis` sleeps the whole time again after a signal.


## Trusted base

* The Coq 8.16.1 kernel (`coqc`; the build is also checked by `coqchk`).
* The reading of the C++ by hand: no code was run. Each definition cites what it models, and says where it simplifies.
* `Print Assumptions` stands beneath every one of the 605 property theorems in `*Props.v` and is printed during the build. The answer is
  "Closed under the global context" (no axiom at all) for all of them except those of MathProps.v (C83 and C84), which are about the real numbers of
  the standard library. These list `ClassicalDedekindReals.sig_forall_dec` and `FunctionalExtensionality.functional_extensionality_dep`;
  C84_axis_angle, C84_from_matrix, C84_between_partial, C84_between_refuted, C84_mix, C84_look and C84_assertion_refuted also list
  `ClassicalDedekindReals.sig_not_dec` (all from Coq.Reals and Coq.Logic); C83_order and C83_reflection_refuted list nothing. No other axiom is used.
  (The libraries loaded contain axioms, such as those of `Coq.ssr.ssrunder`, on which no theorem here depends.)
* No library outside the standard library is used.
