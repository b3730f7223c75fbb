{"id": "C01", "title": "Interning is injective both ways", "statement": "Two `Interner::intern` calls on the same interner return equal keys if and only if the interned items are equal, whatever was interned before, between or after them.", "quantifier": "all item types with decidable equality, all finite sequences of intern calls, all pairs of positions in them", "why_tests_cant": "needs every interleaving of new and repeated items and every hash collision pattern, not a sample", "anchors": ["asylum/src/lib.rs: Interner::intern", "asylum/src/lib.rs: Interner::get"]}
{"id": "C02", "title": "Interned items are retrievable for ever", "statement": "A key returned by `Interner::intern` yields the item it was returned for, at every later moment of the interner's life and after `finalize`.", "quantifier": "all interners, all histories of intern calls after the key was issued, finalize included", "why_tests_cant": "the claim is about every future history", "anchors": ["asylum/src/lib.rs: Interner::get", "asylum/src/lib.rs: InternedItems", "asylum/src/lib.rs: Interner::finalize"]}
{"id": "C03", "title": "Interners store each distinct item once and fail exactly when the key space is exhausted", "statement": "`len` is the number of distinct items interned so far; an intern call panics if and only if the item is new and the key type cannot represent the index `len` (255, 65535, 2^32-1 ... items for Micro/Mini/Spur keys), and leaves every earlier key valid otherwise.", "quantifier": "all key widths, all histories", "why_tests_cant": "exhaustion needs up to 2^32 insertions; a unit test cannot reach it for every key type", "anchors": ["asylum/src/lib.rs: Interner::intern", "asylum/src/lib.rs: Interner::len"]}
{"id": "C04", "title": "Sequence keys encode (offset, length) losslessly or refuse", "statement": "`SequenceKey::try_from_impl_key` returns a key exactly when offset and length are both representable in the inner key, and `into_impl_key` of that key gives back the very same range; distinct accepted ranges give distinct keys.", "quantifier": "all offsets and lengths, all inner key widths and all LEN_BITS", "why_tests_cant": "64-bit packing arithmetic over all offsets, lengths and const-generic parameters", "anchors": ["asylum/src/sequence.rs: SequenceKey::into_impl_key", "asylum/src/sequence.rs: SequenceKey::try_from_impl_key"]}
{"id": "C05", "title": "Sequence interning is injective and retrievable", "statement": "`SequenceInterner::intern` returns equal keys exactly for equal sequences (the empty one included), each key gives back exactly the sequence it was returned for after any later history, and re-interning a known sequence never changes the interner.", "quantifier": "all element types, all histories mixing whole-slice interning and entry transactions", "why_tests_cant": "history-quantified; storage is one shared concatenated buffer so any off-by-one leaks between sequences only on particular histories", "anchors": ["asylum/src/sequence.rs: SequenceInterner::intern", "asylum/src/sequence.rs: InternedSequences::get"]}
{"id": "C06", "title": "Sequence entries are transactions", "statement": "Items pushed to a `SequenceEntry` become visible only if `intern` is called: dropping an unfinished entry restores the interner exactly, `pop` never removes an item of a previously interned sequence, and interning an entry gives the same key and the same final interner as interning the slice of its surviving items.", "quantifier": "all interner states, all sequences of push/pop on an entry, both endings (intern, drop)", "why_tests_cant": "every push/pop history and both endings", "anchors": ["asylum/src/sequence.rs: SequenceEntry::{push,pop,intern,len,is_empty}", "asylum/src/sequence.rs: impl Drop for SequenceEntry"]}
{"id": "C07", "title": "Entry interning and slice interning agree even when keys run out", "statement": "When the key space is exhausted, interning an already known sequence through an entry succeeds like `SequenceInterner::intern` does. (Refuted: the entry asks for a new key before looking the sequence up.)", "quantifier": "all interner states including exhausted ones", "why_tests_cant": "exhaustion states are not reachable in a unit test for Spur keys", "anchors": ["asylum/src/sequence.rs: SequenceEntry::intern", "asylum/src/sequence.rs: SequenceInterner::intern"]}
{"id": "C08", "title": "Recursive sequence interning never leaks between nested sequences", "statement": "With any nesting and interleaving of work-in-progress sequences, each one interns exactly the items pushed to it since its creation (never leftovers of a recycled buffer) and abandoning some of them has no effect on the others. The scratch buffers held at any time are exactly as many as the largest number of sequences ever under construction at once.", "quantifier": "all programs of new/push/intern/abandon on any number of simultaneously live work-in-progress sequences", "why_tests_cant": "any interleaving and any recycling order of internal buffers", "anchors": ["cpparser/src/interning/recursion.rs: RecursiveSequenceInterner", "cpparser/src/interning/recursion.rs: WipSequence"]}
{"id": "C09", "title": "Path interning normalises and identifies paths", "statement": "`PathInterner::intern` of an absolute path yields a key whose path has no `.`/`..` component, starts at the root, and is obtained by resolving `..` lexically without ever climbing above the root; two absolute paths get equal keys exactly when these normal forms are equal; a relative path is an error and changes nothing. `len`, `is_empty`, `num_components` and `num_unique_components` count the distinct normal forms, their components and the distinct component names met.", "quantifier": "all path strings, all interner histories", "why_tests_cant": "all path shapes and all interning histories", "anchors": ["asylum/src/path.rs: PathInterner::intern", "asylum/src/path.rs: InternedPath::{components,to_boxed_path}"]}
{"id": "C10", "title": "Overlong absolute paths are reported, not fatal", "statement": "Interning any absolute path either succeeds or returns an error value. (Refuted: more than 255 components abort with a panic.)", "quantifier": "all absolute paths", "why_tests_cant": "unbounded number of components", "anchors": ["asylum/src/path.rs: PathInterner::intern", "asylum/src/sequence.rs: SequenceEntry::intern"]}
{"id": "C11", "title": "The activity tree is the containment forest of the trace", "statement": "After a successful build, for any two activities a and b: a is listed in `all_children` of b exactly when a was reported before b and a's interval lies inside b's (zero-length activities on b's boundary may go either way: they are descendants when everything reported in between also starts no earlier than b); `direct_children` of b are those descendants that are not descendants of another descendant; `parent` is the inverse of `direct_children`; root activities are exactly the activities without parent.", "quantifier": "all sequences of activities accepted by the builder", "why_tests_cant": "all tree shapes and sizes", "anchors": ["clang-time-trace/src/tree.rs: ActivityTreeBuilder::insert", "clang-time-trace/src/tree.rs: ActivityTree", "clang-time-trace/src/tree.rs: ActivityTrace::{direct_children,all_children,parent}"]}
{"id": "C12", "title": "Every activity is listed exactly once", "statement": "`all_activities` lists the inserted activities once each in input order; the roots' subtrees partition them; `all_children` plus the activity itself is a contiguous run of ids ending at it; lookup by id returns the activity that reported this id.", "quantifier": "all accepted insertion sequences", "why_tests_cant": "all tree shapes", "anchors": ["clang-time-trace/src/tree.rs: ActivityTree::{root_activities,all_activities,activity_trace}"]}
{"id": "C13", "title": "Parents enclose children and siblings do not overlap", "statement": "In every built tree each child interval starts and ends within its parent's, and of two siblings (or two roots) one ends no later than the other starts.", "quantifier": "all accepted insertion sequences", "why_tests_cant": "all time stamp patterns", "anchors": ["clang-time-trace/src/tree.rs: ActivityTreeBuilder::insert"]}
{"id": "C14", "title": "The builder accepts exactly well nested traces", "statement": "A sequence of activities is accepted if and only if it is sorted by end time and any two activities are nested or disjoint; otherwise the error tells which of the two conditions failed first.", "quantifier": "all finite sequences of activities", "why_tests_cant": "every interleaving of intervals", "anchors": ["clang-time-trace/src/tree.rs: ActivityTreeBuilder::insert", "clang-time-trace/src/tree.rs: ActivityTreeError"]}
{"id": "C15", "title": "Building an accepted tree never panics", "statement": "If all insertions succeeded, `build` returns a tree (its internal assertion holds).", "quantifier": "all accepted insertion sequences", "why_tests_cant": "all histories", "anchors": ["clang-time-trace/src/tree.rs: ActivityTreeBuilder::build"]}
{"id": "C16", "title": "Self durations account for all the time", "statement": "`self_duration` is duration minus the sum of the direct children's durations, and in exact arithmetic the self durations of a subtree sum to the duration of its top activity, so the self durations of all activities sum to the total root duration; none is negative when input durations are not.", "quantifier": "all accepted insertion sequences with exact (integer) time stamps", "why_tests_cant": "all shapes and numeric values", "anchors": ["clang-time-trace/src/tree.rs: ActivityTrace::self_duration", "src/trace.rs: activity_type_breakdown"]}
{"id": "C17", "title": "A rejected insertion leaves the builder as it was", "statement": "After `insert` returned an error, the builder still builds the tree of the accepted activities. (Refuted: the failed insertion has already re-parented nodes and moved the clock.)", "quantifier": "all builder states and rejected activities", "why_tests_cant": "needs the exact state left by every failing path", "anchors": ["clang-time-trace/src/tree.rs: ActivityTreeBuilder::insert"]}
{"id": "C18", "title": "Trace loading keeps exactly the reported data", "statement": "When a trace loads, its activities are exactly the complete-duration events with a time stamp above 1 in file order, its global statistics exactly the remaining complete events keyed by their name, its process and thread names those of the metadata events.", "quantifier": "all event lists that load", "why_tests_cant": "all event orders and mixes", "anchors": ["clang-time-trace/src/lib.rs: ClangTrace::from_str"]}
{"id": "C19", "title": "Trace loading rejects inconsistent traces", "statement": "Loading fails if the events do not agree on a process id, a process name or thread name or a global statistic is repeated, no process name is given, or an event kind clang never emits occurs.", "quantifier": "all event lists", "why_tests_cant": "all positions of the inconsistency", "anchors": ["clang-time-trace/src/lib.rs: ClangTrace::from_str", "clang-time-trace/src/metadata.rs"]}
{"id": "C20", "title": "Loading never panics", "statement": "`ClangTrace::from_str` returns Ok or Err on every input. (Refuted: an empty event list underflows a capacity computation; an activity with an empty detail string panics when its argument is inferred.)", "quantifier": "all parsed JSON documents", "why_tests_cant": "must hold for every input", "anchors": ["clang-time-trace/src/lib.rs: ClangTrace::from_str", "clang-time-trace/src/stats/activity/argument.rs: infer"]}
{"id": "C21", "title": "Event argument parsing does not depend on hash map order", "statement": "Whether a global statistic or activity argument object is accepted, and the resulting value, do not depend on the iteration order of the JSON argument map. (Which of several errors is reported does: refuted.)", "quantifier": "all argument maps and all their orders", "why_tests_cant": "HashMap order is randomised; a test sees one order", "anchors": ["clang-time-trace/src/stats/global.rs: GlobalStatArgs::parse", "clang-time-trace/src/stats/activity/mod.rs"]}
{"id": "C22", "title": "Bad file paths are reported as errors", "statement": "Parsing the argument of a file-reading activity gives `BadFilePath` for a relative path. (Refuted: it panics.)", "quantifier": "all detail strings", "why_tests_cant": "all strings", "anchors": ["clang-time-trace/src/stats/activity/argument.rs: parse", "clang-time-trace/src/lib.rs: intern_path"]}
{"id": "C23", "title": "Integer literals are read and shown exactly", "statement": "A decimal integer literal is parsed to its mathematical value for every value from -2^63 to 2^64-1 (signed ones up to 2^63-1) and rejected outside, whatever its suffix letters and user-defined suffix; nothing else is parsed as an integer; displaying the parsed literal and parsing it again gives the same literal.", "quantifier": "all digit strings, signs and suffixes", "why_tests_cant": "128-bit value space", "anchors": ["cpparser/src/subparsers/values/literals.rs"]}
{"id": "C24", "title": "Character literals survive display", "statement": "A parsed character literal, displayed and parsed again, is the same literal. A character literal denotes the character or the C++ escape between its quotes. It is displayed with Rust's short escape, as it is, or by its hexadecimal number. (The round trip is refuted for characters that Rust shows as `\\u{..}`, such as control characters, because this is not a C++ escape; it is proved for all others, and the exact set of accepted character literals is proved.)", "quantifier": "all characters", "why_tests_cant": "2^21 characters times prefixes", "anchors": ["cpparser/src/subparsers/values/literals.rs: Display for Literal"]}
{"id": "C25", "title": "cv and reference qualifiers: set semantics and round trip", "statement": "The cv parser accepts const/volatile in any order, result depends only on the set; display then parse gives the same qualifiers; exactly none, `&`, `&&` parse as references.", "quantifier": "all strings made of qualifiers", "why_tests_cant": "all orders and repetitions", "anchors": ["cpparser/src/subparsers/types/qualifiers.rs"]}
{"id": "C26", "title": "Legacy type names are order independent and round trip", "statement": "The result of parsing a multi-keyword C type (unsigned long int ...) depends only on how many times each keyword occurs, not on order; display of an accepted type parses back to it; accepted combinations are exactly those of the C standard plus the documented extensions.", "quantifier": "all keyword lists", "why_tests_cant": "all permutations and lengths", "anchors": ["cpparser/src/subparsers/types/specifiers/legacy.rs"]}
{"id": "C27", "title": "Keywords never match inside identifiers", "statement": "A keyword parser succeeds exactly if the input starts with the keyword and the next character cannot continue an identifier; an identifier parser consumes the maximal identifier. (Refuted for `new` in a value, which is matched by text only: `newfoo` is read as `new foo`.)", "quantifier": "all input strings", "why_tests_cant": "all strings", "anchors": ["cpparser/src/subparsers/names/atoms.rs"]}
{"id": "C28", "title": "Operator symbols: maximal munch and round trip", "statement": "Each C++ operator symbol displayed by the crate is parsed back to the same operator whenever what follows cannot extend it, and symbol parsing returns the operator whose text is exactly what it consumed; between values the longest operator allowed there is read. (The overloads of `<<` and `<<=` are excepted, since their text is ambiguous.)", "quantifier": "all operator symbols and all following texts", "why_tests_cant": "operators times contexts", "anchors": ["cpparser/src/subparsers/operators/mod.rs", "cpparser/src/subparsers/operators/usage.rs"]}
{"id": "C29", "title": "Parsing arbitrary text only panics for three identified reasons", "statement": "`parse_entity` returns Ok or Err for every string, except strings that double an operator (such as `,,` between values, which reaches `unreachable!`), have a source location that is not an absolute path (which is interned as one), or have at least 63 punctuation characters (a sequence longer than the interner's length bits, such as 64 call arguments, overflows it). (The stronger claim that it never panics is refuted in all three ways.)", "quantifier": "all strings", "why_tests_cant": "all strings; a fuzzer cannot show that there is no fourth reason", "anchors": ["cpparser/src/subparsers/operators/usage.rs: parse_binary_expr_middle", "cpparser/src/lib.rs: parse_entity"]}
{"id": "C30", "title": "Bounded display never exceeds its budget", "statement": "`bounded_display(max_cols)` renders any entity in at most max_cols terminal columns, for every max_cols of at least 1.", "quantifier": "all entities, all column budgets", "why_tests_cant": "all entities", "anchors": ["cpparser/src/display.rs: bounded_display"]}
{"id": "C31", "title": "Bounded display shows the deepest rendering that fits", "statement": "`bounded_display` returns the ellipsis or the rendering at some recursion depth d such that all smaller depths fit and depth d+1 does not fit or d is the entity's recursion depth.", "quantifier": "all entities and budgets", "why_tests_cant": "all entities", "anchors": ["cpparser/src/display.rs: bounded_display", "cpparser/src/display.rs: CustomDisplay::recursion_depth"]}
{"id": "C32", "title": "If an entity fits, it is shown in full", "statement": "Bounded display equals the full display exactly when the full display fits the budget. (Refuted for `::foo` and for functions with no parameter but an ellipsis, whose recursion depth is understated; proved for all entities without them.)", "quantifier": "all entities", "why_tests_cant": "all entities", "anchors": ["cpparser/src/subparsers/names/scopes.rs: NestedNameSpecifierView", "cpparser/src/subparsers/functions.rs: FunctionParametersView", "cpparser/src/interning/slice.rs: SliceView"]}
{"id": "C33", "title": "Display recursion accounting is balanced", "statement": "Rendering any entity leaves the display state at the depth it had before, and at depth budget d never opens more than d nested recursive levels.", "quantifier": "all entities and depth budgets", "why_tests_cant": "all entities", "anchors": ["cpparser/src/display.rs: DisplayState::recurse"]}
{"id": "C34", "title": "Truncated paths fit the budget", "statement": "Displaying a path in `cols` columns never uses more than `cols` columns. (Proved for paths with at least two components; refuted for `/` and for a single relative component, which get a spurious separator.)", "quantifier": "all component lists and budgets", "why_tests_cant": "all paths and widths", "anchors": ["src/ui/display/path.rs: truncate_path_iter"]}
{"id": "C35", "title": "Truncated paths show a prefix and a suffix of the path", "statement": "A truncated path is the full path, or a prefix of components, an ellipsis and a nonempty suffix of components, or an elided file name, or a single ellipsis; the full path is shown when it fits. (The last part refuted for two-component absolute paths at the exact width.)", "quantifier": "all component lists and budgets", "why_tests_cant": "all paths and widths", "anchors": ["src/ui/display/path.rs: select_components", "src/ui/display/path.rs: display_components", "src/ui/display/path.rs: display_filename"]}
{"id": "C36", "title": "Truncated strings fit and keep both ends", "statement": "`display_string` on one line uses at most max_cols columns; it outputs the input unchanged if it fits, else a prefix, an ellipsis and a suffix of it that do not overlap.", "quantifier": "all strings and budgets of at least one column", "why_tests_cant": "all strings", "anchors": ["src/ui/display/mod.rs: display_string"]}
{"id": "C37", "title": "Activity descriptions fit the budget or are refused", "statement": "`display_activity_desc` on one line either writes at most max_cols columns starting with the activity name, or returns NotEnoughCols having written nothing; it is refused exactly when name (plus 3 columns if there is an argument) does not fit. The argument (a label, string, path or C++ entity in parentheses) gets all the remaining columns, and is complete when it fits; in the detailed multi-line description the name and the complete argument are always shown, to be wrapped. (Uses C34: the argument must not be a one-component path.)", "quantifier": "all activities, arguments, budgets", "why_tests_cant": "all inputs", "anchors": ["src/ui/display/activity.rs: display_activity_desc", "src/ui/stdio.rs: display_activity"]}
{"id": "C38", "title": "Trace metadata lines fit the terminal", "statement": "No line of the metadata display is wider than max_cols columns; it says the process name, then the process number, thread name and recording date that are known, each abbreviated only if wider than a line, with line breaks only where the next item does not fit. (Proved for recording dates in years 0 to 9999; refuted outside, where it panics.)", "quantifier": "all traces and widths", "why_tests_cant": "all inputs", "anchors": ["src/ui/display/metadata.rs: metadata"]}
{"id": "C39", "title": "Displayed durations are canonical", "statement": "A displayed duration never shows 60 seconds, 60 minutes or 24 hours in a field, and the displayed fields add up to the duration within half a unit of the last displayed digit.", "quantifier": "all durations", "why_tests_cant": "all values near every rounding threshold", "anchors": ["src/ui/display/duration.rs: display_duration"]}
{"id": "C40", "title": "Hierarchical profile lines fit the budget", "statement": "Every line of the stdio hierarchical profile, indentation included, is at most max_cols wide, and recursion stops when no column is left.", "quantifier": "all activity trees, thresholds and budgets", "why_tests_cant": "all trees", "anchors": ["src/ui/stdio.rs: hierarchical_profile_tree"]}
{"id": "C41", "title": "Activity type breakdown conserves time and is sorted", "statement": "The breakdown lists each activity type once, with the sum of its activities' self durations, in decreasing order; the hottest list is exactly the activities at or above the threshold in decreasing order.", "quantifier": "all traces", "why_tests_cant": "all traces and hash orders", "anchors": ["src/trace.rs: activity_type_breakdown", "src/trace.rs: hottest_activities"]}
{"id": "C42", "title": "A successful measurement profiles each unit exactly once", "statement": "If the measurement reports success, the CSV file holds exactly one row per database entry and the progress callback was called once per entry, whatever the thread schedule and whichever workers were killed for lack of memory.", "quantifier": "all job lists, worker counts, schedules, OOM kills", "why_tests_cant": "all thread interleavings", "anchors": ["cmakeperf/src/measure/main.rs: run", "cmakeperf/src/measure/worker.rs: run", "cmakeperf/src/measure/mod.rs: WorkQueue"]}
{"id": "C43", "title": "Jobs are neither lost nor duplicated at any time", "statement": "At every moment each database entry is in exactly one of: the queue, being processed, in a pending result, written, or failed.", "quantifier": "all reachable states of the measurement", "why_tests_cant": "all interleavings", "anchors": ["cmakeperf/src/measure/main.rs: run", "cmakeperf/src/measure/worker.rs: WorkReceiver"]}
{"id": "C44", "title": "Measurement cannot deadlock", "statement": "While entries remain unprofiled, some thread can always make progress without waiting for memory polling: no wakeup is lost and no job is left in the queue with all live workers asleep.", "quantifier": "all reachable states", "why_tests_cant": "all interleavings", "anchors": ["cmakeperf/src/measure/worker.rs: WorkReceiver::wait", "cmakeperf/src/measure/main.rs: WorkSender"]}
{"id": "C45", "title": "Every worker terminates after the measurement ends", "statement": "Once the main loop has ended (success, error, kill), every worker stops after finitely many of its own steps, so dropping the measurement returns.", "quantifier": "all reachable states after the end of the main loop", "why_tests_cant": "all interleavings", "anchors": ["cmakeperf/src/measure/main.rs: impl Drop for WorkSender", "cmakeperf/src/measure/mod.rs: impl Drop for Measurement"]}
{"id": "C46", "title": "Stop flags behave as a set of running workers", "statement": "With any number of workers, after any series of stops, the active count, the active list and each worker's stop flag agree with the set of not yet stopped workers. (Listing refuted when the only active worker of a 64-worker word is its last.)", "quantifier": "all worker counts and stop histories", "why_tests_cant": "bit-level, all word counts", "anchors": ["cmakeperf/src/measure/mod.rs: StopFlags", "cmakeperf/src/measure/main.rs: StopServer", "cmakeperf/src/measure/worker.rs: StopClient"]}
{"id": "C47", "title": "The out-of-memory killer terminates, kills the youngest and never panics", "statement": "On each memory check the OOM handler kills workers youngest first only while available memory is below a margin that shrinks with each kill, stops, and reports `KilledEveryone` exactly when no worker is left. (Proved for at most 63 workers; refuted beyond, where listing the workers can panic, see C46.)", "quantifier": "all margins, elapsed counters, active sets of at most 63 workers (see C46)", "why_tests_cant": "all numeric states", "anchors": ["cmakeperf/src/measure/main.rs: MonitorServer"]}
{"id": "C48", "title": "Process tree monitoring sees every descendant once", "statement": "On an acyclic process table refresh terminates with exactly the root and its transitive children, each once, so memory is neither missed nor double counted and kill reaches all of them; on a cyclic table it never terminates.", "quantifier": "all process tables", "why_tests_cant": "all tables", "anchors": ["cmakeperf/src/measure/worker.rs: ProcessTree"]}
{"id": "C49", "title": "Compilation database lookup", "statement": "`entry(path)` returns the last entry given for that input path (up to equality of paths) and None for others; entries has one entry per distinct input path; `push` panics exactly on a duplicate input.", "quantifier": "all entry lists", "why_tests_cant": "all histories", "anchors": ["cmakeperf/src/commands.rs: CompilationDatabase"]}
{"id": "C50", "title": "Freshness is decided by modification times", "statement": "A build product is Nonexistent if missing, Outdated if older than the database or any input, MaybeOutdated otherwise; errors only from failing file queries; the prompt is skipped only for a fresh or manually chosen profile.", "quantifier": "all file system states", "why_tests_cant": "all states", "anchors": ["cmakeperf/src/commands.rs: product_freshness", "src/ui/tui/create.rs: CreatePrompt::from_freshness"]}
{"id": "C51", "title": "Unit profile wall times are validated", "statement": "`wall_time` is an error exactly for non-finite, negative or over-large values, otherwise a duration with the same whole seconds and within 33 ns of the stored value; the time of a new profile is never an error and keeps its value to a relative 2^-22.", "quantifier": "all f32 values", "why_tests_cant": "2^32 values", "anchors": ["cmakeperf/src/output.rs: UnitProfile::wall_time"]}
{"id": "C52", "title": "Cached descriptions are always current", "statement": "Every reply of the processing thread equals what a fresh rendering for the currently loaded trace and requested width would give, after any history of loads, failed loads and width changes.", "quantifier": "all instruction sequences", "why_tests_cant": "all histories", "anchors": ["src/ui/tui/processing.rs: worker", "src/ui/tui/processing.rs: describe_activities"]}
{"id": "C53", "title": "Replies match requests", "statement": "Each synchronous request of the UI thread receives the reply to this request, never one to another request.", "quantifier": "all request histories and schedules", "why_tests_cant": "all interleavings", "anchors": ["src/ui/tui/processing.rs: ProcessingThread"]}
{"id": "C54", "title": "A cancelled load never appears", "statement": "If the user aborts loading a trace, that trace is never displayed, even if other loads are started before it finishes.", "quantifier": "all interleavings of load, abort, completion", "why_tests_cant": "race condition", "anchors": ["src/ui/tui/trace/load.rs: show_loader"]}
{"id": "C55", "title": "The profile stack mirrors the screen", "statement": "After any sequence of zooms, escapes, dialogs, backtrace jumps, flat/hierarchical toggles and loads, the recorded profile layers are exactly the profile layers on screen, in order, and only the topmost can be flat. At most one quit, backtrace or help dialog is displayed; the backtrace only opens over profiles, and the help only over profiles or in a session about a whole build. (Proved as long as the result of a measurement is opened while nothing else is displayed, loading or being measured; refuted if the user opens another unit between the end of a measurement and the opening of its result.)", "quantifier": "all event sequences", "why_tests_cant": "all histories", "anchors": ["src/ui/tui/init.rs: exit_current_layer", "src/ui/tui/init.rs: backtrace_dialog", "src/ui/tui/trace/display.rs"]}
{"id": "C56", "title": "A previous trace is not lost by a failed or aborted measurement", "statement": "With the trace backup protocol, after a crash at any point or a failed or cancelled clang run the previous trace is available at its path or at the backup path, and after an orderly failure it is back at its path.", "quantifier": "all crash points and clang behaviours", "why_tests_cant": "all crash points", "anchors": ["src/ui/tui/trace/measure.rs: TraceBackup", "src/ui/tui/trace/measure.rs: start_measure"]}
{"id": "C57", "title": "A previous build profile is not lost by an aborted measurement", "statement": "Aborting a full-build measurement restores the previous profile. (Refuted: the backup is restored before the measurement thread is stopped, which may then truncate it; proved when the thread created its file before the abort.)", "quantifier": "all interleavings", "why_tests_cant": "race condition", "anchors": ["src/ui/tui/build/measure.rs: MeasureHandle", "cmakeperf/src/measure/main.rs: run"]}
{"id": "C58", "title": "Compilers may print anything", "statement": "A unit whose compiler prints a lot is measured like any other. (Refuted: the output is only read once the compiler has ended, so that one that prints more than a pipe holds never ends, under any schedule; smaller outputs are collected.)", "quantifier": "all output sizes, pipe capacities and interleavings of compiler and worker", "why_tests_cant": "depends on every interleaving and on the pipe size", "anchors": ["cmakeperf/src/measure/worker.rs: process_job", "cmakeperf/src/measure/worker.rs: start_job"]}
{"id": "C59", "title": "An error stops the measurement", "statement": "Once a unit has failed and the measurement is about to report it, no further unit is compiled. (Refuted: workers only end when the queue is empty, so that for any list of entries all the others may be compiled, and their results discarded, before the error is reported.)", "quantifier": "all entry lists, schedules", "why_tests_cant": "all interleavings", "anchors": ["cmakeperf/src/measure/main.rs: run", "cmakeperf/src/measure/worker.rs: run"]}
{"id": "C60", "title": "Output path of a compilation", "statement": "The output path of an entry is its `output` field if it has one, else the argument of the first `-o` of the command, relative to the entry's directory; there is none if there is no such argument or it has no file name.", "quantifier": "all entries", "why_tests_cant": "all command lines", "anchors": ["cmakeperf/src/commands.rs: DatabaseEntry::output"]}
{"id": "C61", "title": "Loaded activity arguments are always well formed", "statement": "Every activity of a loaded trace has a detail string exactly when its argument type requires one (or optionally accepts one), so that finishing the parse of any loaded argument can only panic inside path interning (relative or unstorable path) or inside the C++ entity parser, never because the detail is missing. Parsing an argument gives exactly what it says: text as it is, [module], the stored file path, the C++ entity, the symbol without its parentheses as the entity of its demangled name (as the demangled text if that does not parse, as itself if it does not demangle), the unnamed loop; it is rejected exactly when the entity does not parse or the loop has a name.", "quantifier": "all traces that load, all their activities", "why_tests_cant": "type inference and the table of known activities interact with every argument object", "anchors": ["clang-time-trace/src/stats/activity/mod.rs: Activity::parse", "clang-time-trace/src/stats/activity/argument.rs: RawActivityArgument::parse"]}
{"id": "C62", "title": "Guessed argument types fit the argument", "statement": "The argument type guessed for an activity the program does not know never makes the argument impossible to read: if it is guessed to be a file path it is an absolute path or [module], if a loop it is the unnamed loop, if a symbol, string or entity it is kept; so parsing such an argument never gives UnexpectedLoopName nor panics for a relative path. A guess exists for every non-empty detail, and it is: a symbol if, without parentheses, it begins as a mangled name or is one of the compiler's symbols; the unnamed loop; a file if absolute or [module]; else text if it begins with an uppercase letter and all its words are made of letters, digits, inner dashes, slashes, arrows and underscores after capitals; else a C++ entity.", "quantifier": "all detail strings, all Unicode tables", "why_tests_cant": "all strings", "anchors": ["clang-time-trace/src/stats/activity/argument.rs: ActivityArgumentType::infer_from_detail", "clang-time-trace/src/stats/activity/argument.rs: RawActivityArgument::parse"]}
{"id": "C63", "title": "More depth never makes a rendering narrower", "statement": "For well-formed entities the width of the rendering does not decrease with the depth budget, and no rendering changes beyond the entity's recursion depth plus one.", "quantifier": "all well-formed entities, all depth budgets, all tables of character widths", "why_tests_cant": "all entities", "anchors": ["cpparser/src/display.rs", "cpparser/src/interning/slice.rs: SliceView"]}
{"id": "C64", "title": "Parsing arbitrary text terminates", "statement": "`parse_entity` ends with a verdict on every text; its recursive calls nest no deeper than the text is long.", "quantifier": "all strings", "why_tests_cant": "left recursion or a loop that consumes nothing would show only on some inputs", "anchors": ["cpparser/src/lib.rs: parse_entity", "cpparser/src/subparsers"]}
{"id": "C65", "title": "Parsed entities are well formed", "statement": "Every name in a parsed entity, at any depth, is a C++ identifier, and every declarator operator is visible.", "quantifier": "all strings that parse", "why_tests_cant": "all strings", "anchors": ["cpparser/src/subparsers/names/atoms.rs: identifier", "cpparser/src/subparsers/types/declarators.rs"]}
{"id": "C66", "title": "All profile layers are displayed alike", "statement": "At any time all profiles on screen use the same duration unit (time, percentage of the whole trace, or percentage of the layer's parent, each with its own reference) and the same sorting column; the unit shortcut changes the unit of all of them to the next one, sorting the topmost table changes the column of all of them, and no other event changes either.", "quantifier": "all event sequences, all traces", "why_tests_cant": "all histories of zooms, flips, escapes and jumps", "anchors": ["src/ui/tui/trace/display.rs: switch_duration_unit", "src/ui/tui/trace/display.rs: sort_other_profiles", "src/ui/tui/trace/display.rs: register_profile"]}
{"id": "C67", "title": "Every trace that loads can be displayed", "statement": "A trace that loads successfully can be displayed and zoomed into without crashing the text user interface. (Refuted: a trace without activities, or whose root activities took no time, and zooming on an activity that took no time but has callees, make it panic.)", "quantifier": "all traces", "why_tests_cant": "all traces", "anchors": ["src/ui/tui/trace/mod.rs: percent_norm", "src/ui/tui/trace/load.rs: show_loader", "src/ui/tui/trace/display.rs: show_profile"]}
{"id": "C68", "title": "The outcome of a measurement decides what happens next", "statement": "In the text user interface, a trace is only opened on behalf of a measurement if that measurement succeeded, never after it was cancelled or failed; no trace is opened twice for the same request or measurement; a failure is always reported; a cancelled measurement shows nothing, unless the previous profile could not be restored.", "quantifier": "all sequences of user inputs and thread events", "why_tests_cant": "depends on the interleaving of the user, the measurement thread and the callback queue", "anchors": ["src/ui/tui/trace/measure.rs: start_measure", "src/ui/tui/trace/load.rs: show_loader"]}
{"id": "C69", "title": "A JSON document is read as documented", "statement": "A JSON document loads exactly when it is an object with a list of Chrome trace events of the documented kinds and fields (integers of 32 bits, text, times, argument objects whose last value of each key counts), uses no other standard feature, and its events fit together as in C18; the loaded trace is made of what these fields say. It is reported as malformed exactly when it is not a document of the format, with its samples and stack frames, and as unexpected exactly when it is one that uses these features. The only documents that make loading panic have no event at all or an activity whose only argument is an empty detail. (Refuted: no document panics. Also shown: a malformed stack trace is silently ignored although a well-formed one is rejected.)", "quantifier": "all JSON documents, all iteration orders of hash maps", "why_tests_cant": "all documents", "anchors": ["clang-time-trace/src/ctf/mod.rs: TraceDataObject, TraceEvent", "clang-time-trace/src/ctf/events/duration.rs: DurationEvent", "clang-time-trace/src/ctf/events/metadata.rs: MetadataEvent", "clang-time-trace/src/ctf/stack.rs", "clang-time-trace/src/lib.rs: ClangTrace::from_str"]}
{"id": "C70", "title": "JSON objects are unordered sets of fields", "statement": "The order of the fields of any object in the document does not matter to whether it loads, to the loaded trace, or to panics; unknown fields of events and of the document are ignored; a standard field that occurs twice makes the document be rejected. (Refuted for an event with both kinds of stack traces: the first counts.)", "quantifier": "all JSON documents, all orders of fields", "why_tests_cant": "all documents and permutations", "anchors": ["clang-time-trace/src/ctf/mod.rs: TraceDataObject, TraceEvent", "clang-time-trace/src/ctf/events/duration.rs: DurationEvent", "clang-time-trace/src/ctf/stack.rs"]}
{"id": "C71", "title": "The non-interactive report is complete and fits", "statement": "Run on a trace that took time and has a single root activity, with at least three columns, the non-interactive program prints in order: who made the trace, the self-duration of each kind of activity from the longest down to the threshold with the number of kinds left out, the activities from the longest self-duration down to the threshold with the number left out, and the tree of the activities whose duration reaches the other threshold, with the number of callees left out below each; activity lines fit in the columns; errors go to the standard error only. (Refuted: every trace, any width, the whole report fits, only what is below the threshold is hidden: several roots, two columns, long type names and traces that took no time are exceptions.)", "quantifier": "all traces, thresholds, terminal widths and column options; all tables of character widths, graphemes and sorting algorithms", "why_tests_cant": "all traces", "anchors": ["src/ui/stdio.rs: run, type_profile, flat_profile, hierarchical_profile", "src/ui/mod.rs: force_parse_arg", "src/trace.rs"]}
{"id": "C72", "title": "A recent clang++ is recognised", "statement": "The program offers to measure exactly when `clang++ --version` runs successfully and the first \"clang version <major>.<minor>\" of the first line it prints has a major version of at least 9; every other outcome gives the documented error: not found, other I/O error, bad status, not UTF-8, empty, too old with its number, or unexpected with the first line. (Refuted: a recent version anywhere in the line is enough.)", "quantifier": "all outputs and outcomes of clang++, all definitions of Unicode digits", "why_tests_cant": "all strings", "anchors": ["src/clang.rs: find_clangpp"]}
{"id": "C73", "title": "A full-build session does what the user asked", "statement": "A session without input file measures the build at most once, and only right after the user pressed the button that asks for it in a prompt that fits the state of the profile; it shows a profile only if that could be loaded and either was there or has just been measured successfully; without an abort every failure (database, clang, freshness, backup, measurement, restoring, loading) is reported by a dialog that stays until the user closes it, and the user declining or quitting ends the session silently; every session ends. (Refuted after an abort: the pending request to close the progress dialog closes the next error dialog or the profile instead.)", "quantifier": "all states of files and clang, all user actions, all interleavings with the measurement thread", "why_tests_cant": "all histories", "anchors": ["src/ui/tui/build/mod.rs: profile, update_profile, error", "src/ui/tui/build/measure.rs: measure_profile, MeasureHandle", "src/ui/tui/create.rs: CreatePrompt::ask"]}
{"id": "C74", "title": "The table of a build profile shows every compilation unit, in the chosen order", "statement": "In a terminal wide enough, if all compilation units of the profile have a time (or the first has none) and paths of at least two components, then however the user sorts it the table shows every unit exactly once, every row can be drawn and its path fits the terminal; at first the unit that uses most memory comes first; after sorting by a column the rows are in the order of that column (sizes and durations by value, times that are no durations last, paths component by component). (Refuted: a terminal of 15 columns, 26 with times, or less, or a profile where only some units have a time, or with NaN times, makes the program panic; paths of one component get a spurious separator, empty ones panic.)", "quantifier": "all profiles, terminal sizes, sequences of sorts and sorting algorithms", "why_tests_cant": "all inputs and histories", "anchors": ["src/ui/tui/build/display.rs: display_profile, UnitProfile::to_column, UnitProfile::cmp", "src/ui/display/path.rs: truncate_path_iter"]}
{"id": "C75", "title": "Waiting for clang ends, with a truthful answer", "statement": "If what clang prints on each stream fits into a pipe and clang ends, or once the user aborts or clang was ended by a signal, waiting for clang ends; the answer is success only if clang exited with status 0, cancelled only if the user aborted, and otherwise an error whose message shows the status of clang and all that clang printed on both streams. (Refuted: clang that prints more than a pipe holds is never awaited successfully, since its pipes are only read after it ends.)", "quantifier": "all behaviours of clang (outputs, status, signals), all interleavings with polling and abort", "why_tests_cant": "all schedules", "anchors": ["src/ui/tui/trace/measure.rs: CancelableClang::start, CancelableClang::wait, CancelTrigger::cancel, child_failure_message"]}
{"id": "C76", "title": "What is displayed of an entity can be parsed again", "statement": "For all C++ entities of the core language (qualified and templated names, function scopes, cv qualifiers, pointers, member pointers, references, arrays, functions, parenthesised declarators, literals, addresses, casts and sizeof as template parameters, expressions with calls, indices, members, pack expansions, signs, increments, binary operators and the ternary operator, overloaded operators with or without template parameters, before a parameter list or at the end of the name, decltype, lambdas and unnamed entities, as clang and as libiberty name them) that are free of the listed ambiguities, parsing the text of the entity yields exactly this entity, both with clang's way of writing it (class keys, spaces before * & ( and [, __restrict, unnamed) and with crofiler's; displaying the entity in full yields crofiler's text of it, so displayed entities parse to themselves and different entities are displayed differently. (Refuted in general: consecutive references, consecutive minus signs, minus before a number and a lone ellipsis are displayed as something else.)", "quantifier": "all entities of the core, of every size and nesting depth", "why_tests_cant": "unbounded mutually recursive syntax", "anchors": ["cpparser/src/lib.rs: EntityParser::parse_entity, entity; cpparser/src/display.rs; cpparser/src/subparsers/names; cpparser/src/subparsers/types; cpparser/src/subparsers/values; cpparser/src/subparsers/functions.rs; cpparser/src/subparsers/templates.rs; cpparser/src/subparsers/anonymous.rs; cpparser/src/subparsers/operators"]}
{"id": "C77", "title": "Build profile files are read back as they were saved", "statement": "A build profile saved to a file, whatever the paths (as long as they are text), sizes and times, loads as the same units in the same order with the same reported times; a CSV table of any form (quoting, line ends, blank lines, byte order mark, column order, extra columns) loads exactly when every row has as many cells as the header and says what the path and size are, and gives what the rows say; a file cut anywhere fails to load or gives the first units, the last one at worst with another time; what an interrupted measurement leaves loads as the units measured so far; only a missing file is reported as missing. (Refuted: a cut in a time is noticed; a file that is no profile is refused.)", "quantifier": "all profiles, all tables and their texts, all cut points", "why_tests_cant": "all inputs and crash points", "anchors": ["cmakeperf/src/output.rs: load, from_csv_reader, UnitProfile", "cmakeperf/src/measure/main.rs: run"]}
{"id": "C78", "title": "Compilation commands are run as they are written", "statement": "The command of a compilation database entry, written with blanks, quotes, backslashes and comments, is run as its words: the first is the program and the others its arguments, in the directory of the entry; a time trace is made by clang++ with -ftime-trace, the granularity if any and the same arguments; the output file is the argument of -o as it is written; a command without words is an error; every text is such a command or ends in an unclosed quote or backslash, in which case the words before are run. (Refuted: commands with an unclosed quote are refused; a line continuation between words means nothing.)", "quantifier": "all texts of commands, all word lists", "why_tests_cant": "all strings", "anchors": ["cmakeperf/src/commands.rs: DatabaseEntry::program, args, full_args, output", "cmakeperf/src/measure/worker.rs: start_job", "src/ui/tui/trace/measure.rs: show_wizard"]}
{"id": "C79", "title": "A measured unit leads back to its compilation command", "statement": "The path stored for a unit, relative to the current directory, names the same file as the absolute input of its compilation database entry, whatever symbolic links and .. it goes through. If the input is the real path of a file, selecting the unit finds that entry again (the last of its file), also after the profile was saved and loaded; in general the entry found is the last one whose input is the real path of the file named by the unit, and it is an error if there is no such file or no such entry. (Refuted: inputs that go through symbolic links, and relative inputs, are found.)", "quantifier": "all file systems (directories, files, symbolic links), current directories, databases and profiles", "why_tests_cant": "unbounded file systems and paths", "anchors": ["cmakeperf/src/measure/worker.rs: process_job", "src/ui/tui/trace/measure.rs: show_wizard", "cmakeperf/src/commands.rs: CompilationDatabase::entry"]}
{"id": "C80", "title": "The trace of a unit is shown if fresh, else measured on request", "statement": "The trace of a unit is the file next to the output of its entry, named like it with the extension json. It is shown at once if it is less than a minute old and not older than the input or the database; otherwise the user is asked, with its age in minutes, hours or days: reusing it shows it, measuring it runs clang++ with -ftime-trace, the granularity and the arguments of the entry in its directory; without a trace the question is whether to measure one, and refusing does nothing. Nothing is ever measured without asking. Entries without output and failing file queries are reported.", "quantifier": "all entries, file systems, modification times and granularities", "why_tests_cant": "all combinations of times and paths", "anchors": ["src/ui/tui/trace/measure.rs: show_wizard", "src/ui/tui/create.rs: CreatePrompt"]}
{"id": "C81", "title": "simpp prints one line that fits, or nothing", "statement": "`simpp -c COLS [ENTITY]` prints exactly one line, at most COLS columns wide, with the deepest rendering of the entity that fits or an ellipsis; the name is the argument if there is one (the standard input is then not touched), else the piped standard input; a terminal is never read. Without a readable name, or with 0 columns, it prints nothing on the standard output and fails. With room for it the complete entity is printed (for the entities of C32), and its output given again prints the same for the names of C76.", "quantifier": "all arguments, standard inputs and column counts", "why_tests_cant": "all texts and widths", "anchors": ["simpp/src/main.rs: main"]}
{"id": "C82", "title": "Floating-point times never corrupt the tree", "statement": "With the f64 arithmetic of the code (IEEE 754, round to nearest even, overflow to infinity) and any finite start times and durations, the tree still has the structure of C11-C15 with respect to the rounded end times: descendants, children, parents, roots, enclosure, siblings in sequence, acceptance exactly of traces sorted by end and well nested, errors naming the first violation, and no panic. A self duration is the activity's duration minus the running rounded total of its children, rounded, never NaN. For whole times up to 2^53 units (285 years of microseconds) with non-negative durations the tree, the errors and the self durations are those of exact arithmetic; just beyond, self durations can be negative.", "quantifier": "all finite f64 start times and durations", "why_tests_cant": "all time stamps and sequences", "anchors": ["clang-time-trace/src/tree.rs: ActivityTreeBuilder, ActivityTrace; clang-time-trace/src/stats/activity/mod.rs: ActivityStat"]}
{"id": "C83", "title": "Rounded shares and statistics stay faithful", "statement": "With the f64 arithmetic of the code, the share of an activity is its duration times the rounded inverse of the rounded total, rounded; shares keep the order of the durations, those of parts of the total lie between 0 and 100 %, and they differ from the exact ratio by less than one part in 2^51, so a threshold decides wrongly only within that margin (an activity that takes all of 49 us does fall below a 100 % threshold). The list of the hottest activities is exactly those at or above the threshold, hottest first, and never panics, NaN included. The breakdown has each activity type once with the rounded running total of its self durations, in decreasing order, and equals the exact one for whole times up to 2^53; only overflow to infinity can make it panic. Table rows can always be compared by duration or self duration.", "quantifier": "all finite f64 times, all thresholds, all sorting algorithms", "why_tests_cant": "all time stamps, durations and thresholds", "anchors": ["src/trace.rs: duration_norm, activity_type_breakdown, hottest_activities; src/ui/stdio.rs: run; src/ui/tui/trace/display.rs: cmp of duration columns"]}
