# Formal model of crofiler in Rocq (Coq 8.16.1)

## 1. Method

* `*_Model.v` — total, computable Gallina functions transcribing the Rust code, one
  definition per function, each with the file and lines it models.  No proofs.
* `*_Spec.v` — small independent vocabulary (what a reader of the English property
  needs), not using model helpers unless they are observations of the API.
* `*_Proofs.v` — lemmas.
* `*_Properties.v` — only the property theorems, each closed by `exact <lemma>`, with
  `Print Assumptions` underneath, and next to each an `Example` showing that a concrete
  non-trivial case meets its hypotheses.
* A Rust panic is an explicit value (`Panic`), never a default.  Machine integers are
  unbounded `nat`/`N`/`Z` except where the property is about their width; then the
  width is explicit (`mod 2^w`, capacity tests).
* Properties the code violates are kept in full as English, and the model carries a
  `..._refuted` theorem with a witness plus, where useful, the part that does hold.

## 2. Plan per property

| id | model | proof |
|----|-------|-------|
| C01-C03 | `Interner` = item list + lookup; key capacity as parameter | invariants over op lists, refinement to "list of distinct items" |
| C04 | bit packing on N with explicit key width | `N.shiftl/lor/land` lemmas |
| C05-C07 | one concatenated buffer + key list, entries as transactions | invariant; simulation by an abstract list of distinct sequences; refutation of C07 by witness |
| C08 | pool of recycled buffers and many live WIP sequences | refinement to independent lists for every program |
| C09, C10 | `Path::components` on strings, path interner over C01/C05 | induction over components; refutation by a 256-component path |
| C11-C17 | builder over an abstract totally ordered time type, instantiated at Z (and binary64 comparisons) | forest invariant by induction over insertions |
| C18-C22 | event list fold with all guards of `from_str` and of the per-kind parsers, JSON tree as input | induction over event list; refutations by witness |
| C23-C28 | string parsers on code point lists | round-trip and maximal munch by induction; finite tables lifted by `forallb` |
| C29 | the whole expression parser | invariant of all sub-parsers about the shape of the input at a panic; refutations by witness |
| C30-C33 | AST of entities, `DisplayState`, display functions | structural induction |
| C34-C40 | width-annotated characters/graphemes, column arithmetic with explicit underflow | induction over the selection loop |
| C41 | HashMap as arbitrary permutation of entries | permutation reasoning |
| C42-C45 | labelled transition system of main thread, workers, queue, channel, futex, stop flags | inductive invariants; variant for termination |
| C46, C47 | words of 64 bits | bit lemmas, refinement to sets |
| C48 | BFS with fuel on a process table | acyclicity measure |
| C49-C51, C60 | maps, file system oracle, an executable binary32 (round to nearest even) | case analysis; bounds on the rounding error |
| C52, C53 | processing thread alone, then with the UI thread and two channels | invariants over request histories and schedules |
| C54, C55, C66-C68 | screen, profile stack, loads, measurements and callbacks of the text UI as one state machine | one invariant for all executions (C54), one for calm executions (the others); refutations by concrete executions |
| C56, C57 | two-path file system, steps and crash points | exhaustive induction over steps; race refuted by witness |
| C58, C59 | worker and compiler with a pipe; LTS of C42 | refutation for every large output and entry list |
| C61, C62 | argument parsing tables of C18 | case analysis over all strings |
| C69, C70 | JSON document as tree with ordered, possibly duplicate fields; the deserialisers serde derives | relational specification of documents, sound and complete; invariance under adjacent swaps |
| C71 | the printing program as a writer of lines to two streams over the tree of C08 and the display of C32 | declarative description of each section; induction over profiles and over the tree |
| C72 | outcome of the probe, first line, leftmost match, 64-bit numerals | relational specification, sound and complete for all texts |
| C73 | UI thread and measurement thread with a queue of quit requests; the rest of the world as inputs | exact set of complete histories without abort (both directions), invariants and ranking for all histories |
| C74 | table operations over an arbitrary sorting algorithm (a tree of comparisons) | every algorithm that sorts total preorders: total preorders per column; for the refutations two orders that agree on all defined comparisons |
| C75 | clang, its two bounded pipes, the polling thread and the abort flag | invariant over all interleavings; ranking for termination; invariant for the blocked case |
| C76 | the C++ parser and display (`Cpp_Parse_Model.v`, `Cpp_Ast_Model.v`) on an independent AST of the core language (types, names, values and expressions) with its own texts, as clang writes them (layout marks) and as crofiler displays them | induction on nesting depth over all recursive parsers; every alternative tried before the right one is shown to fail; display by induction on nesting depth |
| C77 | saving and loading build profiles: `serde` derivation for `UnitProfile` and the default CSV writer and reader automaton, by hand; f32 printing and reading are parameters | an inductive grammar of tables, read by induction; cuts by induction on what is written; serde's column logic against cells by name |
| C78 | the crate `shlex` by hand as an automaton, `DatabaseEntry::{program,args}`, `start_job`, the trace command of `show_wizard` | an inductive grammar of commands, read by induction; every text is covered, by strong induction |
| C79-C80 | the relative path of a unit (`pathdiff` by hand), `realpath` on a table of directories, files and links, `show_wizard` with its prompt and reply handler | resolution as an inductive relation; dropping `.` segments, going up from and down to real directories by induction; round trip of components and text |
| C81 | the `simpp` program over the parser and display models | composition of C30-C32, C65 and C76 |
| C82 | the tree builder again, over a model of f64 as integers of 2^-1074, two infinities and NaN, with round to nearest even | rounding proved against the IEEE definition; simulation of the exact tree builder under an order embedding (any finite times) and under scaling (whole times up to 2^53); invariant for the running sums |
| C83 | products, quotients, shares of the total, thresholds and statistics of `src/trace.rs` over the f64 of C82 | rounding of ratios proved against the IEEE definition, error bound of two roundings, sorts by any algorithm; simulation of the exact breakdown on whole times |
| C63-C65 | display and parser of C30 and C29 | monotonicity; measure on the input; invariant of all sub-parsers |

Why nothing is "not applicable": every property in `properties.jsonl` is expressed in the
model.  Where the code does not have the property, the property keeps its full text, with the
word "Refuted", and the theorem proved is its negation, preferably for every input of a
described class, together with the part that holds.

## 3. What is modelled, and what is not

| Rocq files | Rust code | Left out or simplified |
|---|---|---|
| `Asylum_*` | `asylum/src/{lib,sequence,path}.rs`, `cpparser/src/interning/recursion.rs` | hash maps are association lists (hashing and `raw_entry` not modelled); memory layout, `shrink_to_fit`; `Path::components` is a function on strings for Unix paths; the key width is a parameter |
| `Tree_*` | `clang-time-trace/src/tree.rs`, statistics of `src/trace.rs` | time stamps are exact integers (code: f64; `Float_*` is the same code with f64 and C82 shows the two agree on whole times up to 2^53) |
| `Load_*` | `clang-time-trace/src/{lib,metadata}.rs`, `stats/**` | input is the deserialised document (`Ctf_*` for how it comes about); a HashMap is the list of its entries in iteration order, any order; C++ entity parser and demangler are parameters; Unicode tables are parameters |
| `Ctf_*` | `clang-time-trace/src/ctf/**` with its serde attributes, `ClangTrace::from_str` | JSON text to tree (serde_json's tokenizer and depth limit); behaviour of serde_derive 1.0.216 for flatten, internally tagged enums and `deny_unknown_fields` is transcribed by hand; all deserialisation errors are one; values of numbers are parameters; contents of stack traces, frames and samples only decide about errors |
| `Cpp_Lex_*`, `Cpp_Ast_*`, `Cpp_Parse_*`, `Cpp_Display_*` | all of `cpparser/src` | interned keys are replaced by the items they stand for (justified by `Asylum_*`; overlong sequences still panic); nom error positions; `unicode-xid` feature off; release build (`debug_assert!` off); exhaustion of a whole interner; the mutual recursion is tied by a budget which `C64` shows to be no restriction; which characters Rust shows verbatim is a parameter |
| `UI_*` | `src/ui/display/**` | widths (unicode-width), grapheme boundaries (unicode-segmentation), rounding to two decimals, date formatting are parameters with explicit hypotheses; sinks never fail |
| `Measure_*` | `cmakeperf/src/measure/**` | sequential consistency; jobs and CSV rows are identities; operating system (process table, memory) is an arbitrary input; pipes are bounded counters (C58) |
| `Cmd_*` | `cmakeperf/src/{commands,output}.rs`, `src/ui/tui/create.rs` | JSON text is an input, and so are the words of commands (`Shell_*` for how they come about); file times and `canonicalize` are oracles; binary32 conversion is the model's own executable definition |
| `Files_*` | `src/ui/tui/trace/measure.rs`, `src/ui/tui/build/measure.rs`, `cmakeperf/src/measure/{mod,main}.rs` | file system of two paths whose operations may fail or be the last before a crash; contents are abstract |
| `Proc_*` | `src/ui/tui/processing.rs` | answers of the trace library are parameters; channels are unbounded FIFOs |
| `Screen_*` | `src/ui/tui/{init,mod}.rs`, `src/ui/tui/trace/{mod,load,display,measure}.rs`, `src/ui/tui/build/display.rs`, prompts of `create.rs` | cursive is a stack of layers, a FIFO of callbacks and lookup by name; descriptions, terminal size, refresh rate, sort direction and selection; durations are exact; identifiers name activities |
| `Stdio_*` | `src/ui/stdio.rs`, `src/ui/mod.rs` (`force_parse_arg`), `src/trace.rs` | logging; percentages are exact rationals, NaN and infinities included (code: f32/f64; `Share_*` has the rounding of shares and thresholds); printing to two decimals and sorting algorithm are parameters; printing never fails |
| `Clang_*` | `src/clang.rs` | the regular expression is its leftmost-first match, written out; Unicode digits are a parameter; spawning the process is an input |
| `Session_*` | `src/ui/tui/build/{mod,measure}.rs`, `CreatePrompt::ask` | results of checks, file operations and loading are inputs; the quit confirmation dialog is one event; texts of messages |
| `Table_*` | `src/ui/tui/build/display.rs` | cursive_table_view's sorting and drawing of cells as assumptions (`sorts`, one request per cell); formats of sizes and times are parameters |
| `Wait_*` | `CancelableClang`, `child_failure_message` of `src/ui/tui/trace/measure.rs` | processes started by clang do not outlive it; formats of statuses and replacement of invalid UTF-8 are parameters |
| `Cpp_Core_*` | no new code: the parser and display of C63-C65 | the core leaves out `>`, `>>` and the comma as operators of values, `new`, conversion operators, ABI tags, attributes and vectors; the ambiguities excluded by `tok` (`core_ok` for a whole name) are listed in `Cpp_Core_Spec.v` |
| `Csv_*` | `cmakeperf/src/output.rs:13-66`, the writer of `cmakeperf/src/measure/main.rs` | the `csv` crate (default settings) and serde's derived code are transcribed by hand; f32 to and from text is a parameter; files are decoded text; I/O errors other than a missing file are left out |
| `Shell_*` | `cmakeperf/src/commands.rs:178-251`, `start_job` of `cmakeperf/src/measure/worker.rs`, the command of `show_wizard` | the crate `shlex` is transcribed by hand; spawning the process itself |
| `Locate_*` | `cmakeperf/src/measure/worker.rs:89-93`, `show_wizard` (`src/ui/tui/trace/measure.rs:22-104`), `src/ui/tui/create.rs` | `pathdiff`, `std::path` and realpath(3) are transcribed by hand; a file system is a table of places, permissions and concurrent changes are left out; paths are compared by components, so a trace path is given up to spelling |
| `Simpp_*` | `simpp/src/main.rs` | clap and the panic messages are left out |
| `Float_*` | `clang-time-trace/src/tree.rs` and time accessors, with f64 arithmetic | the two zeros are one value; the error's texts; NaN payloads |
| `Share_*` | `src/trace.rs`, the shares and thresholds of `src/ui/stdio.rs`, row comparison of `src/ui/tui/trace/display.rs`, with f64 arithmetic | the two zeros are one value; the sorting algorithm is a parameter that panics on a NaN |

Not modelled at all: command line parsing (clap) and the choice of the interface (`src/main.rs`), drawing on the terminal, serde/nom/cursive/crossbeam themselves.

Each definition cites the lines it models, and its own simplifications if it has any.

## 4. Trusted base

* Coq 8.16.1's kernel (including its `vm_compute` conversion).
* `Print Assumptions` under every property theorem prints "Closed under the global context":
  no theorem rests on an axiom.  The development has no `Axiom`, `Parameter`, section-less
  `Variable`/`Hypothesis`, functor, module type, `Admitted`, nor plugin.  The axioms that a
  scan of the loaded libraries lists (`Coq.ssr.ssrunder.Under_rel.*`, the seven fields of a
  sealed module of Coq's own ssreflect support, loaded transitively by `Lia`) are in the
  standard library and no theorem here uses them.
* The reading of the Rust code: the models are transcribed by hand, nothing is extracted
  mechanically.  `seeded/LOG.jsonl` records the wrong programs on which the theorems were
  tried.  As a check of the transcription, `*_Tests.v` replays the repository's own unit tests
  on the models (these are tests on literals, not proofs, and no claim rests on them).
* The behaviours of external crates and of the standard library that the table above lists.

## 5. Reading guide

`*_Model.v` is the program, `*_Spec.v` the vocabulary of the statements, `*_Properties*.v` the
statements.  `MANIFEST.json` maps each property to its theorems.  Names ending in `_refuted`
are negations of (part of) a property, names ending in `_partial` prove less than it.
