# Formal model of maike: design

The code under study is in `/repo` (C++17, plus recipes in Python). It has been
read as text only. The model is in `rocq/theories` and is written for Rocq/Coq
8.16.1 with its standard library only.

This file is generated by `tools/design.py` from `tools/design_head.md` (what is
written by hand), `tools/design_props.json` (how each property is treated) and
`MANIFEST.json`.

## Layout

For every area `X` of the code base there are up to five files:

* `XModel.v`: executable Gallina model, function by function, no proofs. Every
  definition cites file and lines in `/repo`, and says what has been left out.
* `XSpec.v`: a small vocabulary in which the properties are stated
  (reachability, "is a quoted list", ...), independent of how the code works.
* `XProofs.v`: lemmas. `LocProofs.v`, `TimeProofs.v`, `LexCheck.v` and
  `MainExample.v` belong here too.
* `XProps.v`: the property theorems, each closed by a lemma and followed by
  `Print Assumptions`; then concrete cases that meet their hypotheses.

Theorems are named after properties: `C07_...` belongs to C07. The suffix
`_partial` marks a theorem that proves only part of its property. The suffix
`_refuted` marks a theorem which exhibits a counterexample in the model: the
property, as a user would expect it, does not hold of the code. Such theorems
are findings; they are collected below.

| Area | Files of /repo |
|------|----------------|
| `Graph` | `core/utils/graphutils.hpp` |
| `Path`, `Str`, `SMap` | what is used of `std::filesystem::path` (lexical operations), `std::string`, `std::map` |
| `Db`, `DepGraph`, `FileList` | `core/db/dependency_graph`, `dependency.hpp`, `source_file_list.cpp`, `source_file_record.hpp`, `source_file_info.hpp`, `target*.hpp`; `core/source_tree_loader/main.cpp` |
| `Sched`, `TaskList` | `core/db/task_list.cpp`, `task.cpp`, `core/sched/event.hpp`, `signaling_counter.hpp`, `task_counter.hpp`, `thread_pool.*` |
| `Pool` | `core/sched/thread_pool.*` (including `AsyncTaskResult`) |
| `Build` | `core/utils/fs.cpp`, `core/db/target_info.cpp`, `task.cpp`, `dependency.hpp`, `source_file_record.cpp` |
| `Lex` | lexers in `core/source_file_info_loaders/cxx` and `extension` |
| `Io` | `core/io/fifo.hpp`, `input_buffer.hpp`, `output_buffer.hpp` |
| `Load` | `core/source_tree_loader/source_file_load_ctxt.cpp`, `source_file_loader_delegator.cpp`, `command_dictionary.cpp`, `core/db/compiler.*`, `core/utils/fs.hpp` |
| `Scan` | `core/source_tree_loader/directory_scanner.*` |
| `Value` | `core/build/id.cpp`, `core/sched/thread_count.cpp`, `core/utils/system_time_stamp.cpp`, the enumerated settings |
| `Cmd` | `core/cmd_line_parser` |
| `Json`, `JLoad` | `core/key_value_store` |
| `Log` | `core/exec/command.cpp`, `core/db/compilation_log.cpp` |
| `Exec` | `core/exec/execve.cpp`, `exit_status.hpp` |
| `Feed` | `core/exec/execve.cpp` with `core/io/io_redirector.hpp`, `mem_io_redirector.hpp`: tools that get input |
| `Fork` | `core/exec/execve.cpp` again: several calls at the same time |
| `Tree`, `Again` | `core/source_tree_loader/main.cpp` (scan and load together), `recipes/make_directory.py` |
| `Recipe`, `Output` | `makeBuildCommand`, reading the output of recipes, `recipes/*.py` (see below) |
| `Make` | `recipes/copy_file.py`, `sass2css.py`, `cxx_compiler.py`, `cxx_linker.py`, `make_lib.py` (what they do to files) |
| `Cxx` | `recipes/cxx_compiler.py`: the whole command |
| `Doc`, `Mark`, `Vcs` | `recipes/doc2html.py`, `md2htmlpart.py`, `vcslog.py` |
| `Write` | `core/db/compilation_log.cpp` with `core/db/task_list.cpp`: several threads |
| `Job` | `core/bin/cmd_line_options.hpp` and `core/bin/maike.cpp`: values of options and the parameters of a job |
| `Show`, `Report` | `core/bin/maike.cpp`: the texts printed by `printTargets` and `printDepGraph`, the lines before them, and the report of the options |
| `Help` | `core/bin/maike.cpp`: `printHelp`; `core/cmd_line_parser/command_line.hpp`: the tables for it |
| `Sync` | `core/sched/event.hpp`, `signaling_counter.hpp` on their own |
| `About` | `core/bin/about.py`, `core/bin/maike.cpp`: `printVersion` and `printAbout` |
| `Tag`, `Step` | (as `Load`) |
| `Whole` | (as `Main` and `Build`) |
| `Default` | core/source_tree_loader/{input_filter.cpp,config.hpp}, core/bin/maike.cpp |
| `Script` | core/db/task.cpp, core/exec/execve.cpp, Makefile |
| `Due` | (no code of its own: the decisions of `Build`, over a whole build) |
| `Mean` | (no code of its own: core/source_tree_loader/source_file_load_ctxt.cpp as in `Load`) |
| `Local` | (no code of its own: the models of `FileList`, `DepGraph`, `Graph`, `Recipe`, compared for two projects) |
| `Clean` | (no code of its own: the models of `Build`, `Sched`, `TaskList`, with the contents of files) |
| `Fail` | (as `Sched`, `Build`) |
| `Mem` | `core/utils/mem_status.cpp` |
| `Link` | (as `FileList`, `TaskList`, `Kind`) |
| `Kind`, `Found` | `core/source_file_info_loaders/{app,generic,lib,maikerule}`, `cxx` and `extension` as loaders, `core/source_tree_loader/source_file_loader_delegator.cpp` |
| `Own` | `core/utils/unique_function.hpp`, `core/source_file_info_loaders/loader.hpp`, `core/io/input_file.hpp`, `core/utils/scope_exit_handler.hpp` |
| `Cfg`, `Conf` | `core/bin/config.*`, `core/source_tree_loader/config.*`, `input_filter.*`, `core/source_file_info_loaders/config.*` |
| `Main` | `core/bin/maike.cpp`, `core/bin/cmd_line_options.hpp`, `core/build/info.*`, `core/db/source_tree.cpp` |

Building takes about two minutes with `make -j4`.

## Trusted base

* Coq's kernel (8.16.1), including its virtual machine, which is used for
  concrete cases and for finite case analyses only. `coqchk` accepts all files.
* `Print Assumptions` says "Closed under the global context" for each of the
  theorems in the `XProps.v` files: no axiom is used. (`coqchk -o` lists seven
  constants of `Coq.ssr.ssrunder`. They belong to a file of the standard
  library that gets loaded by `lia`; no theorem depends on them.) There are no
  axioms, section-less variables, admitted proofs, functors, module types or
  plugins.
* The reading of the code: the model is not extracted from the code, and has
  not been compared with a running program. Each model definition says which
  lines it stands for.
* What is assumed about things outside of the code, which is listed next.

### Assumptions about what is outside of the code

Concurrency

* Whatever is done while a mutex is held is one step, and so is each access to
  an atomic; memory is sequentially consistent. Condition variables may wake up
  spuriously. All interleavings are considered (fairness is needed for
  statements that something ends, which are stated as bounds on the number of
  steps that are not spurious wakeups).
* Threads can be created (the result of `pthread_create` is ignored by the code).
* The exception slot of the pool is empty, and the pool idle, when processing
  starts.
* The captures of a function object are destroyed in reverse order of
  declaration.

File system and processes

* Decision about running a recipe and the run itself: the decision is atomic
  with the start of the task. Recipes write to their own targets only (C15,
  C17, C50), and leave them newer than their inputs on success.
* The file system does not change while the source tree is scanned or while
  recipes are looked up concurrently. Directory entries have ordinary, distinct
  names. Only exceptions derived from `std::exception` are thrown by loaders.
* No file has an empty name.
* Running processes: `fork` and `exec` themselves, descriptors inherited by
  other children, grandchildren outliving the child, and errors from `read` and
  `write` are left out. The wait status macros are those of glibc.
* Writing to the log does not throw within a task.

Libraries

* `std::filesystem::path` lexical operations as specified by C++17 (`Path.v`),
  with libstdc++'s behaviour where that differs in details; `std::lower_bound`
  as in libstdc++.
* A moved-from `std::string` is empty (libstdc++).
* jansson: objects keep the order of insertion; `json_load_callback` is any
  machine that takes one character at a time, calls back for at most a buffer
  of constant size, and does not call back after the end of the input; strings
  must be valid UTF-8; what is dumped is read back as the same value with
  members sorted.
* Regular expressions are not modelled: whether a text is an acceptable
  expression, and whether it matches, are parameters.
* `strtoll`, `strtol` and `atoi` as in C17; what the standard leaves undefined
  is the distinct outcome `Undefined`. Characters with codes above 127 are not
  white space. `gmtime_r` uses the proleptic Gregorian calendar.
* Strings given on the command line and in configuration files contain no NUL.
* Python: `json.loads` inverts what jansson writes; `subprocess.run`,
  `pkg-config`, `sass.compile`, pandoc, parsing XML, pygit2 and the compiler are parameters, with return
  codes within -255..255.
* POSIX shells: the rule for single quotes (C53).

### Not modelled

* `std::random_device` and the generation of build ids (`core/build/id.cpp`:
  only conversion from and to text).
* Summaries of options; messages on standard error, apart
  from the report of options (C89); lines starting with `#` that the program
  prints while it works.
* `core/io/reader.hpp`, `writer.hpp` (type erasure), `core/db/invoker.hpp`, `core/db/loader.hpp`,
  `core/utils/callwrappers.hpp`: no logic that is
  visible from outside, apart from forwarding.
* Resource exhaustion: memory, descriptors, threads.
* `build.py`, `doc/*`: part of the build of maike itself.
* The stylesheet `recipes/doc2html.xsl`.
* Tests.

## Testing the theorems against wrong programs

`seeded/LOG.jsonl` has one line per experiment: a definition of the model was
edited the way a realistic bug would, everything was rebuilt in a scratch copy,
and the theorems that depend on a proof which no longer goes through were
recorded. A theorem that fails in this way is one that is no longer established
(the edit may break the proof, or make the statement false; in either case the
build stops).

## Properties

127 properties: 54 proved, 73 partial.

### C01 Dependencies are visited before dependents

If visiting a dependency graph in topological order returns normally, the callback has been invoked exactly once for every node, and for each node only after it was invoked for every node that the node has a (resolved) dependency on.

* Status: proved
* Modelled: GraphModel.v: the iterative depth first search with marks and an explicit stack, as in graphutils.hpp.
* Proof: Invariant of the loop over stack, marks and callbacks; the fuel of the model is shown to be enough.
* Theorems: `C01_dependencies_visited_first`, `C01_dependencies_visited_first_until_error`

### C02 Cyclic dependencies are always detected and never reported spuriously

Visiting a graph in topological order always terminates, and it fails with 'Cyclic dependency detected' if and only if the graph has a directed cycle (a self-dependency counts).

* Status: proved
* Modelled: GraphModel.v: the iterative depth first search with marks and an explicit stack, as in graphutils.hpp.
* Proof: Same invariant; from a mark in progress a cycle is constructed, and from a cycle the error.
* Theorems: `C02_cycle_error_iff_cycle`

### C03 Traversal from one node reports exactly what is reachable

Traversing from one root either fails because a cycle is reachable from the root, or invokes the callback exactly once for every node reachable from the root (and no other), dependencies first and the root last; each non-root node is reported together with a dependency edge of some reachable node that leads to it.

* Status: proved
* Modelled: GraphModel.v: the iterative depth first search with marks and an explicit stack, as in graphutils.hpp.
* Proof: Same invariant, started from one node.
* Theorems: `C03_traversal_reports_reachable_nodes`

### C04 Resolved dependencies point at the file with that name

Building a dependency graph from a file list numbers the nodes 0..n-1 in path order, and every dependency whose name is in the list refers to precisely the node having that name; strict construction fails if and only if some dependency names a file which is not in the list, and lenient construction leaves exactly those dependencies unresolved.

* Status: proved
* Modelled: DepGraphModel.v: resolution by bisection in the sorted list of nodes.
* Proof: Specification of lower_bound by strong induction; then induction over files and dependencies.
* Theorems: `C04_strict_resolution`, `C04_lenient_resolution`

### C05 Looking up a node by path

getNode(path) returns the node whose path is the requested one if there is such a node, and nothing otherwise.

* Status: proved
* Modelled: DepGraphModel.v: getNode.
* Proof: Specification of lower_bound.
* Theorems: `C05_lookup_finds_the_named_file`, `C05_lookup_of_unknown_file`

### C06 Recursive dependency query is exact

The recursive dependency query for a node returns each node reachable from it exactly once (excluding itself), every dependency before its dependents, or fails when there is a reachable cycle.

* Status: proved
* Modelled: DepGraphModel.v: getUseDepsRecursive on the graph with use dependencies only.
* Proof: From C03.
* Theorems: `C06_recursive_dependencies_exact`
* Note: A dependency with an empty name is visited but not reported.

### C07 A compile task never starts before its dependencies have succeeded

While a task list is processed, the recipe of a task is started only when every task it depends on, directly or transitively, has completed successfully.

* Status: proved
* Modelled: SchedModel.v: TaskList::process, the workers of the pool, queue, event, counter and results as a transition system; TaskListModel.v: how the list of tasks is made.
* Proof: Inductive invariant over all reachable states; lifted to files by the specification of the task list.
* Theorems: `C07_dependencies_succeed_first`, `C07_project_dependencies_built_first`

### C08 Each task runs at most once, and exactly once on success

While a task list is processed no task is started twice; if processing returns normally every task has been started and completed exactly once, all succeeded, and the reported count is the number of tasks.

* Status: proved
* Modelled: SchedModel.v: TaskList::process, the workers of the pool, queue, event, counter and results as a transition system; TaskListModel.v: how the list of tasks is made.
* Proof: Invariant: submitted, running and finished tasks form a permutation.
* Theorems: `C08_no_task_started_twice`, `C08_all_tasks_done_on_return`, `C08_project_built`

### C09 A failed task stops its dependents and fails the build

If a task fails then no task depending on it is ever started, and processing does not return normally.

* Status: proved
* Modelled: SchedModel.v: TaskList::process, the workers of the pool, queue, event, counter and results as a transition system; TaskListModel.v: how the list of tasks is made.
* Proof: Invariant: a task is only submitted when all results it waits for are successes.
* Theorems: `C09_failure_stops_dependents`, `C09_project_failure`
* Note: A task counts as failed also if it ends with an exception without recording a result.

### C10 Processing a task list does not get stuck

Provided that every started task finishes by recording success or failure, there is no reachable state in which the processing loop waits forever: from each reachable state some participant can make progress until processing has returned.

* Status: proved
* Modelled: SchedModel.v: TaskList::process, the workers of the pool, queue, event, counter and results as a transition system; TaskListModel.v: how the list of tasks is made.
* Proof: Progress lemma and a decreasing measure on steps other than spurious wakeups.
* Theorems: `C10_process_ends`, `C10_project_ends`
* Note: Proved under the weaker assumption that no task that others wait for ends without recording a result (see C11). Spurious wakeups may occur, but not forever.

### C11 Processing ends even if a task ends with an unexpected exception

If a task ends with an exception before recording any result, processing still terminates, with that exception.

* Status: partial
* Modelled: SchedModel.v: TaskList::process, the workers of the pool, queue, event, counter and results as a transition system; TaskListModel.v: how the list of tasks is made.
* Proof: Counterexample: after it, an invariant excludes every final state. The positive part uses the measure from C10.
* Theorems: `C11_ends_after_exception_refuted`, `C11_never_ends`, `C11_ends_after_exception_partial`
* Note: Refuted: if a task ends without recording a result and another task waits for it, processing never ends (C11_ends_after_exception_refuted, C11_never_ends). Holds if nobody waits for it (C11_ends_after_exception_partial).

### C12 The thread pool runs every submitted task exactly once, in order

Every task submitted to the pool is started exactly once, tasks are started in the order they were submitted, and all of them have finished when the pool's destructor returns.

* Status: proved
* Modelled: PoolModel.v: ThreadPool as a transition system (owner, workers, queue, exception slot, termination flag).
* Proof: Inductive invariant; progress; decreasing measure.
* Theorems: `C12_started_in_order_once`, `C12_all_done_when_destroyed`, `C12_no_idle_threads`, `C12_no_deadlock`, `C12_destructor_returns`

### C13 Pool errors are kept until collected

The exception that is collected from the pool is one thrown by a task that was executed since the previous collection, and if any task threw since then, collection returns one.

* Status: proved
* Modelled: PoolModel.v: ThreadPool as a transition system (owner, workers, queue, exception slot, termination flag).
* Proof: Inductive invariant relating the history of exceptions to the slot.
* Theorems: `C13_exceptions_are_kept`
* Note: The first exception wins, later ones are dropped. Tasks with a result object keep their exception there (C49).

### C14 A recipe is run exactly when needed

A task invokes its recipe if and only if recompilation is forced, the source file's rebuild policy is 'always', or its targets are not up to date; otherwise it succeeds without invoking anything. If the recipe's exit status is failure the task fails.

* Status: proved
* Modelled: BuildModel.v: isOlder, isNewer, isUpToDate, the decision in runIfNecessary and the process that is run; the file system is a function from path to status.
* Proof: Case analysis; induction over the trace of a run for the project-level theorem.
* Theorems: `C14_recipe_run_when_needed`, `C14_forced_build_runs_everything`
* Note: run_task covers runIfNecessary and the function run by the thread pool; writing the log is left out. Project-level theorem for forced builds.

### C15 Up-to-date means every target is newer than everything it is made from

A source file is considered up to date if and only if each of its non-directory targets exists and is strictly newer than the source file and than every non-external, non-directory file the target depends on, where a dependency that has gone missing does not count as newer.

* Status: proved
* Modelled: BuildModel.v: isOlder, isNewer, isUpToDate, the decision in runIfNecessary and the process that is run; the file system is a function from path to status.
* Proof: Induction over targets and dependencies; three valued logic for exceptions.
* Theorems: `C15_up_to_date_exact`, `C15_up_to_date_throws`, `C15_up_to_date_project`
* Note: Exact characterisation, the reasons for an exception, and the project-level consequence.

### C16 Comparing ages of files

isOlder and isNewer are strict comparisons of time stamps in which a missing file is treated consistently: they fail only if neither file exists, and they never both hold.

* Status: proved
* Modelled: BuildModel.v: isOlder, isNewer, isUpToDate, the decision in runIfNecessary and the process that is run; the file system is a function from path to status.
* Proof: Case analysis.
* Theorems: `C16_ages_compared`

### C17 Rebuilding without changes does nothing

If a build has completed successfully and each executed recipe left its targets strictly newer than its inputs, then a second build without any changes in between invokes no recipe except those with rebuild policy 'always' and those that directly or indirectly need something built by such a recipe.

* Status: proved
* Modelled: BuildModel.v: isOlder, isNewer, isUpToDate, the decision in runIfNecessary and the process that is run; the file system is a function from path to status. Runs of the scheduler model act on the file system.
* Proof: Invariant over the trace of a run: what has been completed is current.
* Theorems: `C17_build_leaves_everything_current`, `C17_second_build_does_nothing`
* Note: Assumes names in normal form, no target named as another source file, recipes write only their own targets, and leave them newer than the inputs on success.

### C18 Dry run executes nothing

With the dry-run flag set, executing a command starts no process and reports success.

* Status: proved
* Modelled: BuildModel.v: isOlder, isNewer, isUpToDate, the decision in runIfNecessary and the process that is run; the file system is a function from path to status.
* Proof: Case analysis with an arbitrary process.
* Theorems: `C18_dry_run_starts_nothing`, `C18_dry_run_task`
* Note: The effect of a process is an arbitrary function; with the flag set it is never applied.

### C19 C++ loader passes the source through unchanged

Filtering a C++ source file delivers to the source consumer exactly the bytes of the file, in order.

* Status: proved
* Modelled: LexModel.v: the state machines character by character. LexSpec.v: a grammar for the part of C++ that matters (comments, literals, raw strings, directives).
* Proof: Induction on the input.
* Theorems: `C19_cxx_source_unchanged`, `C19_extension_source_unchanged`

### C20 Tags keep their line and column positions

The tag stream delivered by filtering a C++ source file has the same number of lines as the file, and each character of a tag appears on the same line and in the same column as in the file; outside tags it only contains white space. JSON error positions therefore refer to the source file.

* Status: proved
* Modelled: LexModel.v: the state machines character by character. LexSpec.v: a grammar for the part of C++ that matters (comments, literals, raw strings, directives).
* Proof: Induction on the input with an invariant on lines and columns.
* Theorems: `C20_cxx_tag_positions`, `C20_extension_tags_exact`

### C21 Tags are found exactly in //@ comments

A C++ source line contributes to the tag stream iff it starts a //@ comment outside of string literals, character literals and block comments.

* Status: partial
* Modelled: LexModel.v: the state machines character by character. LexSpec.v: a grammar for the part of C++ that matters (comments, literals, raw strings, directives).
* Proof: Induction on the grammar, one lemma per kind of token and state. Missing: texts outside of `tame_text`, for which it is false.
* Theorems: `C21_cxx_tags_found_partial`, `C21_line_comment_refuted`, `C21_block_comment_refuted`, `C21_raw_string_refuted`, `C21_literal_refuted`
* Note: Exact for the #@ loader on all inputs. For C++, proved for every source text (cxx_source: C++ lexing with continued lines between tokens, digit separators and prefixed raw strings) in which comments and literals satisfy the side conditions in tame_text. The full statement is refuted: line comments containing /*, block comments ending in **/, raw strings containing ), literals ending in R.

### C22 Includes are found exactly where #include directives are

The dependencies extracted from a C++ source are exactly the operands of its #include directives, in order, where directives in comments and in string literals do not count.

* Status: partial
* Modelled: LexModel.v: the state machines character by character. LexSpec.v: a grammar for the part of C++ that matters (comments, literals, raw strings, directives).
* Proof: As for C21, with the place where the lexer is (beginning of a line, after the name of a directive, rest of the line) as an additional index. Missing: texts outside of `tame`; apart from line continuation in the middle of tokens these are the ones for which it is false, or where it holds by accident.
* Theorems: `C22_includes_found_partial`, `C22_after_endif_refuted`, `C22_after_comment_refuted`, `C22_pragma_refuted`, `C22_comment_refuted`
* Note: Proved for every source text (cxx_source) that satisfies the side conditions in tame, among them headers with include guards, nested conditionals, and macros over several lines. The full statement is refuted: directive without argument on the line before an include, include after a block comment on the same line, string operand of another directive, comments containing /*.

### C23 The FIFO delivers a byte stream unchanged

For one writer that writes non-empty chunks to the FIFO and then stops, and one reader reading with arbitrary buffer sizes, the reader receives exactly the concatenation of the written chunks and then end of file, regardless of how writes and reads interleave.

* Status: proved
* Modelled: IoModel.v: Fifo as a transition system between a writer and a reader, buffers as functions on lists of chunks.
* Proof: Invariant over all interleavings: what has been read, followed by what is stored, is what has been written.
* Theorems: `C23_fifo_delivers`, `C23_fifo_never_stuck`, `C23_fifo_terminates`, `C23_empty_chunk_refuted`
* Note: An empty write acts as end of file (C23_empty_chunk_refuted shows that the restriction to non-empty chunks is needed).

### C24 Buffered output followed by buffered input is the identity

Bytes put one by one in an output buffer on one end and read one by one through an input buffer on the other end arrive unchanged and in order, followed by end of file.

* Status: proved
* Modelled: IoModel.v: Fifo as a transition system between a writer and a reader, buffers as functions on lists of chunks.
* Proof: Induction on reads and writes.
* Theorems: `C24_buffers_deliver`, `C24_output_buffer`, `C24_input_buffer`
* Note: The reads issued by the input buffer are those of the FIFO model with constant size.

### C25 Every matching file of the source tree is loaded exactly once

A recursive scan collects exactly the accepted entries of the source tree, each once, regardless of the order in which worker threads process them, and does not return before all of them have been processed.

* Status: proved
* Modelled: ScanModel.v: tasks, the table of files, the counter of pending tasks and the exception list as a transition system on an abstract tree.
* Proof: Inductive invariant over all interleavings; decreasing measure.
* Theorems: `C25_everything_is_loaded_once`, `C25_errors_are_reported`, `C25_not_stuck`, `C25_terminates`
* Note: The source directory, once normalised, must not end with a slash; the file system does not change during the scan.

### C26 Two sources cannot claim the same target

Collecting the targets of all source files succeeds if and only if no two declared targets (other than a source file itself) have the same normalised path; if it succeeds, the result maps every declared target to its source file.

* Status: proved
* Modelled: FileListModel.v: from scanned files to the graph, function by function.
* Proof: Induction over the files.
* Theorems: `C26_targets_are_unique`

### C27 Placeholders are created exactly for external dependencies

Creating placeholders adds one entry with no targets for every dependency that is external (system or pkg-config) and not already known, never for other dependencies, and leaves existing entries unchanged.

* Status: proved
* Modelled: FileListModel.v: from scanned files to the graph, function by function.
* Proof: Induction over the files.
* Theorems: `C27_placeholders`

### C28 A target never depends on itself

The record generated for a target has the declared use dependencies plus those contributed by the files reachable from its source file, has its source file as only build dependency, and never lists the target itself unless its own declaration does.

* Status: proved
* Modelled: FileListModel.v: from scanned files to the graph, function by function.
* Proof: From C46.
* Theorems: `C28_target_not_its_own_dependency`

### C29 The most specific file-name extension selects the loader

The loader chosen for a file is the one registered for the longest dot-suffix of its full extension that is registered, and none if no suffix is registered.

* Status: proved
* Modelled: LoadModel.v: matchLongestExtension.
* Proof: Induction on the file name.
* Theorems: `C29_longest_extension`

### C30 Recipes are looked up in the project first

A recipe name resolves to the file in the project directory if it exists, otherwise to the one in the system directory, otherwise resolution fails; and the answer of a repeated query is the same as the first one.

* Status: proved
* Modelled: LoadModel.v: CommandDictionary, sequentially and with threads.
* Proof: Invariant over histories.
* Theorems: `C30_recipe_lookup`, `C30_concurrent_lookup`
* Note: Sequential history with changing file system, and any interleaving of threads with a fixed file system.

### C31 Merging configuration keeps everything that is not overridden

Merging configuration b into a yields a configuration in which arrays are concatenated, objects merged recursively, scalars taken from b, keys present only in one kept from it; merging is associative and the empty configuration is neutral; it fails iff a key has different kinds of values in the two.

* Status: proved
* Modelled: JsonModel.v: JSON values and the merge of compounds.
* Proof: Structural induction on values; associativity by induction on size.
* Theorems: `C31_merge`, `C31_associative`, `C31_empty_neutral`, `C31_files_merged_in_order`, `C31_failing_file_ignored_refuted`
* Note: true and false count as different kinds (see C45). C31_failing_file_ignored_refuted: a configuration file that fails to merge is reported, but the members before the offending one stay merged.

### C32 A malformed tag block is reported

Loading JSON from a non-blank text either yields a value or an error; it never silently yields an empty value.

* Status: partial
* Modelled: JLoadModel.v: the callback that feeds the decoder, with any decoder; then a decoder for a JSON grammar.
* Proof: Induction on the text in chunks. Missing: the texts named in the refutations.
* Theorems: `C32_total`, `C32_value`, `C32_value_sound`, `C32_error_sound`, `C32_reported_partial`, `C32_silent`, `C32_unclosed_refuted`, `C32_garbage_refuted`, `C32_control_refuted`
* Note: Refuted as stated: text that is not blank but has none of the characters }, ] and space, and is shorter than the buffer, or that follows a control character, silently yields nothing. Proved: when an error is reported, that these are the only exceptions, and that complete objects are always found.

### C33 Build ids survive printing and parsing

Parsing the printed form of a build id gives back the same id; a string is rejected if and only if one of its first 64 characters is not a hexadecimal digit.

* Status: proved
* Modelled: ValueModel.v: build ids.
* Proof: Induction on digits.
* Theorems: `C33_round_trip`, `C33_digits`, `C33_printed`, `C33_rejected_iff`
* Note: Also: short and over-long texts are accepted, and a last odd digit is dropped (Example odd_id).

### C34 Option values and lists are decoded faithfully

A comma separated list option is split at exactly the unescaped commas and escapes are removed, so any list of strings can be passed by escaping.

* Status: partial
* Modelled: CmdModel.v: the tokeniser for lists.
* Proof: Induction on the text.
* Theorems: `C34_total`, `C34_round_trip_partial`, `C34_every_list`, `C34_nothing_else`, `C34_elements`, `C34_empty_last_refuted`
* Note: Refuted for lists whose last element is empty (C34_empty_last_refuted); every list can be passed with a backslash at the end (C34_every_list).

### C35 Each command line argument is matched with the option it names

An argument whose name part is an option name sets exactly that option, the last occurrence winning; an argument whose name part is not the name of an option is rejected.

* Status: partial
* Modelled: CmdModel.v: lookup of options by lower_bound and prefix comparison, collection of values.
* Proof: Induction on arguments; exact conditions for acceptance and for the value of each option. Missing: rejection of abbreviations, which is false.
* Theorems: `C35_exact`, `C35_bad_value`, `C35_unknown_partial`, `C35_abbreviation`, `C35_accepted`, `C35_values`, `C35_rejected_refuted`, `C35_program_options`, `C35_switches`
* Note: Exact names are handled as claimed (C35_exact, C35_bad_value); that other names are rejected is refuted, since any beginning of an option name is accepted (C35_rejected_refuted, C35_abbreviation).

### C36 Thread count and time stamp options

Parsing a printed thread count gives back the same value, and the decimal number of seconds is understood as that time; a zero or negative thread count is rejected and the number of threads is never less than one; trailing garbage is rejected; the printed form of a time stamp is its date and time of day, so different seconds are printed differently.

* Status: partial
* Modelled: ValueModel.v, TimeProofs.v: thread counts and time stamps.
* Proof: Induction on digits; arithmetic of the calendar. Missing: garbage after a thread count, which is accepted.
* Theorems: `C36_thread_count_round_trip`, `C36_thread_count_accepted_partial`, `C36_thread_count_integer`, `C36_thread_count_positive`, `C36_thread_count_garbage_refuted`, `C36_time_stamp_accepted_iff`, `C36_time_stamp_decimal`, `C36_time_stamp_printed`, `C36_time_stamp_injective`
* Note: Refuted for trailing garbage in a thread count (atoi), C36_thread_count_garbage_refuted; everything else is proved.

### C37 Names of enumerated settings round-trip

For each enumerated setting (log format, log level, rebuild policy, source origin, extension replacement mode) printing then parsing is the identity, different values have different names, and unknown names are rejected.

* Status: proved
* Modelled: ValueModel.v: five enumerated settings.
* Proof: Case analysis.
* Theorems: `C37_names`
* Note: All five enumerated settings.

### C38 Printed commands can be read back unambiguously

Two different commands are never printed identically in the log, and every argument can be recovered from the printed form.

* Status: proved
* Modelled: LogModel.v: printing of commands.
* Proof: A reader for printed commands, shown to be a left inverse.
* Theorems: `C38_reads`, `C38_injective`, `C38_recover`

### C39 Owning wrappers release what they own exactly once

For any sequence of constructions, moves and destructions of the type-erased wrappers, each wrapped object is destroyed exactly once and none is used after it was destroyed; a scope exit handler is run exactly once.

* Status: partial
* Modelled: OwnModel.v: programs over variables, objects on the heap as numbered resources.
* Proof: Invariant over histories. Missing: move assignment of InputFile and ScopeExitHandler and copies of moved-from loaders, for which it is false.
* Theorems: `C39_function`, `C39_loader`, `C39_file_partial`, `C39_file_refuted`, `C39_scope_partial`, `C39_scope_refuted`, `C39_copy_refuted`, `C39_defined`
* Note: Proved for UniqueFunction and Loader for every program over variables of these types. For InputFile and ScopeExitHandler proved for programs without move assignment; with it a handle is closed twice (C39_file_refuted), or a handler is never run (C39_scope_refuted). Copying a moved-from Loader is undefined (C39_copy_refuted).

### C40 Log output keeps the text and marks every line

When the output of a tool is appended to a log record each of its lines appears once, in order, with the continuation prefix, and nothing else is added.

* Status: partial
* Modelled: LogModel.v: CompilationLog::write.
* Proof: Induction on the output. Missing: output with NUL characters and incomplete last lines.
* Theorems: `C40_lines`, `C40_every_text`, `C40_record_partial`, `C40_command`, `C40_skipped`, `C40_nul_refuted`, `C40_continued_refuted`
* Note: Lines are marked exactly as stated (C40_lines, for all texts). What is finally written is refuted for output with NUL characters (the rest is lost) and the record is not ended if the last line is incomplete.

### C41 Link order puts users before what they use, without duplicates

The linker recipe passes each implementation dependency exactly once, in such an order that if the dependency list has dependencies before dependents then every object precedes those it depends on.

* Status: partial
* Modelled: RecipeModel.v: what is passed to recipes, and the recipes cxx_linker.py, make_lib.py, cxx_compiler.py and generic.py.
* Proof: Induction on the dependencies, order preserved by filtering. Missing: dependencies declared in two ways.
* Theorems: `C41_once`, `C41_order`, `C41_started`, `C41_library`, `C41_reversed`, `C41_project`, `C41_missing_refuted`
* Note: Proved: each needed word is passed exactly once and nothing else (C41_once, C41_library), users precede what they use (C41_reversed, C41_project). Refuted: an object declared as implementation by one file and without relation by another may not be linked (C41_missing_refuted).

### C42 Merging compiler settings

Combining the default compiler of a loader with the compiler named in a file's tags takes the recipe and its origin from the tags if present there and from the default otherwise, and merges the configurations.

* Status: partial
* Modelled: LoadModel.v: operator| for compilers.
* Proof: Case analysis. Missing: configuration without recipe.
* Theorems: `C42_combined_compiler_partial`, `C42_origin_refuted`
* Note: The origin is wrong if the tags name a configuration but no recipe (C42_origin_refuted); proved otherwise.

### C43 Available memory is read from the right field

The memory query reports the number of bytes stated by the MemAvailable line wherever it occurs, and 0 if there is none.

* Status: partial
* Modelled: MemModel.v: the parser for /proc/meminfo.
* Proof: Induction on the text. Missing: the cases named in the refutations.
* Theorems: `C43_reported_partial`, `C43_absent`, `C43_far_refuted`, `C43_last_refuted`, `C43_unreadable_refuted`
* Note: Proved for a terminated line within the first 4096 bytes; zero is reported if there is none. Refuted: a line further away, a last line without line break, a file that cannot be read (undefined).

### C44 Search paths and target locations are computed consistently

A file's declared dependency './x' refers to x in the directory of the file, any other project dependency is relative to the source directory, and generated dependencies refer to the same location inside the target directory at which the corresponding target is placed.

* Status: partial
* Modelled: LoadModel.v: search paths and target locations; LocProofs.v: lexical operations on paths.
* Proof: Induction on path components. Missing: source directories that are not normalised. For references with steps upwards, see StepProofs.v.
* Theorems: `C44_locations`, `C44_targets_apart`, `C44_other_source_dir_refuted`, `C44_steps_local`, `C44_steps_global`
* Note: Proved for normalised source and target directories; refuted for other source directories such as ./foo.

### C45 A boolean setting can be overridden

A configuration read later can change a boolean setting made by a configuration read earlier.

* Status: partial
* Modelled: JsonModel.v: JSON values and the merge of compounds.
* Proof: Counterexample, for every pair of different boolean values.
* Theorems: `C45_boolean_can_be_overridden_refuted`
* Note: Refuted: the code throws 'Type mismatch'.

### C46 Loading a project fails for three reasons only

Given the source files found by the directory scan: if two targets have the same normalised name, loading fails and names one such target; otherwise, if the source file of some target directly or indirectly needs a file that needs itself, loading fails with a cycle error; otherwise, if something needed by a source file or generated file is neither a source file nor a target nor external, loading fails to resolve; otherwise loading succeeds, the graph has exactly the source files, targets and external files as nodes, source files keep their records, and every dependency in it refers to the node it names.

* Status: proved
* Modelled: FileListModel.v: from scanned files to the graph, function by function.
* Proof: Each stage is specified, and the specifications composed.
* Theorems: `C46_loading_a_project`
* Note: Starts after the directory scan. A declared target whose normalised name is that of a source file is not generated: the record of the source file is kept (map::insert).

### C47 Building a target builds exactly what the target needs

The task list for a target consists of exactly those source files with targets that the target's source file directly or indirectly depends on (including itself); the list without a target consists of all source files with targets. Construction fails exactly when there is a dependency cycle (among the files concerned). Nothing outside of the list is ever started.

* Status: proved
* Modelled: SchedModel.v: TaskList::process, the workers of the pool, queue, event, counter and results as a transition system; TaskListModel.v: how the list of tasks is made.
* Proof: From C03 and the invariant of record_node.
* Theorems: `C47_tasks_of_a_project`, `C47_tasks_of_a_target`, `C47_target_built`, `C47_nothing_else_started`

### C48 No worker is left behind when processing returns or throws

When processing of a task list ends, normally or by an exception, every task that was started has finished, nothing remains in the queue, and no worker still refers to the local synchronisation objects.

* Status: proved
* Modelled: PoolModel.v: ThreadPool as a transition system (owner, workers, queue, exception slot, termination flag).
* Proof: Invariant over all interleavings including the destructor.
* Theorems: `C48_no_thread_left_behind`
* Note: Assumes that the captures of the function object are destroyed in reverse order of declaration.

### C49 Everybody who waits for the result of a task gets it

Threads that ask for the result of a task submitted to the pool do not get anything before it has ended; once it has ended, each of them gets the value it returned or the exception it threw.

* Status: partial
* Modelled: PoolModel.v: AsyncTaskResult with several readers.
* Proof: Invariant; counterexample with two readers. Missing: more than one reader.
* Theorems: `C49_nothing_before_the_result`, `C49_readers_get_the_result`, `C49_single_reader_returns_partial`, `C49_all_readers_return_refuted`
* Note: Refuted for two or more readers: only one of the waiting threads is woken (C49_all_readers_return_refuted). Holds for a single reader (C49_single_reader_returns_partial).

### C50 An incremental build is complete and minimal

After a successful build, if one file that is not itself built changes, the next build that succeeds rebuilds every source file that has a target which is missing, or not newer than the source file or something it directly or indirectly needs; and it rebuilds nothing that is not made from the changed file, directly or indirectly (except because of rebuild policy 'always').

* Status: proved
* Modelled: BuildModel.v: isOlder, isNewer, isUpToDate, the decision in runIfNecessary and the process that is run; the file system is a function from path to status.
* Proof: From C17, with the set of files changed since the previous build.
* Theorems: `C50_rebuild_minimal`, `C50_rebuild_complete`
* Note: Same assumptions as C17.

### C51 Files depend on the directory they are in

A scanned source file of a known type, or directory, other than the source directory itself and the recipe that makes directories, depends on the directory that contains it; a file whose type is not known has neither dependencies nor targets.

* Status: proved
* Modelled: LoadModel.v: createTargets/load for one file.
* Proof: Case analysis.
* Theorems: `C51_depends_on_directory`, `C51_unknown_extension`

### C52 Files depend on the recipe that compiles them

If a source file is compiled by a recipe, that recipe is among the dependencies of the source file, so that changing the recipe causes a rebuild.

* Status: partial
* Modelled: LoadModel.v: as for C51.
* Proof: Case analysis. Missing: tags with a compiler but without recipe.
* Theorems: `C52_depends_on_recipe_partial`, `C52_depends_on_recipe_refuted`
* Note: Refuted when the tags have a compiler without a recipe; proved otherwise.

### C53 Printed commands can be pasted into a shell

A command as printed in the log, when passed to a POSIX shell, is split into the very words of the command.

* Status: partial
* Modelled: LogModel.v; LogSpec.v: how a shell reads words; ScriptSpec.v: how a shell reads a script.
* Proof: Induction on characters. C53_shell_exactly: the shell reads the command that is run if and only if no word has a backslash or a single quotation mark. Missing: the other commands, for which the claim is thereby refuted.
* Theorems: `C53_shell_partial`, `C53_shell_refuted`, `C53_shell_exactly`
* Note: Refuted: backslashes and quotes are not escaped in the way shells require. Proved for words without them, and that the claim fails for every command with one of them.

### C54 Log level 'errors' prints nothing but errors

With the log level set to errors, nothing is written to stdout, and stderr gets what the tools wrote to their stderr.

* Status: partial
* Modelled: LogModel.v: the log levels.
* Proof: Case analysis and induction on the lines. Missing: regular output and empty lines.
* Theorems: `C54_quiet_partial`, `C54_stderr`, `C54_quiet_refuted`
* Note: Refuted: skipped tasks cause an empty line and the standard output of tools is written. Proved: standard error is exact at all levels.

### C55 The output and the result of a tool are captured completely

However a tool interleaves its writes, and however large they are, running it does not block forever, everything it wrote to stdout and to stderr has been captured when the call returns, and the exit code or signal is reported as it was.

* Status: proved
* Modelled: ExecModel.v: child, pipes with bounded capacity, two reader threads and the calling thread as a transition system.
* Proof: Inductive invariant; decreasing measure; exit status by arithmetic on the wait status.
* Theorems: `C55_captured`, `C55_no_deadlock`, `C55_bounded`, `C55_exit_code`, `C55_killed`

### C56 A tool that reads its standard input sees the end of it

Running a tool that reads from its standard input returns: as no input is provided, the tool gets to see the end of the input.

* Status: partial
* Modelled: ExecModel.v: child, pipes with bounded capacity, two reader threads and the calling thread as a transition system.
* Proof: A state from which no final state is reachable, for every child that reads its standard input.
* Theorems: `C56_input_refuted`
* Note: Refuted for every tool that waits for input.

### C57 A recipe is told everything about its task

The command that builds a file runs the recipe of its effective compiler, or the file itself if it has none, with 'compile' and one JSON object, which states the source file, all targets in order, all dependencies in order with name, origin and properties, the effective compiler configuration, the task id, and the log format.

* Status: partial
* Modelled: RecipeModel.v: what is passed to recipes, and the recipes cxx_linker.py, make_lib.py, cxx_compiler.py and generic.py.
* Proof: Case analysis over JSON construction. Missing: names that are not UTF-8.
* Theorems: `C57_told`, `C57_self`, `C57_name_refuted`
* Note: Proved for names that are valid UTF-8; refuted otherwise: the key is omitted silently (C57_name_refuted).

### C58 A recipe fails if a tool it runs fails

A recipe that comes with maike exits with status 0 iff every tool it has to run has been run and succeeded.

* Status: partial
* Modelled: RecipeModel.v: what is passed to recipes, and the recipes cxx_linker.py, make_lib.py, cxx_compiler.py and generic.py. MarkModel.v: md2htmlpart.py and doc2html.py.
* Proof: Case analysis over return codes. Missing: the generic recipe and md2htmlpart.py, which ignore the results of their tools.
* Theorems: `C58_pandoc_refuted`, `C58_xsltproc`, `C58_run`, `C58_compile`, `C58_generic_refuted`
* Note: Proved of the linker, archiver and compiler recipes and doc2html.py, as an equivalence; refuted for generic.py and md2htmlpart.py, which ignore the result of their tool.

### C59 Compiler flags are passed as configured

The flags listed in the configuration are passed to the compiler, in the same order, each as many times as it is listed.

* Status: partial
* Modelled: RecipeModel.v: what is passed to recipes, and the recipes cxx_linker.py, make_lib.py, cxx_compiler.py and generic.py.
* Proof: Induction over the flags. Missing: repeated flags.
* Theorems: `C59_flags_partial`, `C59_flags_refuted`
* Note: Proved if no flag is repeated; refuted in general: repeated words are dropped.

### C60 The selected revision of the C++ standard is within the configured limits

If some compiler supports a revision within the given limits, then a compiler is selected together with a revision (possibly its default) within the limits; both limits are optional.

* Status: partial
* Modelled: RecipeModel.v: what is passed to recipes, and the recipes cxx_linker.py, make_lib.py, cxx_compiler.py and generic.py.
* Proof: Induction over candidates. Missing: see the refutations.
* Theorems: `C60_within_partial`, `C60_max_refuted`, `C60_broken_refuted`, `C60_oldest_refuted`
* Note: What is selected is within the limits (C60_within_partial); refuted: an upper limit alone never works, one broken compiler makes it fail, the candidate with the least support is selected.

### C61 The output of a recipe is read as it is

When a recipe is asked for its configuration or for the tags of a file, the JSON value that it prints is what is used, regardless of its size and of what surrounds it; output without a value is taken as such, or reported.

* Status: partial
* Modelled: OutputModel.v: BufferReader and the loop that reads from it.
* Proof: From C32; counterexamples by an invariant of the endless loop. Missing: output beyond the first buffer.
* Theorems: `C61_short_partial`, `C61_malformed_partial`, `C61_long_refuted`, `C61_blank_refuted`
* Note: Proved for values within the first 4096 bytes of output, and for output that is not a sequence of values, which is rejected; refuted for longer output and for output that consists of line breaks, which are read forever, as the read offset is never advanced.

### C62 A dumped configuration can be loaded again

The file written with --configdump, given as the only configuration file, is loaded without any message and yields the same configuration: the same filters, extensions, loaders with their settings, and compilers. This holds for every configuration that was itself loaded from files, and for the default configuration.

* Status: proved
* Modelled: CfgModel.v: conversion of the configuration from and to JSON, default values, reading of files.
* Proof: Induction over the maps and lists of a configuration.
* Theorems: `C62_round_trip`, `C62_loaded`
* Note: The text written by jansson is taken to be read back as the same value, with members in sorted order. What std::regex accepts is a parameter.

### C63 A project is only built with the configuration it has been given

If the configuration cannot be used, because a setting is missing or has the wrong type, then this is reported, and the program stops.

* Status: partial
* Modelled: CfgModel.v: conversion of the configuration from and to JSON, default values, reading of files.
* Proof: Case analysis; counterexample.
* Theorems: `C63_given_or_default_partial`, `C63_stops_refuted`
* Note: Refuted: the default configuration is used instead (C63_stops_refuted); proved that it is either the given one or the default one, and that an error is reported in the latter case.

### C64 A file is loaded in the way its extension has been configured for

Each configured extension is associated with the loader it names, with the settings and the compiler of that loader, where the recipe of the compiler has been located; an extension that names a loader which has not been configured is an error. A file is processed by the loader for the longest of its extensions.

* Status: proved
* Modelled: CfgModel.v: conversion of the configuration from and to JSON, default values, reading of files.
* Proof: Induction over the map of extensions.
* Theorems: `C64_loaders_mapped`, `C64_loader_of_file`, `C64_recipes_resolved`, `C64_own_recipe`

### C65 Asking for information does not build anything

If one of the options that print something and exit is given (help, version, about, configuration, list of targets, dependency graph in either direction, database, external dependencies), nothing is built. If it is about the program itself, nothing but printing happens, and printing the configuration does not start any process.

* Status: partial
* Modelled: MainModel.v: main as a function from environment and arguments to events and exit status; TaskList::process and the scanner are fields of the environment, required to be executions of their models (`genuine`).
* Proof: Case analysis over the phases of main. Missing: three options for which it is false.
* Theorems: `C65_program_information`, `C65_no_build_partial`, `C65_configdump`, `C65_still_builds_refuted`
* Note: Proved for help, version, about, configuration, list of targets and dependency graph. Refuted for --print-dep-graph-inv, --dump-database and --list-external-deps: these are accepted, print nothing, and a complete build is run.

### C66 Output goes to the file that is given

Options that print something print it to the file that is given as their value, and to standard output if there is none.

* Status: partial
* Modelled: MainModel.v: main as a function from environment and arguments to events and exit status; TaskList::process and the scanner are fields of the environment, required to be executions of their models (`genuine`).
* Proof: Case analysis over the phases of main. Missing: everything about files, it is false.
* Theorems: `C66_standard_output_partial`, `C66_file_refuted`
* Note: Refuted: the names of files are accepted and ignored, everything is written to standard output (proved for all command lines).

### C67 A dry run starts no process

With the dry run option, no process is started; the option, and the one that forces a rebuild, affect all tasks when they are given, and none otherwise.

* Status: partial
* Modelled: MainModel.v: main as a function from environment and arguments to events and exit status; TaskList::process and the scanner are fields of the environment, required to be executions of their models (`genuine`).
* Proof: Case analysis over the phases of main. Missing: recipes that are run while loading.
* Theorems: `C67_flags`, `C67_processes_partial`, `C67_recipes_run_refuted`
* Note: Proved: the flags reach all tasks exactly when given, and in a dry run no process is started by a task. Refuted in full: recipes are run while the configuration and the source files are loaded.

### C68 The exit status tells whether the build succeeded

The exit status of the program is 0 or 255. If it is 0 after a build of everything, then a task has been completed for each source file with targets, and for no other file. If any task failed, it is not 0. If it is not 0 although the command line was valid, then there was no list of files, they did not make up a project, there was a cyclic dependency, a target that does not exist was asked for, or a task failed.

* Status: proved
* Modelled: MainModel.v: main as a function from environment and arguments to events and exit status; TaskList::process and the scanner are fields of the environment, required to be executions of their models (`genuine`).
* Proof: From C08, C09, C46 and C47, composed through main.
* Theorems: `C68_status_values`, `C68_success`, `C68_failure`, `C68_reasons`
* Note: Reading of the configuration, resolution of recipes, the scanner and TaskList::process are parameters here; the latter has to be an execution of the scheduler model (hypothesis genuine).

### C69 Asking for targets builds these targets, and what they need

If a list of targets is given, and the exit status is 0, then each of them is a target of the project, and everything that it needs directly or indirectly has been built. Whatever the exit status, nothing is started which is not needed by one of them. A name that is not the name of a target leads to an exit status other than 0.

* Status: proved
* Modelled: MainModel.v: main as a function from environment and arguments to events and exit status; TaskList::process and the scanner are fields of the environment, required to be executions of their models (`genuine`).
* Proof: From C47, composed through main.
* Theorems: `C69_targets_built`, `C69_nothing_else`, `C69_unknown_target`
* Note: As for C68.

### C70 A target in the list of targets can be built by its name

The list of targets consists of each target of the project once, relative to the target directory, and a name from the list can be used to ask for that target.

* Status: partial
* Modelled: MainModel.v: main as a function from environment and arguments to events and exit status; TaskList::process and the scanner are fields of the environment, required to be executions of their models (`genuine`).
* Proof: Lemmas on relative paths from C44. Missing: the cases named in the refutations.
* Theorems: `C70_list`, `C70_names_partial`, `C70_directory_refuted`, `C70_dot_refuted`
* Note: Proved for targets inside a target directory given by a normalised path other than '.'. Refuted for the top directory, which is listed as '.' but not accepted, and for every target if the directory is given as ./build.

### C71 The printed dependency graph is complete and exact

The dependency graph that is printed has exactly one edge from a file to another one if the former depends directly on the latter, and no other edge.

* Status: proved
* Modelled: MainModel.v: main as a function from environment and arguments to events and exit status; TaskList::process and the scanner are fields of the environment, required to be executions of their models (`genuine`).
* Proof: Invariant of insertion into a sorted set.
* Theorems: `C71_graph`
* Note: The text of the dot file is not modelled, only the set of edges that is printed.

### C72 The source and target directories are those asked for

The directory that is scanned is the one given by the user, or else the current directory. The directory for targets is the one given by the user, or else the documented default, __targets.

* Status: partial
* Modelled: MainModel.v: main as a function from environment and arguments to events and exit status; TaskList::process and the scanner are fields of the environment, required to be executions of their models (`genuine`).
* Proof: Exact conditions for options from C35. Missing: the default with --source-dir, which is another one.
* Theorems: `C72_directories_partial`, `C72_default_refuted`
* Note: Refuted: with --source-dir=foo and no --target-dir, foo_targets in the current directory is used, which is not the documented default.

### C73 Tools that run at the same time do not disturb each other

When several tools are run at the same time, each call gives exactly the output of its own tool. A tool is reported as impossible to launch only if it is. If all tools end, then all calls end: calls and tools never wait for each other in a circle.

* Status: proved
* Modelled: ForkModel.v: any number of threads in execve, with their children and reader threads, as a transition system; descriptors that children inherit from other calls.
* Proof: Invariants over all interleavings: what has been captured and is in a pipe is what has been written so far; a process inherits the error pipe only of calls whose process is created later, since that pipe is closed before the lock is released; the oldest process can always go on; each step decreases a measure.
* Theorems: `C73_separate`, `C73_failed`, `C73_no_deadlock`, `C73_bounded`

### C74 A call returns when its tool has ended

A call that runs a tool returns as soon as this tool has ended, no matter how long other tools run.

* Status: partial
* Modelled: As C73.
* Proof: A call can return on its own if no running process has its descriptors; which processes have them, and that they must exit first. Missing: the rest, which is refuted.
* Theorems: `C74_prompt_partial`, `C74_inherited`, `C74_waits`, `C74_prompt_refuted`
* Note: refuted in general: a call waits for processes that were created while it had its pipes open

### C75 No process is left behind

When a call that runs a tool has ended, in whatever way, the process that it created has exited, and the system has been told to forget about it.

* Status: partial
* Modelled: As C73; `waited_for` says that waitpid has returned.
* Proof: By cases from the invariant of C73. Missing: tools that can not be launched, for which it is refuted.
* Theorems: `C75_cleaned_up_partial`, `C75_cleaned_up_refuted`, `C75_still_running_refuted`
* Note: refuted for tools that can not be launched

### C76 The directory for a target exists when its recipe runs

When a recipe is run, the directories into which its targets go exist: for each directory of the project, the corresponding directory below the target directory is made before anything is built from the files in it.

* Status: partial
* Modelled: TreeModel.v puts ScanModel.v and LoadModel.v together (which file is loaded as what), and adds recipes/make_directory.py. TreeSpec.v: a build where the recipe for directories is that one, and other recipes may do anything to the targets of their own tasks.
* Proof: The scan (C25) gives an entry for the directory of each file, whose only target is the corresponding directory (C44); the file depends on it (C51), so its task has succeeded before (C07); an invariant over the build shows that the target of a directory that has succeeded is a directory, and stays one. Missing: names of targets with a directory part, and plain files in place of directories, for which it is refuted.
* Theorems: `C76_directory_exists_partial`, `C76_subdirectory_refuted`, `C76_file_in_the_way_refuted`
* Note: Proved for targets without a directory part, if no plain file is in place of a directory that has to be made. The full statement is refuted.

### C77 A build does not change what the project consists of

If a project is scanned, built, and scanned again, then the second scan finds the same source files, with the same targets and dependencies, as the first one: what is built never becomes part of the project.

* Status: partial
* Modelled: As C76. AgainSpec.v says how names in directories relate to the files there, and what it means that the target directory is left out of the scan. Paths that are different in normal form are taken to be different files (so --target-dir with an absolute path into the source directory is not covered).
* Proof: A build changes targets only (induction over the build). A file that belongs to the project is reached through names that are not filtered out, so it is not in the target directory, and nothing about it has changed; hence it belongs to the project at the other time too (induction over how it is found). By C25, both scans return exactly these files. Missing: target directories that are not left out, for which it is refuted.
* Theorems: `C77_same_project_partial`, `C77_filtered`, `C77_same_project_refuted`
* Note: Proved for target directories that are left out of the scan by the filters, or are not in the source directory. The full statement is refuted.

### C78 A generic rule makes one file from each file

If an extension is handled by the generic loader, then each file with that extension has exactly one target, whatever the file contains. The target is at the same place in the target directory, and has the name of the file with the configured extension appended, or, if so configured, replaced. Different files have different targets.

* Status: partial
* Modelled: KindModel.v has the loaders that a configuration refers to (all six kinds, together with LexModel.v), and SourceFileLoaderDelegator::load with them. Printing and parsing JSON are functions; that they fit together is a hypothesis (`reads_back`).
* Proof: Which loader handles a file follows from C64. The computed name is compared with an inductive description of appending and replacing extensions; the place follows from C44. That only UTF-8 is accepted by jansson's check is proved in Utf8Proofs.v, in both directions. Missing: names that are not UTF-8, for which it is refuted; replaced extensions may give the same target, which is refuted as well.
* Theorems: `C78_one_result_partial`, `C78_not_text`, `C78_apart`, `C78_configured`, `C78_apart_refuted`, `C78_one_result_refuted`
* Note: Files whose name is not valid UTF-8 are excluded, and make loading the project fail; with replaced extensions, two files may have the same target. Both refuted.

### C79 What a source file declares and includes is known to the build

Every target that is declared in the tags of a file (comments in C++ and in scripts, the whole text in rule files) is known, at the place in the target directory that corresponds to the file; and a C++ file depends on everything it includes, at the place that the directive refers to.

* Status: partial
* Modelled: The models in LexModel.v, JLoadModel.v (jansson is any decoder that skips white space), LoadModel.v and KindModel.v, put together. FoundSpec.v says what the tags of a file are, in terms of its lines, or of the items of a C++ text.
* Proof: What is in the stream of tags follows from C20 and C21; white space in front of the tags is skipped, so that C32 gives the first object, whatever follows; then the declared names are followed through the interpretation of the tags, and C44 gives the places. The includes follow from C22. Missing: C++ texts that are not tame (as for C21 and C22), control characters other than white space, and tags after the first object; the last two are refuted. That tags which are not an object are not ignored follows from the same steps (C79_not_object).
* Theorems: `C79_targets_partial`, `C79_includes_partial`, `C79_not_object`, `C79_second_object_refuted`, `C79_form_feed_refuted`
* Note: For C++ texts that are tame (see C21, C22), without control characters other than white space, and the first JSON object in the tags. Refuted for a second object and for a form feed.

### C80 Programs are linked with everything they need

If a file is linked, then its recipe is told about all object files and libraries that the program needs: those that have been declared for the target, those that are asked for by included headers, directly or not, and those that are needed by these. All of them that belong to the project have been built when the recipe runs. A file is linked if its settings say so.

* Status: partial
* Modelled: The models in FileListModel.v, DepGraphModel.v, TaskListModel.v, SchedModel.v and KindModel.v. LinkSpec.v says what a target uses, and, by induction, what it needs.
* Proof: The effect of the loop in addTargetDepsToSourceFiles is computed exactly (what has been changed before does not matter, as targets are not linked themselves). What a target needs is then reachable in the graph from its source file, so that C06 gives that the recipe is told, and C07 that it has been built. Missing: files with settings of their own, and implementations that use each other; both are refuted.
* Theorems: `C80_linked_partial`, `C80_exact`, `C80_who`, `C80_own_settings_refuted`, `C80_mutual_refuted`
* Note: Refuted for files that are linked because of settings in their own tags, and for implementations that use each other (the project can not be built).

### C81 A failure is not forgotten

If the recipe of a file fails during a build, or the build is interrupted while it runs, then a later build of the same project, with the files left as they are, does not succeed without running this recipe again, with success.

* Status: partial
* Modelled: The task list and the thread pool (SchedModel.v), the decision of each task (BuildModel.v), a disk with times of files. FailSpec.v extends the executions of C50 with a note of the disk at the end of each task. MakeModel.v: cxx_compiler.py.
* Proof: Invariant: targets of a task that has ended are not written by others, so that the decision of the second build is made on what the failed recipe has left, or on something older. Conversely, if the targets are up to date, the same decision is made as if the recipe had succeeded. Missing: recipes that fail after having made their targets; refuted, also for cxx_compiler.py with a program that is run, or clang-tidy.
* Theorems: `C81_run_again_partial`, `C81_interrupted_partial`, `C81_forgotten`, `C81_failure_refuted`, `C81_test_program`
* Note: Refuted for recipes that fail after they have made their targets, such as cxx_compiler.py when the program that it runs fails.

### C82 A recipe that succeeds has made all of its targets

If a recipe that comes with maike and is told to compile a file exits with status 0, then all of the targets it has been told about exist, with the content that has been made from the source file.

* Status: partial
* Modelled: MakeModel.v: files by name with contents; the tools are parameters that map files to files and a return code.
* Proof: Induction over the targets. Missing: header files with targets, and more than one target of the linker and the archiver; both are refuted.
* Theorems: `C82_copied`, `C82_converted`, `C82_copy_succeeds`, `C82_copy_leaves`, `C82_convert_succeeds`, `C82_compiled_partial`, `C82_compile_succeeds`, `C82_header_refuted`, `C82_linked_partial`, `C82_archived_partial`, `C82_tool_succeeds`, `C82_linker_refuted`, `C82_archiver_refuted`
* Note: Refuted for header files with targets, and for the second target of the linker and the archiver.

### C83 A document depends on what it refers to

If a document is built by doc2html.py, then each file that it refers to by means of an attribute src or href, at any depth, is a dependency of the document, so that it exists when the document is built, and is built if it has to be. References to resources outside of the project are no dependencies.

* Status: partial
* Modelled: DocModel.v: the tree of elements with attributes, and the regular expression for external resources, are modelled; parsing of XML and what xsltproc does are not. The tags are passed on to the model of the loader (LoadModel.v, KindModel.v) and of the list of files.
* Proof: Induction over documents; the regular expression is shown to accept exactly small letters followed by ://. The paths come from C44, and the failure of loading from C46. Missing: references that are relative to the document, but do not start with ./ , and external references of other forms; both refuted. A document that is not well-formed keeps the project from being loaded (C83_malformed).
* Theorems: `C83_tags`, `C83_depends_partial`, `C83_only`, `C83_unknown`, `C83_malformed`, `C83_depends_refuted`, `C83_external_refuted`
* Note: Refuted for references that do not start with ./, and for external references such as mailto:.

### C84 Converting Markdown loses no text

The result of md2htmlpart.py has the same text as the Markdown file, from the beginning to the end, where headings have become titles of sections. If the recipe fails, then it leaves no target behind.

* Status: partial
* Modelled: MarkModel.v: trees of ElementTree with texts and tails, the loop over sections, and writing the tree, including how far it gets. pandoc and the XML parser are parameters; escaping is any function with the properties stated in MarkSpec.v.
* Proof: Induction over trees. The result is read by a small reader of tags and text, that is a part of the specification. C84_headings_anywhere: wherever the headings are in the tree, their titles are in the result. Missing: markup in headings; refuted, also for what is left behind by a failure.
* Theorems: `C84_text_partial`, `C84_headings_anywhere`, `C84_text_refuted`, `C84_partly_written_refuted`
* Note: Refuted for headings that contain markup.

### C85 Version information is recorded, and kept

vcslog.py records the state of the repository of the project. If there is no repository, then the information that was recorded last for the source directory is used, so that it also is available in a release.

* Status: partial
* Modelled: VcsModel.v: files by name, the repository and JSON are parameters.
* Proof: Induction over later runs. Missing: other working directories; refuted.
* Theorems: `C85_recorded_partial`, `C85_kept`, `C85_repository_refuted`
* Note: Refuted for other working directories; keeping the information is proved in general.

### C86 The log consists of whole records, one for each task

When a build returns, the log has one whole record for each task, not mixed with the records of others, and the record of a file comes after the records of everything it needs. After a failed build, this is so for all tasks that were run to their end or skipped. At any time, the log consists of whole records and the beginning of at most one more. Waiting for the log does not keep a build from ending.

* Status: proved
* Modelled: WriteModel.v: the mutex of the log and what the threads put into stdout and stderr, character by character, on top of the model of the thread pool (SchedModel.v). The texts of the records are those of LogModel.v (C39). Errors of fputs and buffering are not modelled.
* Proof: Invariant over all steps: the owner of the mutex is the only task in the middle of its record, and the records written so far are those of an order of tasks that have been started. The order of dependencies comes from C02, and the end of the build from C05, with a measure that includes the characters yet to be written.
* Theorems: `C86_one_record_each`, `C86_failed_build`, `C86_any_time`, `C86_ends`

### C87 A job has the parameters given on the command line

If the value of an option is not of the kind the option expects, such as a number of workers that is not a number, the program does nothing and fails. Otherwise the number of threads, the start time, the build id, the level and the format of the log, and the directories are the ones given last; without them they are the number of processors, the current time, a random id, and the defaults. Recipes are told these values, and a recipe that starts another build with the time and the id it was told gets a build with the same time and the same id.

* Status: partial
* Modelled: JobModel.v: the value of each option (ValueModel.v) in the table of options of MainModel.v, and what `main` and `makeBuildInfo` make of it. The time, random bytes, host name, number of processors and isatty are parameters. A value out of the range of its type is a result of its own (`JobUndefined`).
* Proof: The texts that are accepted are characterised for each option (`acceptable`), for both directions; the command line theorems (C35) give the last value. Missing: numbers followed by something else, numbers out of range, and short ids are not rejected; refuted.
* Theorems: `C87_rejected_partial`, `C87_accepted`, `C87_workers`, `C87_start_time`, `C87_id`, `C87_log`, `C87_directories`, `C87_told`, `C87_passed_on`, `C87_number_refuted`, `C87_range_refuted`, `C87_short_id_refuted`
* Note: Numbers followed by something else, numbers out of range, and short ids are not rejected (refuted). All other parts are proved.

### C88 Lists of targets and dependency graphs can be read by other programs

When the program is asked for the targets, each line of standard output is a comment, that is, it begins with a hash sign, or the name of a target, and each target has exactly one line. When the program is asked for the dependency graph, standard output is a text in the language of dot, comments included, and the edges of the graph are the dependencies.

* Status: partial
* Modelled: ShowModel.v: the text printed by `printTargets` and `printDepGraph` and the lines before it (the parameters of the job, C87), for the targets and edges of MainModel.v. The specification contains a reader for a part of the language of dot.
* Proof: The lines before the list are shown to be comments (the numbers, the date and the id contain no line break); the text of the graph is read by the reader of the specification, by induction on the edges. Combined with what is known about the targets and edges (C70, C71). Missing: names with line breaks or a hash sign at the beginning, and names with quotes or backslashes; refuted.
* Theorems: `C88_targets_partial`, `C88_graph_partial`, `C88_newline_refuted`, `C88_hash_refuted`, `C88_quote_refuted`
* Note: names with line breaks, hash signs, quotes or backslashes are not printed properly; refuted

### C89 Options that have been given are reported in a form that can be used again

Unless it prints a text about itself, the program reports each option that it has been given once, on a line of its own on standard error, together with a text for its value. When the program is started with this text as an additional argument, it behaves in the same way. When it prints a text about itself, it reports nothing.

* Status: partial
* Modelled: ShowModel.v: `print` for each type of value and `forEachOption`, starting from the command line. A list is printed with a null pointer for the name, which is a result of its own (`ReportUndefined`).
* Proof: Each printed value is accepted by its option and converted to the same value (C35-C37); the job and the program depend on the values of the options only, so that repeating one of them changes nothing. Missing: lists, and the start time, which is printed as a date; refuted.
* Theorems: `C89_reported_partial`, `C89_silent`, `C89_list_refuted`, `C89_start_time_refuted`
* Note: lists (undefined behaviour) and the start time (printed as a date) cannot be used again; refuted

### C90 The help text agrees with the options

The help text has one section for each category of options. Each option is listed exactly once, in the section for its category, and the type of its value is explained exactly once. An option listed without a value is accepted without a value and rejected with one; an option listed with a value is rejected without one; an option listed with an optional value is accepted either way.

* Status: proved
* Modelled: HelpModel.v: the insertion sort of the options by category and name, the sorted list of types without repetitions, and `printHelp`, for any table of options; categories, types and names of the options of the program. Summaries and explanations are parameters.
* Proof: The sort is shown to give a sorted permutation; consecutive options of one category form a section, by induction on the sorted list. How an option is listed is compared with what the command line accepts (C27, C87), for any other arguments.
* Theorems: `C90_structure`, `C90_usage`

### C91 Waiting for a counter ends when the counter has the value

The value of a signaling counter is its initial value plus the number of increments minus the number of decrements. A call that waits for a value returns only if the counter had this value after the call. When the counter has reached a value and keeps it, all threads that wait for this value return.

* Status: partial
* Modelled: SyncModel.v: SignalingCounter on its own, with any number of threads that wait, each for a value of its own, and may do so repeatedly. Overflow is not modelled.
* Proof: Induction on the sequence of steps; with a single thread that waits, it is blocked only while the counter has another value. Missing: several threads that wait at the same time, for which it is false, as only one of them is notified.
* Theorems: `C91_value`, `C91_not_early`, `C91_single_partial`, `C91_all_return_refuted`
* Note: Refuted for two or more threads that wait: only one of them is notified (C91_all_return_refuted). All other parts are proved.

### C92 An event that has been set releases one of the threads that wait

Each return from waitAndReset belongs to a call to set of its own, made after the previous return. If an event has been set since the last return and threads wait for it, no matter how many, then one of them is able to return.

* Status: proved
* Modelled: SyncModel.v: Event on its own, with any number of threads that wait, and may do so repeatedly.
* Proof: Invariant: if the event is set and a thread is blocked, then another one is about to look at the event.
* Theorems: `C92_one_each`, `C92_not_missed`
* Note: All parts, for any number of threads.

### C93 The program tells what it was built from

The version and the description that a built program prints are those of the build: the tag and the commit of the working copy, the time when the build was started, the id of the build, the host, the description, the license, and for each holder of a copyright the years in order and the name.

* Status: partial
* Modelled: AboutModel.v: the file written by about.py, and the texts printed by printVersion and printAbout. How a compiler reads the definitions in the file is a specification of its own (AboutSpec.v). Not modelled: missing members and members that are not texts.
* Proof: The reading of a file is unique, and is known for the file written by about.py. Missing: texts with quotes, backslashes or line breaks, which are put into literals as they are.
* Theorems: `C93_compiles_partial`, `C93_version_partial`, `C93_about_partial`, `C93_quote_refuted`, `C93_backslash_refuted`
* Note: Texts without quotes, backslashes and line breaks. Otherwise refuted.

### C94 A setting that is not understood is reported

A source file is accepted only if each setting in its tags is known and has the form it should have: targets, dependencies, the compiler and the rebuild policy. All files whose settings have this form are accepted.

* Status: partial
* Modelled: LoadModel.v. The form of settings is a specification of its own (TagSpec.v).
* Proof: Each of the functions that read settings succeeds exactly if the settings have the right form. Missing: settings with other names are ignored, which is shown for all tags.
* Theorems: `C94_wrong_form_partial`, `C94_right_form`, `C94_unknown_ignored`, `C94_unknown_refuted`
* Note: Settings of the wrong form are reported. That settings with unknown names are reported is refuted.

### C95 Everything that is made is in the target directory

The targets of a source file are inside the target directory, so that removing this directory removes all that has been made, and nothing else.

* Status: partial
* Modelled: LoadModel.v, Path.v. Following names, with steps upwards, is a specification of its own (StepSpec.v).
* Proof: Normalising a path is following names, as long as the directory is not left. Missing: names that lead out of the source directory, and absolute names.
* Theorems: `C95_inside_partial`, `C95_outside_refuted`, `C95_absolute_refuted`
* Note: Names that stay inside the source directory. Otherwise refuted.

### C96 Tags delivered by a recipe count like tags in the file

If the recipe for a file is configured to deliver tags, then the file has the targets and dependencies in its own tags, and those delivered by the recipe, as if they were in the file.

* Status: partial
* Modelled: LoadModel.v; running the recipe is a parameter (see C61 for how its output is read).
* Proof: Case analysis. Missing: the rebuild policy, and files that have a compiler configuration of their own.
* Theorems: `C96_delivered_partial`, `C96_policy_refuted`, `C96_own_config_refuted`
* Note: Refuted for the rebuild policy, and for files with a compiler configuration of their own.

### C97 After success everything asked for is up to date, and a second run does nothing

When the program reports success, every target it was asked for is newer than its source file and everything in the project the source file needs, provided that a recipe that succeeds leaves its targets like this. If it is started again, with nothing changed in the meantime, no recipe runs and no file changes.

* Status: partial
* Modelled: MainModel.v, BuildModel.v. The files before and after each list of tasks are described by `building` (BuildSpec.v), and those of the whole run by `unfolds` (WholeSpec.v).
* Proof: A task list processed after another one leaves up-to-date targets alone unless it is forced to run recipes, by induction over the events of the run, on top of C21 and C22. Missing: several names in `--targets` together with `--force-rebuild` or a policy `always`, for which it is false; names that are not normalised.
* Theorems: `C97_up_to_date_partial`, `C97_again`, `C97_always_refuted`, `C97_forced_refuted`
* Note: Partial: several names in --targets together with --force-rebuild or a policy always (refuted); names are normalised.

### C98 Without a configuration, a directory with source files is a project

Without a configuration file, the project consists of the source directory and of the plain files in it whose names do not begin with a dot or two underscores; subdirectories are left out. The longest extension of a file name that is known determines what is done with the file, as in the list of extensions and recipes of the default configuration.

* Status: proved
* Modelled: DefaultModel.v: the scan of C25 with the filters of a configuration (`input_filter.cpp:39-44`, `maike.cpp:355-364`); the default configuration is that of C64. What is assumed of regular expressions is that the two of the default configuration mean what they are supposed to mean.
* Proof: From C25 (files that belong to the project), by induction over how a file is found, and from C29 and the table of the loaders. The source directory has to be written in normal form: with `./foo`, it is false.
* Theorems: `C98_files`, `C98_recipes`, `C98_dot_refuted`
* Note: For source directories in normal form; false for ./foo (C98_dot_refuted).

### C99 The output of a dry run is a shell script that does the build

With --dry-run and --log-level=compilation_command, what the program writes to standard output is a shell script: to a POSIX shell it consists of exactly one command for each task, with exactly the program and the arguments that would have been run, and the command of a task comes after the commands of all tasks whose output it needs. When this script is run and its commands succeed, every target is newer than what it is made from.

* Status: partial
* Modelled: ScriptModel.v: what a task of a dry run delivers (`task.cpp:15-29`, `execve.cpp:264-269`), its command (`task.cpp:5-13`) and what the log is told about it. The writing of the log is that of C60 (WriteModel.v, LogModel.v). ScriptSpec.v has a reader for the part of the language of the shell that is used (quotes, backslashes, comments, words, lines); it answers `None` for everything else. It has been written from POSIX, not from a shell.
* Proof: From the order and the text of the records (C60), by induction over the text of a command and over the records. That the script builds everything follows as in C17, by induction over the commands that have been run. Partial: the names have to be without line breaks, and arguments without backslashes and single quotes; both are necessary, see the refutations. The printing of JSON (jansson) is a parameter, for which it is assumed that task ids can be told apart.
* Theorems: `C99_script_partial`, `C99_builds_partial`, `C99_newline_refuted`, `C99_backslash_refuted`
* Note: Proved for names without line breaks, and arguments without backslashes and single quotes; refuted for both: a name may add a command to the script, and the escapes of JSON change the arguments.

### C100 Which recipes are run is settled when the build starts

Let every recipe that succeeds write all targets of its task. Then a build that succeeds runs exactly the recipes that are due, given the state of the files when it starts: everything if --force-rebuild is given, otherwise those that are always run, those with a target that is missing or not newer than everything it is made from, and those which need a file made by a recipe that is due. This does not depend on the number of threads, or on the order in which they do their work. Afterwards the targets of these recipes are new, and everything else is as it was. If the build fails, nothing has been run that was not due.

* Status: proved
* Modelled: The model of C14 - C17 and C50 (BuildModel.v, SchedModel.v, TaskListModel.v). DueSpec.v says what a recipe that succeeds leaves behind (`fresh_build`: files newer than the time at which the build started, or directories), and which tasks are due (`due`, an inductive definition over the state of the files when the build starts).
* Proof: Invariants over the build: what has changed is a target of a recipe that was run, and what a recipe has made stays as it is. When a task starts, everything it needs has been made, so that the decision can be traced back to the initial state; the other direction is by induction over `due`. A target which another file refers to as a system header or external library is excluded (only for the direction that needs it): such files are not compared.
* Theorems: `C100_exactly_due`, `C100_same_recipes`, `C100_outcome`, `C100_only_due`

### C101 Tags mean what they say

After a source file has been loaded, its targets, what it needs, what users of its targets need, and its rebuild policy are those that its tags declare, together with those in the tags delivered by its recipe if it is asked for them, in the order in which they are written, and with the files its source code refers to, and its recipe. Each reference has the origin that is given, or the default one (generated for files, system for targets), the other members are its properties, a name that starts with a dot is relative to the directory of the file and other names to the source directory, generated files are at the same place in the target directory, and names of system files and of libraries known to pkg-config are left as they are.

* Status: proved
* Modelled: The model of loading a file (LoadModel.v). MeanSpec.v says what tags say, member by member, without functions of the model: `names` for what a name refers to, `says_dependency`, `says_target`, `says_file`, `says_policy`.
* Proof: By following the function that loads a file, with the results of C44 for names. The parsing of JSON, looking up recipes, and running them are parameters.
* Theorems: `C101_tags_mean`

### C102 Adding files does not affect the others

When files are added to a project, and neither they nor their targets have been referred to before, then every other file keeps its dependencies, in the same order, its targets and its settings. It is compiled by the same command, apart from the number of the task, and it has to be compiled again exactly when it would have to be compiled without the new files. The project can still be loaded unless the fault is with the new files. The same holds the other way around for files that are removed.

* Status: proved
* Modelled: The models of loading a project (FileListModel.v, DepGraphModel.v, GraphModel.v), of the command of a task (RecipeModel.v, ScriptModel.v), and `due` of C100. LocalSpec.v: `only_adds`, `same_record`, `without_task_id`.
* Proof: Simulation: a traversal of the smaller graph and one of the larger one, from the same file, go through the same states up to the numbers of the files. The dependencies taken over from targets are given in closed form. For projects where names are in normal form, and no target is another source file. What stands for something outside of the project may change its kind, if a new file refers to it in another way (example vector_placeholder).
* Theorems: `C102_same_files`, `C102_same_needs`, `C102_same_command`, `C102_same_due`, `C102_still_loads`
* Note: For projects whose names are in normal form, and where no target is another source file.

### C103 Building again gives the same files as building from scratch

However a project has been changed and built before, with or without success, and whatever the number of threads: after a build that succeeds, every file that was to be made has the contents that a build from scratch of the same source files gives it. A file that has been made is used again only if it has the right contents.

* Status: partial
* Modelled: The models of building (BuildModel.v, SchedModel.v, TaskListModel.v) and loading. Contents are of any type. A recipe is a function `make` from the contents of all files to the contents of a target; `repeatable`: only the contents of its inputs matter. CleanSpec.v: `history` (any sequence of changes of source files, tags and the project itself, and of builds that succeed or fail), `producing` (a build, as `building`, with contents), `proper_content` (what should be in a file, by recursion on what it is made from).
* Proof: Invariant of all histories: a target that is newer than all source files it is made from, directly or not, has its proper contents. A build keeps it by induction on its trace (with C07: what a task needs has been finished, C15: a task that has nothing to do is newer than everything). A change keeps it because what is changed gets a new time stamp, and whoever depends on something made from it depends on it as well. Assumed of recipes: one that fails leaves no target that is newer than its source files (see C81 for one that does not behave like this). Refuted otherwise: a file that is replaced and keeps its time stamp, and settings that are changed in the configuration, do not cause anything to be built.
* Theorems: `C103_same_as_clean_partial`, `C103_same_contents_partial`, `C103_right_contents_partial`, `C103_new_is_right_partial`, `C103_old_file_refuted`, `C103_settings_refuted`
* Note: Proved if files that are changed get a new time stamp, and settings outside of the source files stay as they are; otherwise refuted.

### C104 A tool gets the input that is supplied for it

When a tool is run with input that is supplied by the program, it reads exactly that input, in order and from the beginning, and all that it writes to its standard output and standard error is captured, whatever the sizes of the input and the output and however reading and writing are interleaved. The call returns when the tool has ended, and a tool that reads to the end of its input sees that end.

* Status: partial
* Modelled: FeedModel.v: the calling thread, the feeding thread, the two capturing threads, the pipes (of any capacity, with any amount moved at a time) and the tool (an arbitrary tree of reads and writes that depends on what has been read) as a transition system. FeedSpec.v: `behave` runs a tool by hand on its input.
* Proof: Invariant: what has been read, what is in the pipe and what is left is the input, and what the tool still does is what it does by hand. Progress by cases on the state; a measure bounds the number of steps. Refuted for tools that read to the end: the state in which it waits has no successor and execve has not returned.
* Theorems: `C104_delivered`, `C104_in_order`, `C104_no_deadlock_partial`, `C104_bounded`, `C104_returns_partial`, `C104_end_refuted`, `C104_filter_refuted`
* Note: Proved for tools that ask for no more input than there is. Refuted for others: the end of the input is never signalled while the tool runs, since the writing end of the pipe stays open, so that a tool which reads to the end of its input never gets there, and the call does not return.

### C105 The compiler is told to make the target from the source file

The command that is run for a C++ source file names the configured compiler, its configured flags in the given order and each only once, the flags for the packages it depends on, the configured revision of the language, whether to use colours, the source file, and at last its first target as the file to write. If and only if the action to link has been asked for, it also names each object file and library that is needed, once, and otherwise it asks for an object file. Nothing is run for header files, and header files are those with one of the usual file name extensions.

* Status: proved
* Modelled: CxxModel.v: `compile` in cxx_compiler.py up to the call of the compiler, with the functions of `os.path` it uses; pkg-config, the working directory and the printing of a time are parameters. CxxSpec.v: `without_repetitions` (what a list without repetitions is), `flag_for` (flags for a dependency), `needed_for` (as in C41), `header_name`.
* Proof: The JSON value passed to the recipe is taken apart with the lemmas for C57; then list reasoning. Names of headers: characterisation of the last dot after the last slash, and of lower case.
* Theorems: `C105_command`, `C105_started`, `C105_headers`
* Note: For all sources, dependencies, settings and directories; the parts of the command that come from the settings are those of the recipe's own configuration.

### C106 Headers are looked for next to the source file and where generated files are put

The compiler looks for headers first in the directory of the source file, then in the corresponding directory below the target directory, where files generated next to the source file are put, and then in the configured directories, below the source directory as well as below the target directory. This holds for all ways to write the names of these directories.

* Status: partial
* Modelled: CxxModel.v, including `os.path.relpath`, `dirname` and `abspath`. CxxSpec.v: `place`, the directory that a text denotes, found by walking from the root or the working directory, name by name.
* Proof: `relpath` followed from its start leads to its goal (common prefix, then up and down). The two options for each directory lead to the walk from the source directory, or from the target directory. The order follows from removing repetitions.
* Theorems: `C106_own_directory`, `C106_generated_partial`, `C106_configured_partial`, `C106_order_partial`, `C106_generated_refuted`, `C106_configured_refuted`
* Note: Proved for a target directory and configured directories that are given by relative paths. Refuted for absolute paths: they are looked up below the working directory or the source directory.

### C107 A program can find out about the build that made it

Every C++ source file can use macros for the number of the task, the time when the build was started (as a number and as text), the build id and the names of the target and source directories. They are integer constants and string literals with the right values.

* Status: partial
* Modelled: CxxModel.v: the definitions passed to the preprocessor. CxxSpec.v: `literal_value` reads a string literal of C++ with its escape sequences; ValueSpec.v: `c_constant` for integers.
* Proof: Induction on the text: a literal without escapes has the value of its characters, and with escapes it is shorter than its text or is none at all.
* Theorems: `C107_numbers`, `C107_texts_partial`, `C107_build_id`, `C107_texts_refuted`
* Note: Proved: the value of a text is right exactly if it contains no quotation mark, backslash or end of line; build ids never do. Refuted for names of directories that do.

### C108 The configuration that was asked for is the one in use

The program reads the files named by --configfiles, in that order, or maikeconfig.json in the source directory if there is no such option, or no file at all with --config-default. It reads them before it does anything else, and no other configuration file at any time. The configuration that results is the one which --configdump prints, and the one whose filters, loaders and recipes are used to scan the source directory.

* Status: proved
* Modelled: MainModel.v. ConfSpec.v: `chosen_files` and `chosen_config` in terms of the options that are given on the command line; `documented`, the table of options (C35).
* Proof: Every option has a value of its own type, so the cases of the model are those of the specification. No other phase of the program reads a configuration file.
* Theorems: `C108_files`, `C108_dump`, `C108_scan`
* Note: For all command lines and environments; what the scan does with the settings is C25 and C64.

### C109 Settings in configuration files mean what they say

A JSON value is accepted as a configuration if and only if each required setting is there and has the right type, every regular expression is valid, and every loader is of a known kind. Then each setting in the result has the value that is given, optional settings that are left out have their documented default, and nothing is lost, mixed up or made up. The kinds of loaders that are documented are known. Without a configuration file, C++ files, rules for applications and libraries, scripts and style sheets are handled by the documented loaders and recipes.

* Status: partial
* Modelled: CfgModel.v. ConfSpec.v: `config_says`, in terms of the members of JSON objects, and `usual`, the table of loaders without a configuration file.
* Proof: An equivalence for each function that takes a JSON value apart. A sorted map with the same entries is the same map, which gives the direction from the specification to the model.
* Theorems: `C109_settings`, `C109_default_loaders`, `C109_default_scan`, `C109_documented_refuted`
* Note: Proved for all JSON values, except that two of the documented kinds of loaders, cxx and identity, are not accepted (refuted).

### C110 Times in the compilation log can be trusted

The two numbers in the record of a file are the microseconds, since the log was made, at which work on the file was started and completed. The command was run between the two, and a thread worked on the file for all of that time. What a file needs is completed when the file is started. In no microsecond are there more files in progress than there are threads. The mark in the record agrees with how the command ended.

* Status: proved
* Modelled: StampModel.v: the model of the pool and the log (WriteModel.v) with a clock, and with the steps of `runIfNecessary`. What the log says about a task is given in advance; a thread can write to the log only if that is what the clock said. StampSpec.v: `stands_for`, `in_progress`, `delivered`.
* Proof: Three invariants: how far each thread is, what has been read from the clock (with a statement about all earlier times, for the number of tasks in progress), and what the log has to say. Truncated intervals that contain a microsecond all contain its last nanosecond.
* Theorems: `C110_in_order`, `C110_interval`, `C110_command_run`, `C110_needed_first`, `C110_project`, `C110_parallel`, `C110_success`, `C110_log`, `C110_possible`, `C110_record`
* Note: For all runs of the model of the pool, with a steady clock that does not run over.

### C111 The table of contents of a document is that of the page

The page made from a document by doc2html.xsl has a table of contents if the document asks for one. It lists the chapters, sections and subsections of the document with their titles, in order, each once, on its level and in the right one of main part and appendix; the sections on the page are the same ones.

* Status: partial
* Modelled: doc2html.xsl as a function from the element tree of a document, with the files it includes, to the element tree of the page. Templates are chosen by name, parent and mode as XSLT does by priority. Comments, processing instructions and namespaces are left out, and so is a file that includes itself.
* Proof: By induction over the content of a document, level by level; that there is no other table of contents by induction over what may be in a document.
* Theorems: `C111_contents`, `C111_made`, `C111_sections`, `C111_included_refuted`, `C111_nested_refuted`, `C111_appendix_refuted`
* Note: C111_contents, C111_made and C111_sections are proved. Refuted outside of what they assume: chapters of files that are included, and sections within sections (as in the user guide), are not listed (C111_included_refuted, C111_nested_refuted); sections in a file that is included into the appendix do not get the class of the appendix (C111_appendix_refuted).

### C112 Nothing of a document gets lost on its page

All texts of a document and of the files it includes, the titles of its sections and the names of properties and items are on the page made from it, in order. Elements that are as in HTML are there with their attributes, and resources are in the head of the page.

* Status: partial
* Modelled: As for C111. What is a document is said by an inductive predicate.
* Proof: By induction over what may be in a document: for each template, what it makes of the content.
* Theorems: `C112_text`, `C112_body`, `C112_copied`, `C112_resources`, `C112_section_refuted`
* Note: C112_text, C112_body, C112_copied and C112_resources are proved. Refuted: text directly within a section is dropped (C112_section_refuted).

### C113 Links within a page lead somewhere

If everything that a document refers to exists in it, every link on the page to a place on the page, including those of the table of contents, leads to an element with that identifier. A reference is made a link, with the title of what is referred to as its text or, if there is one, with its own text.

* Status: partial
* Modelled: As for C111; keys are looked up in the file the reference is in, as key() does.
* Proof: Everything in a document, and in the files it includes, is rendered somewhere on the page; conversely, each link on the page comes from a reference, a link or the table of contents.
* Theorems: `C113_links`, `C113_reference`, `C113_titles_refuted`, `C113_unnamed_refuted`
* Note: C113_links and C113_reference are proved. Refuted: references to other files of the document, and to paragraphs, are without a text (C113_titles_refuted); the entry of a chapter without an identifier leads to the top of the page (C113_unnamed_refuted).

### C114 The reason for a failure is told

If the program ends with a status other than zero, the last thing it writes to standard error is a message, the only one of its kind, about something that is really the case: an argument that is wrong, a recipe or loader that does not exist, a problem with the files of the project, a target that has not been declared, or a task that failed in this run. Otherwise there is no such message. Whatever the input, there is a status, and the order of what happens does not depend on messages.

* Status: partial
* Modelled: The program of MainModel.v, with the text of each exception (WhyModel.v). The texts of exceptions thrown by recipes, while looking for files, and by tasks are parameters; for tasks, they are restricted to those of a run of the scheduler (SchedModel.v).
* Proof: Forgetting the messages gives the program without them. Each place where an exception is thrown is matched with the condition it reports.
* Theorems: `C114_same_run`, `C114_reason`, `C114_silent`, `C114_scan_lines`, `C114_cycle_refuted`, `C114_duplicate_refuted`, `C114_flag_refuted`
* Note: C114_same_run, C114_reason, C114_silent and C114_scan_lines are proved. Refuted: in case of a cyclic dependency no file is told (C114_cycle_refuted), if a target is declared twice only one of the files is (C114_duplicate_refuted), and an option which takes no value is not named (C114_flag_refuted). Not covered: the texts of exceptions thrown by recipes and during the scan, which are parameters.

### C115 The numbers in the messages are right

The message about the source tree gives the number of files in the project, including those to be generated and those outside of it, and the number of declared targets; it is there whenever the project could be loaded. The message about completed tasks gives the number of files from which something is built, and is there if and only if everything has been built.

* Status: partial
* Modelled: As for C114; times are left out, except for their place in the text.
* Proof: The number of nodes is related to the files that are available, and the number of tasks to the files with targets, by the theorems about loading (FileListProofs.v) and task lists (TaskListProofs.v).
* Theorems: `C115_loaded`, `C115_tree`, `C115_counts`, `C115_incomplete`, `C115_text`, `C115_tasks_refuted`
* Note: C115_loaded, C115_tree, C115_counts, C115_incomplete and C115_text are proved. Refuted: tasks that belong to more than one of the targets given, or to one that is given twice, are counted repeatedly (C115_tasks_refuted).

### C116 The manual page says what the program says

The manual page is made from the help text of the program that has been built, the date of the build, and the description, authors, copyright and license of the project, each in its place, whatever characters they contain. Hyphens of options remain hyphens. The documentation shows the options and the default configuration as the program writes them. If a program that is needed fails, the scripts fail, and no target is written.

* Status: partial
* Modelled: string.Template of the Python library as an automaton that reads the template character by character; the scripts with the program, pandoc and the XML parser as parameters, and files as a function from names to contents. Markdown only as far as backslashes, hyphens and blocks are concerned. Texts are sequences of bytes, of which the order is the same as that of code points in UTF-8.
* Proof: Induction on the template, with a lemma for text, one for a name, and one for the rest. A relation describes what is left of a text where backslashes escape characters; it is shown to be a function and to undo what the script does.
* Theorems: `C116_page`, `C116_hyphens`, `C116_manual`, `C116_output`, `C116_config`, `C116_parts`, `C116_pandoc_refuted`
* Note: C116_page, C116_hyphens, C116_manual, C116_output, C116_config and C116_parts are proved. Refuted: if pandoc fails, the script for the manual page succeeds nevertheless (C116_pandoc_refuted; for the parts of the documentation, C58_pandoc_refuted).

### C117 The build script succeeds if and only if both builds do

build.py succeeds if and only if the program has first been built by an installed one or, only if there is none, by the bootstrap script, and the program made in this way has then built itself. Nothing is run after a failure. The arguments are valid, the second build uses the program from the target directory of the first, and called as a recipe the script does nothing.

* Status: partial
* Modelled: subprocess.run as a function of the commands run before; None if the program can not be started. The status of a shell script without set -e is that of its last command.
* Proof: Case distinction; return codes lie between -255 and 255, so that exit does not turn a failure into success.
* Theorems: `C117_success`, `C117_stops`, `C117_recipe`, `C117_arguments`, `C117_bootstrap_refuted`
* Note: C117_success, C117_stops, C117_recipe and C117_arguments are proved. Refuted: the bootstrap script does not stop at a command that fails, thus its success does not mean that the program has been built as intended (C117_bootstrap_refuted).

### C118 An installed program finds the recipes installed with it

If install.sh succeeds, the program that has been built is in bin, all recipes are in lib/maike2/recipes with the same contents, the program finds each of them by its name from any directory unless the project has a file with that name, other users can run them, and nothing else has been changed.

* Status: partial
* Modelled: The file system as a tree of files and directories with the permissions for others; mkdir -p, cp, cp -r and chmod as functions on trees; names resolved lexically, without symbolic links. Other reasons for which a command may fail are a parameter. If a command fails, the state is not modelled.
* Proof: Lemmas about what is at a place after a change at another one: at the place, below it, on the way to it, elsewhere. The meaning of the name of the directory is specified by a relation on steps and shown to be what lexical normalisation gives. The search composes with LoadModel.v.
* Theorems: `C118_program`, `C118_recipes`, `C118_found`, `C118_others`, `C118_elsewhere`, `C118_umask_refuted`, `C118_version_refuted`
* Note: C118_program, C118_recipes, C118_found, C118_others and C118_elsewhere are proved. Refuted: that others can run the program whatever the umask is (C118_umask_refuted), and that only recipes of the installed version are found (C118_version_refuted). Missing: what has been done when the script fails, and symbolic links.

### C119 A file that can not be loaded for lack of resources is not ignored

If loading throws something that is not a standard exception, the scan still comes to an end, exactly these files are missing in its result, all other faults are reported, and a build which has noticed the exceptions does not succeed.

* Status: partial
* Modelled: The transition system of ScanModel.v, where loading may also throw a string: the task ends, the counter is released, and at some later time the pool catches the string. How main ends, as a function of what the pool has caught.
* Proof: Simulation: to each run there is one of ScanModel.v in which the lost files are reported as faulty, with the same files, tasks and counter. An invariant tells for which files strings are thrown. Concrete runs for the refuted statements.
* Theorems: `C119_returned`, `C119_threw`, `C119_not_stuck`, `C119_terminates`, `C119_status`, `C119_listing_refuted`, `C119_late_refuted`, `C119_reason_refuted`
* Note: C119_returned, C119_threw, C119_not_stuck, C119_terminates and C119_status are proved. Refuted: that a list of targets printed with status 0 is complete (C119_listing_refuted), that a build with status 0 has seen all files, without the condition that the exceptions thrown have been caught in time (C119_late_refuted), and that the reason is told (C119_reason_refuted). Missing: strings thrown by tasks of the build itself, or in the main thread while recipes are configured; when main compiles, what the pool catches after the scan is a parameter.

### C120 A tool has its own standard streams

The standard input, output and error streams of a tool are the pipes made for it, it has no other ends of these pipes, and inherits all other descriptors as they are; the reason why it can not be launched is written to the pipe made for that.

* Status: partial
* Modelled: FdModel.v: descriptor tables as functions from numbers; pipe, close, dup2, fcntl and exec as functions on tables, with the lowest free number; class Pipe and the code of the child line by line.
* Proof: The table of the child is computed for arbitrary numbers greater than 2; an invariant of the call gives these numbers, for all interleavings with other threads. For a single thread, the numbers are in ascending order, and all cases are computed.
* Theorems: `C120_streams`, `C120_report`, `C120_alone`, `C120_closed_refuted`, `C120_threads_refuted`, `C120_report_refuted`
* Note: C120_streams, C120_report and C120_alone are proved. Refuted: that the streams are right whatever maike itself was started with (C120_closed_refuted), that a standard input suffices if there are other threads (C120_threads_refuted), and that the reason for a failure to launch a tool always gets into the right pipe (C120_report_refuted).

### C121 No file descriptor is left open

When a call to execve has ended, by returning or by any exception, none of the descriptors of its pipes is open, and it has not closed any descriptor that belongs to somebody else.

* Status: proved
* Modelled: FdModel.v: the call as a sequence of steps with all its exits, including those by exceptions, interleaved with other threads that open and close descriptors.
* Proof: Invariant: the numbers stored in the Pipe objects are exactly those of the descriptors of these pipes.
* Theorems: `C121_nothing_left`, `C121_others`, `C121_restored`
* Note: close is assumed to close. Descriptors of other parts of the program are anything that other threads open and close. If the second thread for reading can not be created (execve.cpp:139), the program is terminated; this is not a state of the model.

### C122 The integration test fails if something is wrong

The integration test succeeds only if all of its parts do, all of them are run unless one of the first two fails, a part succeeds only if all of its commands do, and the new program is accepted if and only if it tells the id of the build that made it.

* Status: partial
* Modelled: IntegModel.v: the part of bash that the scripts use, with set -e, pipelines, word splitting and command substitution; the nine scripts, command by command; grep, awk, sed, tr and echo as they are used; the first lines of a log. All other commands are a parameter that may depend on everything that has been run before.
* Proof: Induction over scripts for those which consist of commands only, and for those which stop at a failure; main.sh by cases for its first two parts and induction over the others. The commands that have been run are computed step by step for each script. For the ids, the tools are specified on texts that consist of lines, among them exactly one which is looked for.
* Theorems: `C122_main`, `C122_commands`, `C122_stops`, `C122_did_generate`, `C122_did_release`, `C122_did_install`, `C122_did_out_of_tree`, `C122_did_subpath`, `C122_did_rel_path`, `C122_did_tarball`, `C122_new_version`, `C122_release`, `C122_log`, `C122_version`, `C122_commit_refuted`, `C122_build_refuted`, `C122_mktemp_refuted`
* Note: C122_main, C122_commands, C122_stops, the theorems C122_did_..., C122_new_version, C122_release, C122_log and C122_version are proved. Refuted: that the new program tells the commit it was built from (C122_commit_refuted), that the build of the new version has succeeded (C122_build_refuted), and that there is a directory to install the program to (C122_mktemp_refuted). Missing: what the commands do, which are parameters. Removing directories at the end is C126.

### C123 The source archive has the project and the script that builds it

If make source-archive succeeds, the unpacked archive has exactly the files listed by git and those below __buildcache, with the content they have in the working directory; the script for building the project is the output of a successful dry run; and nothing that git lists is left out.

* Status: partial
* Modelled: PackModel.v: the two rules of the Makefile on trees of files and directories (SetupModel.v), with the shell opening the file for the output first, and the pipeline from find and git to tar; archives as lists of members, unpacked one after the other. The build, the dry run and git are parameters.
* Proof: The members of a name are characterised by what is at a place in a directory without duplicate names; find only gives names below __buildcache. Members with the same name have the same content, so that the order of unpacking does not matter. Writing the script keeps everything apart from it. PackProps2.v composes this with C99: the job is computed from the arguments in the Makefile.
* Theorems: `C123_content`, `C123_complete`, `C123_script`, `C123_version`, `C123_same_version`, `C123_succeeds`, `C123_needs`, `C123_git_refuted`, `C123_keeps_refuted`, `C123_job`, `C123_builds_partial`
* Note: C123_content, C123_complete, C123_script, C123_version, C123_same_version, C123_succeeds, C123_needs and C123_job are proved. C123_builds_partial, that the script in the archive does the build, is for names in one line and words that can be quoted, as C99. Refuted: that git has succeeded if make has (C123_git_refuted), and that the script is kept if make fails (C123_keeps_refuted). Missing: permissions, symbolic links, names that git puts into quotes, and what the build does to the working directory, which is a parameter.

### C124 What pkg-config says is passed on

The words that pkg-config writes are passed to the compiler and the linker, as separate arguments and in the order in which they are written; if pkg-config fails, so does the recipe.

* Status: partial
* Modelled: PkgModel.v: the three functions of pkg_config.py with strip, split() and split(' ') of Python; pkg-config is a parameter. They are put into the models of the linker and compiler recipes (RecipeModel.v), where they were parameters.
* Proof: The words of a text are specified by a relation, which split() is shown to compute; strip removes gaps at both ends; splitting at blanks is the inverse of joining with blanks. Removing repetitions keeps a list of words together if they have not occurred before.
* Theorems: `C124_words`, `C124_libs`, `C124_libdirs`, `C124_cflags_partial`, `C124_cflags_text`, `C124_fails`, `C124_link_fails`, `C124_link_partial`, `C124_cflags_refuted`, `C124_escaped_refuted`, `C124_order_refuted`
* Note: C124_words, C124_libs, C124_libdirs, C124_cflags_text, C124_fails and C124_link_fails are proved. C124_cflags_partial is for words with one blank between them, and C124_link_partial for packages whose words are not needed for earlier dependencies. Refuted: the same for other white space (C124_cflags_refuted), for words with blanks in them (C124_escaped_refuted), and for libraries shared by packages (C124_order_refuted). Missing: characters that are not ASCII.

### C125 Cleaning up and formatting do not destroy anything of the project

make clean removes the directories of targets and nothing else; make format replaces the content of each JSON file by what jq makes of it, leaves those alone for which jq fails, and touches no other file.

* Status: partial
* Modelled: TidyModel.v: the working directory as a function from places to files and directories; rm -rf with the pattern of the Makefile; the shell command that is run for each JSON file; the words that xargs makes of the output of find. jq is a parameter.
* Proof: One file at a time: what happens to it, to .fmt and to all others; then induction over the files that are found.
* Theorems: `C125_clean`, `C125_restored`, `C125_cache`, `C125_json`, `C125_mode`, `C125_others`, `C125_blocked`, `C125_left`, `C125_twice`, `C125_sources_partial`, `C125_names_refuted`, `C125_mode_refuted`, `C125_left_refuted`
* Note: C125_clean, C125_restored, C125_cache, C125_json, C125_mode, C125_others, C125_blocked, C125_left and C125_twice are proved. C125_sources_partial is for names without white space. Refuted: the same for other names (C125_names_refuted), that the permissions of JSON files are kept (C125_mode_refuted), and that no file .fmt is overwritten or left behind (C125_left_refuted). Missing: links, names with characters that are special for the shell or for xargs, failures while a file is written, and clang-format.

### C126 The integration test removes the directories it makes

When a script of the integration test ends, whether it succeeds or fails, the directories it has made are removed.

* Status: partial
* Modelled: TrapModel.v: the command given to trap that is in force when a script ends, following the interpreter of IntegModel.v; the scripts are the ones of C122. The working directory is computed from the commands that have been run (TrapSpec.v).
* Proof: Scripts whose remaining commands are something else than mktemp -d, and which set no trap, change neither the trap nor the temporary directories. Commands are told apart by characters that occur in their text. The scripts for relative names step by step.
* Theorems: `C126_temporary`, `C126_out_of_tree_partial`, `C126_second_refuted`, `C126_targets`, `C126_subpath_partial`, `C126_subpath_refuted`, `C126_parent_refuted`
* Note: C126_temporary and C126_targets are proved. C126_out_of_tree_partial leaves open the case that the second temporary directory can not be made, which is refuted (C126_second_refuted); C126_subpath_partial is for success only, otherwise refuted (C126_subpath_refuted). Refuted as well: that nothing is left in the parent directory (C126_parent_refuted). Missing: signals, symbolic links, and names with characters that are special to the shell.

### C127 The integration test does not depend on the name of the source directory

Whether the tests that build outside the source directory pass does not depend on what the source directory is called.

* Status: partial
* Modelled: The scripts of C122 (IntegModel.v) together with the target directory computed by the program (JobModel.v). What is supposed about the machine is in WhereSpec.v: a program is there only if a build with its target directory has been run.
* Proof: The scripts step by step; the only build is the one with the source directory of the script, and appending _targets to a component gives maike_targets only for maike.
* Theorems: `C127_out_of_tree`, `C127_rel_path`, `C127_name_refuted`
* Note: Refuted as stated (C127_name_refuted). Proved: two of the tests pass only in a directory called maike (C127_out_of_tree, C127_rel_path), if directories have absolute names without special characters. C127_rel_path supposes that the parent directory has no such program beforehand. Missing: that the test with --target-dir is independent of the name for all machines; there is an example only.

## Findings

What the code does, contrary to what a user would expect, with the theorem that shows it of the model:

* `C11_ends_after_exception_refuted`: A task whose up-to-date check throws (for example because a directory cannot be searched) leaves its result pending, and `process` waits forever for tasks that depend on it (`core/db/task_list.cpp`, `task.hpp`).
* `C21_line_comment_refuted`: `// see /* here` makes the rest of the file, tags included, disappear for the tag filter (`cxx/source_file_loader.cpp`).
* `C21_block_comment_refuted`: A block comment that ends with two asterisks is not seen to end.
* `C21_raw_string_refuted`: A raw string that contains a right parenthesis is not seen to end.
* `C21_literal_refuted`: A string literal that ends with R starts a raw string.
* `C22_after_endif_refuted`: After a directive without argument, such as `#endif`, an include directive on the next line is missed.
* `C22_after_comment_refuted`: `/* text */ #include "x.hpp"` is not seen, because the directive does not come first on the line.
* `C22_pragma_refuted`: The operand of any directive, as in `#pragma message "x"`, is taken for an include file.
* `C22_comment_refuted`: As for C21, includes are hidden by `// ... /*`.
* `C23_empty_chunk_refuted`: An empty write to a Fifo is read as end of file.
* `C31_failing_file_ignored_refuted`: A configuration file that cannot be merged is reported, but the members before the offending one stay merged (`bin/config.cpp`).
* `C32_unclosed_refuted`: A tag block with an unclosed object is silently taken to be empty (`json_handle.cpp`).
* `C32_garbage_refuted`: So is a short text that is not JSON at all.
* `C32_control_refuted`: A control character before an object discards the object silently.
* `C34_empty_last_refuted`: An empty last element of a list is lost.
* `C35_rejected_refuted`: Any beginning of the name of an option is accepted instead of the name; even the empty name, as in `=x`.
* `C36_thread_count_garbage_refuted`: `4x` is accepted as a number of threads.
* `C39_file_refuted`: Move assignment of an InputFile closes a handle twice (`io/input_file.hpp`).
* `C39_copy_refuted`: Copying a Loader that has been moved from dereferences a null pointer.
* `C39_scope_refuted`: Move assignment of a ScopeExitHandler forgets the handler that was there, and has no return statement (`utils/scope_exit_handler.hpp`).
* `C40_nul_refuted`: The log loses what follows a NUL character in the output of a tool.
* `C40_continued_refuted`: A log record is not ended if the last line of the output is incomplete.
* `C41_missing_refuted`: An object which one file needs as its implementation, and another one in some other way, may be missing from the command line of the linker.
* `C42_origin_refuted`: If tags configure a compiler without naming a recipe, the default recipe is used with the wrong origin.
* `C43_far_refuted`: MemAvailable is not found beyond the first buffer.
* `C43_last_refuted`: It is not found on a last line that is not terminated.
* `C43_unreadable_refuted`: If /proc/meminfo cannot be opened, the behaviour is undefined.
* `C44_other_source_dir_refuted`: With --source-dir=./foo, targets are placed outside of the target directory.
* `C45_boolean_can_be_overridden_refuted`: A boolean setting cannot be overridden by a later configuration: true and false count as different types.
* `C49_all_readers_return_refuted`: With two threads waiting for an AsyncTaskResult, one may sleep forever (`notify_one`).
* `C52_depends_on_recipe_refuted`: A file with a compiler configuration but without recipe of its own is not rebuilt when the default recipe changes.
* `C53_shell_refuted`: Printed commands are not quoted as shells need it when there is a backslash or a quote.
* `C54_quiet_refuted`: With log level `errors`, skipped tasks produce empty lines, and regular output is shown.
* `C56_input_refuted`: A tool that reads its standard input hangs forever, and the build with it: the write end of the pipe is closed only after the tool has exited (`exec/execve.cpp`).
* `C57_name_refuted`: If a file name is not valid UTF-8, the recipe is not told which file to compile.
* `C58_generic_refuted`: `generic.py` ignores the exit status of its tool.
* `C59_flags_refuted`: Repeated flags are dropped, which breaks flags that consist of two words.
* `C60_max_refuted`: Requesting only the latest acceptable language revision never works.
* `C60_broken_refuted`: One compiler that cannot be run makes the configuration fail.
* `C60_oldest_refuted`: Among compilers with partial support, that with the least is selected.
* `C61_long_refuted`: Output of a recipe beyond 4096 bytes is never read; the first block is read again and again.
* `C61_blank_refuted`: A recipe that prints only line breaks makes the program read forever.
* `C63_stops_refuted`: If a configuration file cannot be read, the program goes on with the default configuration.
* `C65_still_builds_refuted`: `--print-dep-graph-inv`, `--dump-database` and `--list-external-deps`, which are documented to print something and exit, print nothing and build everything.
* `C66_file_refuted`: File names given to `--list-targets`, `--print-dep-graph`, `--help` and so on are ignored.
* `C67_recipes_run_refuted`: `--dry-run` runs recipes while loading.
* `C70_directory_refuted`: `--list-targets` lists the top directory as `.`, but `--targets=.` fails.
* `C70_dot_refuted`: With `--target-dir=./build`, no target can be asked for at all, neither by the name in the list nor by any other name relative to it.
* `C72_default_refuted`: With `--source-dir=foo`, targets are placed in `foo_targets` in the current directory, contrary to the documentation.
* `C74_prompt_refuted`: The pipes of a call are created before the mutex is locked (execve.cpp:172-177), and without `O_CLOEXEC`. A process created by another thread in between gets their write ends, and keeps them until it exits. The call then waits for that process too: a short compilation does not end before a long one.
* `C75_cleaned_up_refuted`: If exec fails, the exception is thrown without a call to waitpid (execve.cpp:213-220), and the process remains as a zombie until the program ends.
* `C75_still_running_refuted`: If exec fails, the exception may be thrown while the process is still running.
* `C76_subdirectory_refuted`: A target may be called `sub/x.o`. Unless there is a directory `sub` next to the source file, nobody makes `sub` below the target directory, and the compiler cannot write the target.
* `C76_file_in_the_way_refuted`: make_directory.py ignores FileExistsError (recipes/make_directory.py:16-17), also when what exists is a plain file. The task succeeds, and the recipes for the files in the directory fail with a message that does not tell why.
* `C77_same_project_refuted`: Only the filters decide what is scanned; the target directory is not left out by itself. With `--target-dir=build`, the directory `build` is part of the project, and gets a directory `build/build` for its own targets. The next scan finds that one as well, and the next build makes `build/build/build`. Targets with a known extension (generated sources) are compiled once more from the target directory.
* `C78_apart_refuted`: With `"filename_ext_replacement_mode": "replace"`, `a.rst` and `a.txt` both have the target `a.html`.
* `C78_one_result_refuted`: If a file handled by a generic loader has a name that is not UTF-8, then the name of the target is silently left out of the JSON object (the result of `json_object_set_new` is ignored), and loading the project fails with an error about a missing key.
* `C79_second_object_refuted`: Only the first JSON object in the tags of a file is read. A second one, in a later comment, is ignored without a message.
* `C79_form_feed_refuted`: A form feed (or another control character) in front of the tags is copied to the stream of tags, and makes the JSON decoder fail. As no character above the space had been seen by then, this is taken for a file without tags: its targets disappear without a message.
* `C80_own_settings_refuted`: Whether a C++ file gets the dependencies of its targets is decided from the compiler settings of the loader. If the tags of the file itself ask for the action `link`, then the recipe links, but is not told about any object file. (`Loader::useTargetDeps` passes `m_compiler`; `loadSourceFile` has the file's own compiler at hand.)
* `C80_mutual_refuted`: If `a.cpp` includes `b.hpp` and `b.cpp` includes `a.hpp`, and each header says that its object file is needed, then `a.o` and `b.o` depend on each other: the project is loaded, but building it fails because of a cyclic dependency, though there is no cycle between the files.
* `C81_failure_refuted`: Whether a recipe has to run is decided from the times of files only. If a recipe fails after it has written its targets, then the next build succeeds without running it. This is the case for `cxx_compiler.py` (`C81_test_program`): if the program is built, but fails when it is run (a failing test), or clang-tidy complains, then a second invocation of maike reports success, unless the file is to be rebuilt always.
* `C82_header_refuted`: `cxx_compiler.py` does nothing for a header file, also if it has been declared to have a target. It exits with 0, so that the file is built again each time.
* `C82_linker_refuted`: `cxx_linker.py` and `make_lib.py` make the first target only, and exit with 0. (`cxx_compiler.py` copies the first target to the others.) As the others are missing, the file is built again each time.
* `C82_archiver_refuted`: `cxx_linker.py` and `make_lib.py` make the first target only, and exit with 0. (`cxx_compiler.py` copies the first target to the others.) As the others are missing, the file is built again each time.
* `C83_depends_refuted`: A reference such as `b.svg` in `doc/a.doc.xml` means `doc/b.svg` in a browser, but maike makes the document depend on `b.svg` at the top of the target directory. Only references that start with `./` are relative to the document.
* `C83_external_refuted`: `doc2html.py` considers a reference external iff it starts with small letters followed by `://`. A link such as `mailto:me@example.org` (or `#top`, `HTTP://...`, `svn+ssh://...`) becomes a dependency on a generated file of this name, and the project can not be loaded.
* `C84_text_refuted`: `md2htmlpart.py` uses the text in front of the first markup in a heading as title, and drops the rest: `# A *b* c` becomes `A`.
* `C84_partly_written_refuted`: If a heading starts with markup, such as `# *b*`, the title becomes `None`. The recipe fails while writing the target, so that the beginning of the document is left behind, which counts as up to date in the next build (see C81).
* `C58_pandoc_refuted`: `md2htmlpart.py` ignores the exit status of pandoc: if pandoc fails, an empty document is written, and the recipe succeeds.
* `C85_repository_refuted`: `vcslog.py` opens `.git` in the working directory, not in the source directory that it is told about.
* `C87_number_refuted`: `--num-workers=2x` is accepted and means 2: what follows the digits is ignored.
* `C87_range_refuted`: `--start-time=9223372037` (in the year 2262) is accepted, and the conversion to nanoseconds overflows: undefined behaviour.
* `C87_short_id_refuted`: `--build-id=12` is accepted; the id is padded with zeros. Characters after the 64th are ignored.
* `C88_newline_refuted`: The name of a target may contain a line break; `--list-targets` prints it as two lines.
* `C88_hash_refuted`: The name of a target may begin with a hash sign; in the list of targets its line looks like a comment.
* `C88_quote_refuted`: `--print-dep-graph` does not escape quotes in names; the result is not a text in the language of dot.
* `C89_list_refuted`: The values of `--targets` and `--configfiles` are reported by `print(nullptr, val)`, which passes a null pointer to fprintf for `%s`: undefined behaviour whenever these options are used.
* `C89_start_time_refuted`: The start time is reported as a date, which `--start-time` does not accept.
* `C91_all_return_refuted`: If two threads wait for the same value of a SignalingCounter, only one of them is notified when the value is reached; the other one waits forever (`sched/signaling_counter.hpp`). In maike, there is one thread that waits.
* `C93_quote_refuted`: about.py puts texts into C++ string literals as they are: with a quote in the description, the file that is generated is not C++.
* `C93_backslash_refuted`: With a backslash in the description, the program shows another text (`core/bin/about.py`).
* `C94_unknown_refuted`: Members of tags that are not settings are ignored. `core/bin/about.py` has `"rebuild_policy":"always"`, but the name of the setting is `rebuild`. So the information about the build is not updated when maike is built again (`source_tree_loader/source_file_load_ctxt.cpp:229`).
* `C95_outside_refuted`: The name of a target may lead out of the target directory: with `../a.cpp` in the tags of `a.cpp`, the file is its own target, and will be overwritten (`source_file_load_ctxt.cpp:83-89`).
* `C95_absolute_refuted`: If the source directory is given by a relative path, all targets with absolute names denote the target directory itself.
* `C96_policy_refuted`: A rebuild policy in tags that are delivered by a recipe is ignored (`source_file_load_ctxt.cpp:212-232`).
* `C96_own_config_refuted`: If the tags of a file have a compiler configuration, the recipe is not asked for tags, even if `use_get_tags` is set for its kind of files.
* `C97_always_refuted`: With `--targets=a,b`, there is one list of tasks for each name, and they are processed one after the other (`core/db/source_tree.cpp:56-75`). A file that is always rebuilt and is needed for both is made twice, and `a` is out of date when the program is done.
* `C97_forced_refuted`: The same happens to all files needed for both if `--force-rebuild` is given.
* `C98_dot_refuted`: With `--source-dir=./foo` and the default configuration, nothing is built: the names of the files are relative to `foo` (normalised, `directory_scanner.cpp`), so relative to `./foo` they begin with `../`, which the default filter `^\.` leaves out.
* `C99_newline_refuted`: A line break in the name of a source file ends the comment in the line that is logged for it (`compilation_log.cpp:50-58`), so that the rest of the name becomes a command of the script a dry run prints: with a file called `a⏎rm notes.txt #.cpp`, the script removes `notes.txt`.
* `C99_backslash_refuted`: `shell_escape` (`command.cpp:11-21`) puts a backslash before backslashes and quotes, and single quotes around the word. In single quotes, the shell does not remove the backslash. As JSON has a backslash before each quotation mark inside a string, an option like `-DNAME="x"` makes the script printed by a dry run call the recipe with other arguments than the program does.
* `C103_old_file_refuted`: Only time stamps are compared. If a source file is replaced by another one, and keeps its time stamp (or gets an older one, as with `cp -p` or `mv`), nothing is built, and the result is not that of a build from scratch.
* `C103_settings_refuted`: No target depends on the configuration (maikeconfig.json) or on the version of the tools. If compiler flags are changed there, nothing is built again, and what is built afterwards is mixed with what had been built with the old flags.
* `C104_end_refuted`: A tool that is run with supplied input and reads until the end of it never sees the end: the writing end of the pipe is closed only when the call returns, and the call returns only when the tool has ended. (No part of the program supplies input to a tool at present, apart from tests.)
* `C104_filter_refuted`: The same for a filter that copies its input to its output, such as `cat`: it is stuck after having copied everything.
* `C106_generated_refuted`: With an absolute `--target-dir`, generated headers are not found by the compiler: the option names `<working directory>/<target directory>/...`.
* `C106_configured_refuted`: An absolute path among the `iquote` directories of the configuration is looked up below the source directory if `--source-dir` is given.
* `C107_texts_refuted`: A quotation mark or a backslash in the name of the source or target directory makes the definition of `MAIKE_BUILDINFO_SOURCEDIR` or `MAIKE_BUILDINFO_TARGETDIR` something that is not a string literal.
* `C109_documented_refuted`: The documentation of loaders (`doc/maike.doc.xml`) has `cxx` and `identity`. With either of them in a configuration, the whole configuration is discarded, and the default configuration is used. (The kind for C++ is called `cxx_src_loader`, and there is none called `identity`.)
* `C111_included_refuted`: The table of contents is made from the elements of the document itself (doc2html.xsl:110-144): chapters of files that are included are on the page, but not listed.
* `C111_nested_refuted`: The table of contents lists the sections of a chapter and the subsections of a section only (doc2html.xsl:110-136). The user guide has sections within a section (doc/maike.doc.xml:68-224), which are not listed.
* `C111_appendix_refuted`: For a file that is included into the appendix, only the sections at the top are made in mode appendix (doc2html.xsl:39-46); what they contain looks for an appendix around it in its own file, does not find one, and gets the class for the main part.
* `C112_section_refuted`: Sections apply templates to their elements only (doc2html.xsl:36,45): text directly within a section gets lost.
* `C113_titles_refuted`: key() looks for an item in the file that contains the reference (doc2html.xsl:95-101): a reference to an item of another file of the same document gets no text at all. Neither does one to a paragraph, which has no key.
* `C113_unnamed_refuted`: A chapter without an identifier, like one in the user guide (doc/maike.doc.xml:258), gets an entry in the table of contents that leads to the top of the page (doc2html.xsl:110-136). The user guide also refers to source_tree_loader_props (doc/maike.doc.xml:239), which does not exist: the link is without a text, and leads nowhere.
* `C114_cycle_refuted`: If files depend on each other in a cycle, the message is just "Cyclic dependency detected" (core/utils/graphutils.hpp): which files these are is not told.
* `C114_duplicate_refuted`: If a target is declared by two files, the message (core/db/source_file_list.cpp:44-62) names the first one only, so the other one has to be searched for.
* `C114_flag_refuted`: --dry-run=yes is rejected with "Option does not take any value" (core/cmd_line_parser/command_line.hpp:77), without naming the option.
* `C115_tasks_refuted`: The number of completed tasks is the sum over the targets given (core/db/source_tree.cpp:56-75): with --targets=app,app, each task of app is counted twice. If there is no task at all, the time per task is a division by zero (core/bin/maike.cpp:271-279).
* `C116_pandoc_refuted`: doc/manpage.py:90-91 ignores the return code of pandoc and returns 0: if pandoc fails, the task is regarded as successful without its target having been written, or with an old one left in place.
* `C117_bootstrap_refuted`: The bootstrap script made by a dry run (Makefile:8) has no set -e, and build.py:14-16 uses only its exit status, that is the status of the last command: if another command fails, the build goes on with what there is.
* `C118_umask_refuted`: install.sh:11-13 gives others access to the files, but not to the directories made by mkdir -p: with umask 077 an installation by root into a new directory can not be used by others.
* `C118_version_refuted`: install.sh does not remove anything: recipes of an older version, which the new one does not have any more, are still found.
* `C119_listing_refuted`: execve.cpp:30 throws a string if there are no file descriptors left for a pipe. directory_scanner.cpp:84 catches std::exception only, so the file is left out of the source tree without any message, and maike2 --list-targets or --print-dep-graph prints an incomplete result with status 0.
* `C119_late_refuted`: When such a string is thrown, the counter of the scan is released (directory_scanner.cpp:40, a parameter of processPath) before the thread pool stores the exception (thread_pool.hpp:118-122). The scan, and in principle the whole build, may be over before that, and the status is 0.
* `C119_reason_refuted`: If the string has been stored, it is thrown after all tasks have been completed (task_list.cpp:124), and not caught by main (maike.cpp:407): the program is terminated without a message.
* `C120_closed_refuted`: execve.cpp:52-57: dup2 followed by close is wrong if the read end already has the number 0, which is the case if maike2 is started with its standard input closed. Then the tools have no standard input.
* `C120_threads_refuted`: If maike2 is started with standard output and standard error closed, the numbers 1 and 2 may be used by the third pipe of a call, and the tool has no standard error stream. This depends on the order in which threads proceed.
* `C120_report_refuted`: In the same situation, the fourth pipe of a call may get these numbers, and its write end is overwritten by the one for standard error (execve.cpp:194). If the tool can not be launched, that is not noticed, and the tool has no standard error stream.
* `C122_commit_refuted`: integration_test/build_new_version.sh ends with 'exit 0' as soon as the build ids agree; the comparison of commits below is never reached.
* `C122_build_refuted`: In build_new_version.sh and bootstrap_from_release.sh, maike2 is the first command of a pipeline without pipefail; if the build fails after the program has been made, for instance in a unit test, it is not noticed.
* `C122_mktemp_refuted`: In integration_test/main.sh, the status of mktemp is lost by export; if it fails, the name of the directory is empty, and 'make PREFIX= install' installs the program to /bin and /lib of the system.
* `C123_git_refuted`: In the rule source-archive, the status of git ls-files is lost in the pipeline; where there is no repository, for instance in an unpacked release, 'make source-archive' succeeds and makes an archive without sources.
* `C123_keeps_refuted`: In the rule bootstrap, the shell truncates __buildcache/bootstrap.sh before the dry run; if the dry run fails, the working script of an unpacked release is lost.
* `C124_cflags_refuted`: pkg_config.get_cflags splits with split(' '), unlike the two other functions; two blanks in a row give an empty argument for the compiler, which takes it for the name of a file.
* `C124_escaped_refuted`: In pkg_config.py, words with blanks, which pkg-config writes with a backslash, are torn apart (shlex.split would not do that).
* `C124_order_refuted`: In cxx_linker.py, if a library is needed for a package that comes first in the list of dependencies, it is placed after the libraries it uses according to the output of pkg-config for another package; with static libraries, linking fails.
* `C125_mode_refuted`: In the Makefile, make format replaces JSON files by new ones, so that their permissions are lost.
* `C125_left_refuted`: In the Makefile, .fmt is left behind by make format if jq fails; a file of that name that was there before is lost. Since find does not tell about failures of the commands it runs, make format succeeds nevertheless.
* `C125_names_refuted`: In the Makefile, make format splits the names of source files at blanks (find -print0 and xargs -0 would not do that).
* `C126_subpath_refuted`: In install_and_rebuild_out_of_tree_from_subpath.sh, temp_build_dir is left behind if one of the commands after cd fails, since the trap has a relative name; the next run fails at mkdir.
* `C126_second_refuted`: In install_and_rebuild_out_of_tree.sh, the first temporary directory is left behind if the second can not be made.
* `C126_parent_refuted`: install_and_rebuild_out_of_tree_rel_path.sh leaves maike_targets in the parent directory of the source directory.
* `C127_name_refuted`: install_and_rebuild_out_of_tree.sh and install_and_rebuild_out_of_tree_rel_path.sh look for the new program in maike_targets, but the target directory is named after the source directory. They fail in a checkout that is not called maike.
