# Formal model of maike: design

The code under study is in `/repo` (C++17, plus recipes in Python). It has been
read as text only. The model is in `rocq/theories` and is written for Rocq/Coq
8.16.1 with its standard library only.

This file is generated by `tools/design.py` from `tools/design_head.md` (what is
written by hand), `tools/design_props.json` (how each property is treated) and
`MANIFEST.json`.

## Layout

For every area `X` of the code base there are up to five files:

* `XModel.v`: executable Gallina model, function by function, no proofs. Every
  definition cites file and lines in `/repo`, and says what has been left out.
* `XSpec.v`: a small vocabulary in which the properties are stated
  (reachability, "is a quoted list", ...), independent of how the code works.
* `XProofs.v`: lemmas. `LocProofs.v`, `TimeProofs.v`, `LexCheck.v` and
  `MainExample.v` belong here too.
* `XProps.v`: the property theorems, each closed by a lemma and followed by
  `Print Assumptions`; then concrete cases that meet their hypotheses.

Theorems are named after properties: `C07_...` belongs to C07. The suffix
`_partial` marks a theorem that proves only part of its property. The suffix
`_refuted` marks a theorem which exhibits a counterexample in the model: the
property, as a user would expect it, does not hold of the code. Such theorems
are findings; they are collected below.

| Area | Files of /repo |
|------|----------------|
| `Graph` | `core/utils/graphutils.hpp` |
| `Path`, `Str`, `SMap` | what is used of `std::filesystem::path` (lexical operations), `std::string`, `std::map` |
| `Db`, `DepGraph`, `FileList` | `core/db/dependency_graph`, `dependency.hpp`, `source_file_list.cpp`, `source_file_record.hpp`, `source_file_info.hpp`, `target*.hpp`; `core/source_tree_loader/main.cpp` |
| `Sched`, `TaskList` | `core/db/task_list.cpp`, `task.cpp`, `core/sched/event.hpp`, `signaling_counter.hpp`, `task_counter.hpp`, `thread_pool.*` |
| `Pool` | `core/sched/thread_pool.*` (including `AsyncTaskResult`) |
| `Build` | `core/utils/fs.cpp`, `core/db/target_info.cpp`, `task.cpp`, `dependency.hpp`, `source_file_record.cpp` |
| `Lex` | lexers in `core/source_file_info_loaders/cxx` and `extension` |
| `Io` | `core/io/fifo.hpp`, `input_buffer.hpp`, `output_buffer.hpp` |
| `Load` | `core/source_tree_loader/source_file_load_ctxt.cpp`, `source_file_loader_delegator.cpp`, `command_dictionary.cpp`, `core/db/compiler.*`, `core/utils/fs.hpp` |
| `Scan` | `core/source_tree_loader/directory_scanner.*` |
| `Value` | `core/build/id.cpp`, `core/sched/thread_count.cpp`, `core/utils/system_time_stamp.cpp`, the enumerated settings |
| `Cmd` | `core/cmd_line_parser` |
| `Json`, `JLoad` | `core/key_value_store` |
| `Log` | `core/exec/command.cpp`, `core/db/compilation_log.cpp` |
| `Exec` | `core/exec/execve.cpp`, `exit_status.hpp` |
| `Feed` | `core/exec/execve.cpp` with `core/io/io_redirector.hpp`, `mem_io_redirector.hpp`: tools that get input |
| `Fork` | `core/exec/execve.cpp` again: several calls at the same time |
| `Tree`, `Again` | `core/source_tree_loader/main.cpp` (scan and load together), `recipes/make_directory.py` |
| `Recipe`, `Output` | `makeBuildCommand`, reading the output of recipes, `recipes/*.py` (see below) |
| `Make` | `recipes/copy_file.py`, `sass2css.py`, `cxx_compiler.py`, `cxx_linker.py`, `make_lib.py` (what they do to files) |
| `Cxx` | `recipes/cxx_compiler.py`: the whole command |
| `Doc`, `Mark`, `Vcs` | `recipes/doc2html.py`, `md2htmlpart.py`, `vcslog.py` |
| `Write` | `core/db/compilation_log.cpp` with `core/db/task_list.cpp`: several threads |
| `Job` | `core/bin/cmd_line_options.hpp` and `core/bin/maike.cpp`: values of options and the parameters of a job |
| `Show`, `Report` | `core/bin/maike.cpp`: the texts printed by `printTargets` and `printDepGraph`, the lines before them, and the report of the options |
| `Help` | `core/bin/maike.cpp`: `printHelp`; `core/cmd_line_parser/command_line.hpp`: the tables for it |
| `Sync` | `core/sched/event.hpp`, `signaling_counter.hpp` on their own |
| `About` | `core/bin/about.py`, `core/bin/maike.cpp`: `printVersion` and `printAbout` |
| `Tag`, `Step` | (as `Load`) |
| `Whole` | (as `Main` and `Build`) |
| `Default` | core/source_tree_loader/{input_filter.cpp,config.hpp}, core/bin/maike.cpp |
| `Script` | core/db/task.cpp, core/exec/execve.cpp, Makefile |
| `Due` | (no code of its own: the decisions of `Build`, over a whole build) |
| `Mean` | (no code of its own: core/source_tree_loader/source_file_load_ctxt.cpp as in `Load`) |
| `Local` | (no code of its own: the models of `FileList`, `DepGraph`, `Graph`, `Recipe`, compared for two projects) |
| `Clean` | (no code of its own: the models of `Build`, `Sched`, `TaskList`, with the contents of files) |
| `Fail` | (as `Sched`, `Build`) |
| `Mem` | `core/utils/mem_status.cpp` |
| `Link` | (as `FileList`, `TaskList`, `Kind`) |
| `Kind`, `Found` | `core/source_file_info_loaders/{app,generic,lib,maikerule}`, `cxx` and `extension` as loaders, `core/source_tree_loader/source_file_loader_delegator.cpp` |
| `Own` | `core/utils/unique_function.hpp`, `core/source_file_info_loaders/loader.hpp`, `core/io/input_file.hpp`, `core/utils/scope_exit_handler.hpp` |
| `Cfg`, `Conf` | `core/bin/config.*`, `core/source_tree_loader/config.*`, `input_filter.*`, `core/source_file_info_loaders/config.*` |
| `Main` | `core/bin/maike.cpp`, `core/bin/cmd_line_options.hpp`, `core/build/info.*`, `core/db/source_tree.cpp` |

Building takes about two minutes with `make -j4`.

## Trusted base

* Coq's kernel (8.16.1), including its virtual machine, which is used for
  concrete cases and for finite case analyses only. `coqchk` accepts all files.
* `Print Assumptions` says "Closed under the global context" for each of the
  theorems in the `XProps.v` files: no axiom is used. (`coqchk -o` lists seven
  constants of `Coq.ssr.ssrunder`. They belong to a file of the standard
  library that gets loaded by `lia`; no theorem depends on them.) There are no
  axioms, section-less variables, admitted proofs, functors, module types or
  plugins.
* The reading of the code: the model is not extracted from the code, and has
  not been compared with a running program. Each model definition says which
  lines it stands for.
* What is assumed about things outside of the code, which is listed next.

### Assumptions about what is outside of the code

Concurrency

* Whatever is done while a mutex is held is one step, and so is each access to
  an atomic; memory is sequentially consistent. Condition variables may wake up
  spuriously. All interleavings are considered (fairness is needed for
  statements that something ends, which are stated as bounds on the number of
  steps that are not spurious wakeups).
* Threads can be created (the result of `pthread_create` is ignored by the code).
* The exception slot of the pool is empty, and the pool idle, when processing
  starts.
* The captures of a function object are destroyed in reverse order of
  declaration.

File system and processes

* Decision about running a recipe and the run itself: the decision is atomic
  with the start of the task. Recipes write to their own targets only (C15,
  C17, C50), and leave them newer than their inputs on success.
* The file system does not change while the source tree is scanned or while
  recipes are looked up concurrently. Directory entries have ordinary, distinct
  names. Only exceptions derived from `std::exception` are thrown by loaders.
* No file has an empty name.
* Running processes: `fork` and `exec` themselves, descriptors inherited by
  other children, grandchildren outliving the child, and errors from `read` and
  `write` are left out. The wait status macros are those of glibc.
* Writing to the log does not throw within a task.

Libraries

* `std::filesystem::path` lexical operations as specified by C++17 (`Path.v`),
  with libstdc++'s behaviour where that differs in details; `std::lower_bound`
  as in libstdc++.
* A moved-from `std::string` is empty (libstdc++).
* jansson: objects keep the order of insertion; `json_load_callback` is any
  machine that takes one character at a time, calls back for at most a buffer
  of constant size, and does not call back after the end of the input; strings
  must be valid UTF-8; what is dumped is read back as the same value with
  members sorted.
* Regular expressions are not modelled: whether a text is an acceptable
  expression, and whether it matches, are parameters.
* `strtoll`, `strtol` and `atoi` as in C17; what the standard leaves undefined
  is the distinct outcome `Undefined`. Characters with codes above 127 are not
  white space. `gmtime_r` uses the proleptic Gregorian calendar.
* Strings given on the command line and in configuration files contain no NUL.
* Python: `json.loads` inverts what jansson writes; `subprocess.run`,
  `pkg-config`, `sass.compile`, pandoc, parsing XML, pygit2 and the compiler are parameters, with return
  codes within -255..255.
* POSIX shells: the rule for single quotes (C53).

### Not modelled

* `std::random_device` and the generation of build ids (`core/build/id.cpp`:
  only conversion from and to text).
* Summaries of options; messages on standard error, apart
  from the report of options (C89); lines starting with `#` that the program
  prints while it works.
* `core/io/reader.hpp`, `writer.hpp` (type erasure), `core/db/invoker.hpp`, `core/db/loader.hpp`,
  `core/utils/callwrappers.hpp`: no logic that is
  visible from outside, apart from forwarding.
* Resource exhaustion: memory, descriptors, threads.
* `build.py`, `doc/*`: part of the build of maike itself.
* The stylesheet `recipes/doc2html.xsl`.
* Tests.

## Testing the theorems against wrong programs

`seeded/LOG.jsonl` has one line per experiment: a definition of the model was
edited the way a realistic bug would, everything was rebuilt in a scratch copy,
and the theorems that depend on a proof which no longer goes through were
recorded. A theorem that fails in this way is one that is no longer established
(the edit may break the proof, or make the statement false; in either case the
build stops).
