{"id": "C01", "title": "Dependencies are visited before dependents", "statement": "If visiting a dependency graph in topological order returns normally, the callback has been invoked exactly once for every node, and for each node only after it was invoked for every node that the node has a (resolved) dependency on.", "quantifier": "every finite graph (any number of nodes, any adjacency, duplicate edges and unresolved references included)", "why_tests_cant": "Graph shapes are infinite; the iterative DFS keeps duplicate stack entries whose interplay only shows up on particular edge orders.", "anchors": ["core/utils/graphutils.hpp: processGraphNodeRecursive, visitNodesInTopoOrder"]}
{"id": "C02", "title": "Cyclic dependencies are always detected and never reported spuriously", "statement": "Visiting a graph in topological order always terminates, and it fails with 'Cyclic dependency detected' if and only if the graph has a directed cycle (a self-dependency counts).", "quantifier": "every finite graph", "why_tests_cant": "Absence of false positives/negatives and termination are universal statements over all graphs.", "anchors": ["core/utils/graphutils.hpp: processEdge, processGraphNodeRecursive, visitNodesInTopoOrder"]}
{"id": "C03", "title": "Traversal from one node reports exactly what is reachable", "statement": "Traversing from one root either fails because a cycle is reachable from the root, or invokes the callback exactly once for every node reachable from the root (and no other), dependencies first and the root last; each non-root node is reported together with a dependency edge of some reachable node that leads to it.", "quantifier": "every finite graph and every root", "why_tests_cant": "Reachability over arbitrary graphs is not enumerable.", "anchors": ["core/utils/graphutils.hpp: processGraphNodeRecursive"]}
{"id": "C04", "title": "Resolved dependencies point at the file with that name", "statement": "Building a dependency graph from a file list numbers the nodes 0..n-1 in path order, and every dependency whose name is in the list refers to precisely the node having that name; strict construction fails if and only if some dependency names a file which is not in the list, and lenient construction leaves exactly those dependencies unresolved.", "quantifier": "every file list and every set of declared dependencies", "why_tests_cant": "The lookup is a binary search whose correctness depends on the ordering invariant for all list sizes.", "anchors": ["core/db/dependency_graph.cpp: find, resolve, DependencyGraph::DependencyGraph"]}
{"id": "C05", "title": "Looking up a node by path", "statement": "getNode(path) returns the node whose path is the requested one if there is such a node, and nothing otherwise.", "quantifier": "every file list and every requested path", "why_tests_cant": "Binary search boundary behaviour over all list sizes and keys.", "anchors": ["core/db/dependency_graph.cpp: getNode"]}
{"id": "C06", "title": "Recursive dependency query is exact", "statement": "The recursive dependency query for a node returns each node reachable from it exactly once (excluding itself), every dependency before its dependents, or fails when there is a reachable cycle.", "quantifier": "every resolved dependency graph and every node", "why_tests_cant": "Same as for graph traversal: unbounded graph shapes.", "anchors": ["core/db/dependency_graph.cpp: getUseDepsRecursive"]}
{"id": "C07", "title": "A compile task never starts before its dependencies have succeeded", "statement": "While a task list is processed, the recipe of a task is started only when every task it depends on, directly or transitively, has completed successfully.", "quantifier": "every dependency graph, number of workers, interleaving of scheduler and workers, and outcome of the individual tasks", "why_tests_cant": "Schedules cannot be enumerated; a race only shows on particular interleavings.", "anchors": ["core/db/task_list.cpp: process", "core/db/task.cpp: status", "core/sched/thread_pool.cpp"]}
{"id": "C08", "title": "Each task runs at most once, and exactly once on success", "statement": "While a task list is processed no task is started twice; if processing returns normally every task has been started and completed exactly once, all succeeded, and the reported count is the number of tasks.", "quantifier": "every task list, number of workers, interleaving and outcome", "why_tests_cant": "Universal over schedules.", "anchors": ["core/db/task_list.cpp: process"]}
{"id": "C09", "title": "A failed task stops its dependents and fails the build", "statement": "If a task fails then no task depending on it is ever started, and processing does not return normally.", "quantifier": "every task list, interleaving and failure pattern", "why_tests_cant": "Universal over schedules and failure patterns.", "anchors": ["core/db/task_list.cpp: process", "core/db/task.cpp: status, runIfNecessary"]}
{"id": "C10", "title": "Processing a task list does not get stuck", "statement": "Provided that every started task finishes by recording success or failure, there is no reachable state in which the processing loop waits forever: from each reachable state some participant can make progress until processing has returned.", "quantifier": "every task list, number of workers >= 1 and interleaving", "why_tests_cant": "Deadlocks and lost wake-ups are schedule dependent.", "anchors": ["core/db/task_list.cpp: process", "core/sched/event.hpp", "core/sched/signaling_counter.hpp", "core/sched/thread_pool.cpp"]}
{"id": "C11", "title": "Processing ends even if a task ends with an unexpected exception", "statement": "If a task ends with an exception before recording any result, processing still terminates, with that exception.", "quantifier": "every task list and interleaving", "why_tests_cant": "The failure needs a particular dependency structure together with an exception inside the worker.", "anchors": ["core/db/task_list.cpp: process", "core/db/task.cpp: runIfNecessary", "core/exec/execve.cpp: execve"]}
{"id": "C12", "title": "The thread pool runs every submitted task exactly once, in order", "statement": "Every task submitted to the pool is started exactly once, tasks are started in the order they were submitted, and all of them have finished when the pool's destructor returns.", "quantifier": "every sequence of submissions, number of workers >= 1 and interleaving", "why_tests_cant": "Interleavings cannot be enumerated.", "anchors": ["core/sched/thread_pool.cpp", "core/sched/thread_pool.hpp"]}
{"id": "C13", "title": "Pool errors are kept until collected", "statement": "The exception that is collected from the pool is one thrown by a task that was executed since the previous collection, and if any task threw since then, collection returns one.", "quantifier": "every sequence of task outcomes and collections", "why_tests_cant": "History dependent.", "anchors": ["core/sched/thread_pool.cpp: takeLastException", "core/sched/thread_pool.hpp: addTask"]}
{"id": "C14", "title": "A recipe is run exactly when needed", "statement": "A task invokes its recipe if and only if recompilation is forced, the source file's rebuild policy is 'always', or its targets are not up to date; otherwise it succeeds without invoking anything. If the recipe's exit status is failure the task fails.", "quantifier": "every task, file system state and recipe result", "why_tests_cant": "Ranges over all combinations of time stamps and dependency lists.", "anchors": ["core/db/task.cpp: runIfNecessary", "core/db/source_file_record.cpp: isUpToDate, compile"]}
{"id": "C15", "title": "Up-to-date means every target is newer than everything it is made from", "statement": "A source file is considered up to date if and only if each of its non-directory targets exists and is strictly newer than the source file and than every non-external, non-directory file the target depends on, where a dependency that has gone missing does not count as newer.", "quantifier": "every file system state (existence, kind and time stamp per path) and every dependency list", "why_tests_cant": "Infinitely many time-stamp configurations.", "anchors": ["core/db/target_info.cpp", "core/db/dependency.hpp", "core/utils/fs.cpp: isOlder"]}
{"id": "C16", "title": "Comparing ages of files", "statement": "isOlder and isNewer are strict comparisons of time stamps in which a missing file is treated consistently: they fail only if neither file exists, and they never both hold.", "quantifier": "every pair of files and time stamps", "why_tests_cant": "Boundary cases (equal stamps, missing files) over all stamps.", "anchors": ["core/utils/fs.cpp: isOlder, isNewer"]}
{"id": "C17", "title": "Rebuilding without changes does nothing", "statement": "If a build has completed successfully and each executed recipe left its targets strictly newer than its inputs, then a second build without any changes in between invokes no recipe except those with rebuild policy 'always' and those that directly or indirectly need something built by such a recipe.", "quantifier": "every project (acyclic dependency graph) and initial file system state", "why_tests_cant": "Histories and file-system states are unbounded.", "anchors": ["core/db/task.cpp", "core/db/task_list.cpp", "core/db/source_file_record.cpp", "core/db/target_info.cpp"]}
{"id": "C18", "title": "Dry run executes nothing", "statement": "With the dry-run flag set, executing a command starts no process and reports success.", "quantifier": "every command", "why_tests_cant": "Absence of an effect for all commands.", "anchors": ["core/exec/execve.cpp: LocalExecve / execve"]}
{"id": "C19", "title": "C++ loader passes the source through unchanged", "statement": "Filtering a C++ source file delivers to the source consumer exactly the bytes of the file, in order.", "quantifier": "every byte sequence", "why_tests_cant": "All byte sequences cannot be enumerated.", "anchors": ["core/source_file_info_loaders/cxx/source_file_loader.cpp: filterInput"]}
{"id": "C20", "title": "Tags keep their line and column positions", "statement": "The tag stream delivered by filtering a C++ source file has the same number of lines as the file, and each character of a tag appears on the same line and in the same column as in the file; outside tags it only contains white space. JSON error positions therefore refer to the source file.", "quantifier": "every byte sequence", "why_tests_cant": "All byte sequences.", "anchors": ["core/source_file_info_loaders/cxx/source_file_loader.cpp: filterInput", "core/source_file_info_loaders/extension/source_file_loader.cpp: filterInput"]}
{"id": "C21", "title": "Tags are found exactly in //@ comments", "statement": "A C++ source line contributes to the tag stream iff it starts a //@ comment outside of string literals, character literals and block comments.", "quantifier": "every C++ source text", "why_tests_cant": "Lexing contexts are unbounded.", "anchors": ["core/source_file_info_loaders/cxx/source_file_loader.cpp: filterInput"]}
{"id": "C22", "title": "Includes are found exactly where #include directives are", "statement": "The dependencies extracted from a C++ source are exactly the operands of its #include directives, in order, where directives in comments and in string literals do not count.", "quantifier": "every C++ source text", "why_tests_cant": "All source texts; lexing state interactions.", "anchors": ["core/source_file_info_loaders/cxx/source_file_loader.cpp: getDependencies"]}
{"id": "C23", "title": "The FIFO delivers a byte stream unchanged", "statement": "For one writer that writes non-empty chunks to the FIFO and then stops, and one reader reading with arbitrary buffer sizes, the reader receives exactly the concatenation of the written chunks and then end of file, regardless of how writes and reads interleave.", "quantifier": "every sequence of chunks, sequence of read sizes, and interleaving", "why_tests_cant": "Chunk/read size combinations and interleavings are infinite.", "anchors": ["core/io/fifo.hpp"]}
{"id": "C24", "title": "Buffered output followed by buffered input is the identity", "statement": "Bytes put one by one in an output buffer on one end and read one by one through an input buffer on the other end arrive unchanged and in order, followed by end of file.", "quantifier": "every byte sequence, every buffer capacity, every interleaving", "why_tests_cant": "Buffer-boundary conditions for all lengths.", "anchors": ["core/io/output_buffer.hpp", "core/io/input_buffer.hpp", "core/io/fifo.hpp"]}
{"id": "C25", "title": "Every matching file of the source tree is loaded exactly once", "statement": "A recursive scan collects exactly the accepted entries of the source tree, each once, regardless of the order in which worker threads process them, and does not return before all of them have been processed.", "quantifier": "every directory tree, filter, number of workers and interleaving", "why_tests_cant": "Interleavings and directory trees are unbounded.", "anchors": ["core/source_tree_loader/directory_scanner.cpp: processPath, DirectoryScanner"]}
{"id": "C26", "title": "Two sources cannot claim the same target", "statement": "Collecting the targets of all source files succeeds if and only if no two declared targets (other than a source file itself) have the same normalised path; if it succeeds, the result maps every declared target to its source file.", "quantifier": "every collection of source files", "why_tests_cant": "All collections of names and path spellings.", "anchors": ["core/db/source_file_list.cpp: insertUnique, collectTargets"]}
{"id": "C27", "title": "Placeholders are created exactly for external dependencies", "statement": "Creating placeholders adds one entry with no targets for every dependency that is external (system or pkg-config) and not already known, never for other dependencies, and leaves existing entries unchanged.", "quantifier": "every source file list", "why_tests_cant": "All dependency lists.", "anchors": ["core/db/source_file_list.cpp: insertPlaceholderIfExternal, createPlaceholdersForExternalEntries"]}
{"id": "C28", "title": "A target never depends on itself", "statement": "The record generated for a target has the declared use dependencies plus those contributed by the files reachable from its source file, has its source file as only build dependency, and never lists the target itself unless its own declaration does.", "quantifier": "every acyclic project", "why_tests_cant": "All projects.", "anchors": ["core/db/source_file_list.cpp: makeSourceFileInfo"]}
{"id": "C29", "title": "The most specific file-name extension selects the loader", "statement": "The loader chosen for a file is the one registered for the longest dot-suffix of its full extension that is registered, and none if no suffix is registered.", "quantifier": "every file name and loader registry", "why_tests_cant": "All file names.", "anchors": ["core/utils/fs.hpp: matchLongestExtension", "core/utils/fs.cpp: getFullExtension"]}
{"id": "C30", "title": "Recipes are looked up in the project first", "statement": "A recipe name resolves to the file in the project directory if it exists, otherwise to the one in the system directory, otherwise resolution fails; and the answer of a repeated query is the same as the first one.", "quantifier": "every recipe name, directory contents and query history", "why_tests_cant": "History (cache) dependent.", "anchors": ["core/source_tree_loader/command_dictionary.cpp: CommandDictionary::get"]}
{"id": "C31", "title": "Merging configuration keeps everything that is not overridden", "statement": "Merging configuration b into a yields a configuration in which arrays are concatenated, objects merged recursively, scalars taken from b, keys present only in one kept from it; merging is associative and the empty configuration is neutral; it fails iff a key has different kinds of values in the two.", "quantifier": "every pair/triple of configuration values", "why_tests_cant": "All JSON values.", "anchors": ["core/key_value_store/compound.cpp: operator|=", "core/key_value_store/array.cpp: operator|="]}
{"id": "C32", "title": "A malformed tag block is reported", "statement": "Loading JSON from a non-blank text either yields a value or an error; it never silently yields an empty value.", "quantifier": "every text", "why_tests_cant": "All texts and all positions of truncation.", "anchors": ["core/key_value_store/json_handle.cpp: ReadHelper::fetch, jsonLoad"]}
{"id": "C33", "title": "Build ids survive printing and parsing", "statement": "Parsing the printed form of a build id gives back the same id; a string is rejected if and only if one of its first 64 characters is not a hexadecimal digit.", "quantifier": "every 256-bit id, every string", "why_tests_cant": "2^256 values.", "anchors": ["core/build/id.cpp"]}
{"id": "C34", "title": "Option values and lists are decoded faithfully", "statement": "A comma separated list option is split at exactly the unescaped commas and escapes are removed, so any list of strings can be passed by escaping.", "quantifier": "every list of strings", "why_tests_cant": "All lists of strings.", "anchors": ["core/cmd_line_parser/command_line.cpp: next_array_token", "core/cmd_line_parser/command_line.hpp: fromString"]}
{"id": "C35", "title": "Each command line argument is matched with the option it names", "statement": "An argument whose name part is an option name sets exactly that option, the last occurrence winning; an argument whose name part is not the name of an option is rejected.", "quantifier": "every argument vector and option table", "why_tests_cant": "All argument vectors.", "anchors": ["core/cmd_line_parser/command_line.cpp: binaryFind, collect_options", "core/cmd_line_parser/command_line.hpp"]}
{"id": "C36", "title": "Thread count and time stamp options", "statement": "Parsing a printed thread count gives back the same value, and the decimal number of seconds is understood as that time; a zero or negative thread count is rejected and the number of threads is never less than one; trailing garbage is rejected; the printed form of a time stamp is its date and time of day, so different seconds are printed differently.", "quantifier": "every value and every string", "why_tests_cant": "All integers/strings.", "anchors": ["core/sched/thread_count.cpp", "core/utils/system_time_stamp.cpp"]}
{"id": "C37", "title": "Names of enumerated settings round-trip", "statement": "For each enumerated setting (log format, log level, rebuild policy, source origin, extension replacement mode) printing then parsing is the identity, different values have different names, and unknown names are rejected.", "quantifier": "every enumerator and every string", "why_tests_cant": "All strings.", "anchors": ["core/db/log_format.cpp", "core/db/rebuild_policy.cpp", "core/db/source_file_origin.cpp", "core/db/compilation_log.cpp"]}
{"id": "C38", "title": "Printed commands can be read back unambiguously", "statement": "Two different commands are never printed identically in the log, and every argument can be recovered from the printed form.", "quantifier": "every command", "why_tests_cant": "All argument strings.", "anchors": ["core/exec/command.cpp: shell_escape, toString"]}
{"id": "C39", "title": "Owning wrappers release what they own exactly once", "statement": "For any sequence of constructions, moves and destructions of the type-erased wrappers, each wrapped object is destroyed exactly once and none is used after it was destroyed; a scope exit handler is run exactly once.", "quantifier": "every sequence of operations", "why_tests_cant": "Operation histories are unbounded.", "anchors": ["core/utils/unique_function.hpp", "core/source_file_info_loaders/loader.hpp", "core/io/input_file.hpp", "core/utils/scope_exit_handler.hpp"]}
{"id": "C40", "title": "Log output keeps the text and marks every line", "statement": "When the output of a tool is appended to a log record each of its lines appears once, in order, with the continuation prefix, and nothing else is added.", "quantifier": "every tool output", "why_tests_cant": "All texts.", "anchors": ["core/db/compilation_log.cpp: append_log"]}
{"id": "C41", "title": "Link order puts users before what they use, without duplicates", "statement": "The linker recipe passes each implementation dependency exactly once, in such an order that if the dependency list has dependencies before dependents then every object precedes those it depends on.", "quantifier": "every dependency list", "why_tests_cant": "All dependency lists.", "anchors": ["recipes/cxx_linker.py: collect_deps, filter_deps", "recipes/make_lib.py"]}
{"id": "C42", "title": "Merging compiler settings", "statement": "Combining the default compiler of a loader with the compiler named in a file's tags takes the recipe and its origin from the tags if present there and from the default otherwise, and merges the configurations.", "quantifier": "every pair of compiler settings", "why_tests_cant": "All pairs.", "anchors": ["core/db/compiler.cpp: operator|"]}
{"id": "C43", "title": "Available memory is read from the right field", "statement": "The memory query reports the number of bytes stated by the MemAvailable line wherever it occurs, and 0 if there is none.", "quantifier": "every well-formed meminfo text", "why_tests_cant": "All texts.", "anchors": ["core/utils/mem_status.cpp"]}
{"id": "C44", "title": "Search paths and target locations are computed consistently", "statement": "A file's declared dependency './x' refers to x in the directory of the file, any other project dependency is relative to the source directory, and generated dependencies refer to the same location inside the target directory at which the corresponding target is placed.", "quantifier": "every source location, reference and directory configuration", "why_tests_cant": "All paths.", "anchors": ["core/source_tree_loader/source_file_load_ctxt.cpp"]}
{"id": "C45", "title": "A boolean setting can be overridden", "statement": "A configuration read later can change a boolean setting made by a configuration read earlier.", "quantifier": "every setting and pair of boolean values", "why_tests_cant": "All names and nesting depths.", "anchors": ["core/key_value_store/compound.cpp: operator|=", "core/key_value_store/json_handle.hpp: Type"]}
{"id": "C46", "title": "Loading a project fails for three reasons only", "statement": "Given the source files found by the directory scan: if two targets have the same normalised name, loading fails and names one such target; otherwise, if the source file of some target directly or indirectly needs a file that needs itself, loading fails with a cycle error; otherwise, if something needed by a source file or generated file is neither a source file nor a target nor external, loading fails to resolve; otherwise loading succeeds, the graph has exactly the source files, targets and external files as nodes, source files keep their records, and every dependency in it refers to the node it names.", "quantifier": "every set of source files", "why_tests_cant": "All projects; combination of four passes over the list.", "anchors": ["core/source_tree_loader/main.cpp: load", "core/db/source_file_list.cpp", "core/db/dependency_graph.cpp"]}
{"id": "C47", "title": "Building a target builds exactly what the target needs", "statement": "The task list for a target consists of exactly those source files with targets that the target's source file directly or indirectly depends on (including itself); the list without a target consists of all source files with targets. Construction fails exactly when there is a dependency cycle (among the files concerned). Nothing outside of the list is ever started.", "quantifier": "every project and target", "why_tests_cant": "Ranges over all dependency graphs.", "anchors": ["core/db/task_list.cpp: TaskList", "core/db/task.cpp: Task", "core/utils/graphutils.hpp"]}
{"id": "C48", "title": "No worker is left behind when processing returns or throws", "statement": "When processing of a task list ends, normally or by an exception, every task that was started has finished, nothing remains in the queue, and no worker still refers to the local synchronisation objects.", "quantifier": "every task list, number of workers, interleaving and outcome", "why_tests_cant": "Use after scope exit depends on the schedule.", "anchors": ["core/db/task_list.cpp: process", "core/sched/signaling_counter.hpp", "core/sched/event.hpp"]}
{"id": "C49", "title": "Everybody who waits for the result of a task gets it", "statement": "Threads that ask for the result of a task submitted to the pool do not get anything before it has ended; once it has ended, each of them gets the value it returned or the exception it threw.", "quantifier": "every number of reading threads, outcome and interleaving", "why_tests_cant": "Lost wakeups depend on the schedule.", "anchors": ["core/sched/thread_pool.hpp: AsyncTaskResult, addTask"]}
{"id": "C50", "title": "An incremental build is complete and minimal", "statement": "After a successful build, if one file that is not itself built changes, the next build that succeeds rebuilds every source file that has a target which is missing, or not newer than the source file or something it directly or indirectly needs; and it rebuilds nothing that is not made from the changed file, directly or indirectly (except because of rebuild policy 'always').", "quantifier": "every project, schedule, file system state and change of a file", "why_tests_cant": "Ranges over all projects, changes and interleavings of the two builds.", "anchors": ["core/db/task.cpp: runIfNecessary", "core/db/task_list.cpp", "core/db/dependency_graph.cpp: getUseDepsRecursive", "core/db/source_file_record.cpp: isUpToDate"]}
{"id": "C51", "title": "Files depend on the directory they are in", "statement": "A scanned source file of a known type, or directory, other than the source directory itself and the recipe that makes directories, depends on the directory that contains it; a file whose type is not known has neither dependencies nor targets.", "quantifier": "every file, directory, tag and loader configuration", "why_tests_cant": "All files and configurations.", "anchors": ["core/source_tree_loader/source_file_loader_delegator.cpp: load", "core/source_tree_loader/source_file_load_ctxt.cpp: loadSourceFile"]}
{"id": "C52", "title": "Files depend on the recipe that compiles them", "statement": "If a source file is compiled by a recipe, that recipe is among the dependencies of the source file, so that changing the recipe causes a rebuild.", "quantifier": "every file, tag and loader configuration", "why_tests_cant": "All combinations of default compilers and compilers in tags.", "anchors": ["core/source_tree_loader/source_file_load_ctxt.cpp: loadSourceFile", "core/db/source_file_record.cpp: makeBuildCommand", "core/db/compiler.cpp: operator|"]}
{"id": "C53", "title": "Printed commands can be pasted into a shell", "statement": "A command as printed in the log, when passed to a POSIX shell, is split into the very words of the command.", "quantifier": "every command", "why_tests_cant": "All argument strings.", "anchors": ["core/exec/command.cpp: shell_escape, toString"]}
{"id": "C54", "title": "Log level 'errors' prints nothing but errors", "statement": "With the log level set to errors, nothing is written to stdout, and stderr gets what the tools wrote to their stderr.", "quantifier": "every task and output of a tool", "why_tests_cant": "All outputs and tasks.", "anchors": ["core/db/compilation_log.cpp: write", "core/db/compilation_log.hpp: typeDescription"]}
{"id": "C55", "title": "The output and the result of a tool are captured completely", "statement": "However a tool interleaves its writes, and however large they are, running it does not block forever, everything it wrote to stdout and to stderr has been captured when the call returns, and the exit code or signal is reported as it was.", "quantifier": "every sequence of writes, pipe size, and interleaving of the tool with the threads that read", "why_tests_cant": "Deadlocks on full pipes depend on sizes and timing.", "anchors": ["core/exec/execve.cpp: communicateWith, read, IOCapture", "core/exec/exit_status.hpp"]}
{"id": "C56", "title": "A tool that reads its standard input sees the end of it", "statement": "Running a tool that reads from its standard input returns: as no input is provided, the tool gets to see the end of the input.", "quantifier": "every sequence of actions of a tool and every interleaving", "why_tests_cant": "Depends on when file descriptors are closed in relation to waiting.", "anchors": ["core/exec/execve.cpp: execve, communicateWith, write"]}
{"id": "C57", "title": "A recipe is told everything about its task", "statement": "The command that builds a file runs the recipe of its effective compiler, or the file itself if it has none, with 'compile' and one JSON object, which states the source file, all targets in order, all dependencies in order with name, origin and properties, the effective compiler configuration, the task id, and the log format.", "quantifier": "every source file, compiler, list of targets and dependencies", "why_tests_cant": "All file names (including those that are not valid text) and properties.", "anchors": ["core/db/source_file_record.cpp: makeBuildCommand", "core/db/dependency.cpp: toJson", "core/build/info.hpp: toJson"]}
{"id": "C58", "title": "A recipe fails if a tool it runs fails", "statement": "A recipe that comes with maike exits with status 0 iff every tool it has to run has been run and succeeded.", "quantifier": "every recipe that runs a compiler, linker, archiver or a configured command, and every result of these", "why_tests_cant": "All results of external tools.", "anchors": ["recipes/cxx_linker.py", "recipes/make_lib.py", "recipes/cxx_compiler.py: compile", "recipes/generic.py", "recipes/md2htmlpart.py: convert", "recipes/doc2html.py: compile"]}
{"id": "C59", "title": "Compiler flags are passed as configured", "statement": "The flags listed in the configuration are passed to the compiler, in the same order, each as many times as it is listed.", "quantifier": "every list of flags and dependencies", "why_tests_cant": "All lists of flags.", "anchors": ["recipes/cxx_compiler.py: collect_cflags"]}
{"id": "C60", "title": "The selected revision of the C++ standard is within the configured limits", "statement": "If some compiler supports a revision within the given limits, then a compiler is selected together with a revision (possibly its default) within the limits; both limits are optional.", "quantifier": "every list of compilers, whatever they support, and every pair of limits", "why_tests_cant": "All combinations of compilers and limits.", "anchors": ["recipes/cxx_compiler.py: select_cpp_rev, select_compiler_and_stdrev"]}
{"id": "C61", "title": "The output of a recipe is read as it is", "statement": "When a recipe is asked for its configuration or for the tags of a file, the JSON value that it prints is what is used, regardless of its size and of what surrounds it; output without a value is taken as such, or reported.", "quantifier": "every output of a recipe", "why_tests_cant": "All sizes of output in relation to buffer sizes.", "anchors": ["core/db/compiler.cpp: BufferReader, read, configRecipe, getTags"]}
{"id": "C62", "title": "A dumped configuration can be loaded again", "statement": "The file written with --configdump, given as the only configuration file, is loaded without any message and yields the same configuration: the same filters, extensions, loaders with their settings, and compilers. This holds for every configuration that was itself loaded from files, and for the default configuration.", "quantifier": "every configuration, and every list of configuration files", "why_tests_cant": "All combinations of loaders, extensions, patterns, recipe paths and nested compiler settings.", "anchors": ["core/bin/config.hpp: Config, toJson, fromJson", "core/bin/config.cpp: loadConfig", "core/source_tree_loader/config.cpp: Config, toJson", "core/source_file_info_loaders/config.cpp: Config, toJson", "core/bin/maike.cpp: dumpConfig"]}
{"id": "C63", "title": "A project is only built with the configuration it has been given", "statement": "If the configuration cannot be used, because a setting is missing or has the wrong type, then this is reported, and the program stops.", "quantifier": "every list of configuration files", "why_tests_cant": "All the ways in which a configuration may be unusable.", "anchors": ["core/bin/config.cpp: loadConfig"]}
{"id": "C64", "title": "A file is loaded in the way its extension has been configured for", "statement": "Each configured extension is associated with the loader it names, with the settings and the compiler of that loader, where the recipe of the compiler has been located; an extension that names a loader which has not been configured is an error. A file is processed by the loader for the longest of its extensions.", "quantifier": "every configuration and every file name", "why_tests_cant": "All combinations of extensions and loaders.", "anchors": ["core/bin/config.cpp: mapSourceFileInfoLoaders, resolveRecipes", "core/utils/fs.hpp: matchLongestExtension"]}
{"id": "C65", "title": "Asking for information does not build anything", "statement": "If one of the options that print something and exit is given (help, version, about, configuration, list of targets, dependency graph in either direction, database, external dependencies), nothing is built. If it is about the program itself, nothing but printing happens, and printing the configuration does not start any process.", "quantifier": "every command line, every project, and every file system", "why_tests_cant": "All combinations of options; that nothing is built is a statement about everything that happens.", "anchors": ["core/bin/maike.cpp: main", "core/bin/cmd_line_options.hpp: CmdLineOptionTraits"]}
{"id": "C66", "title": "Output goes to the file that is given", "statement": "Options that print something print it to the file that is given as their value, and to standard output if there is none.", "quantifier": "every command line", "why_tests_cant": "All combinations of options and values.", "anchors": ["core/bin/maike.cpp: main, printTargets, printDepGraph", "core/bin/cmd_line_options.hpp: CmdLineOptionTraits"]}
{"id": "C67", "title": "A dry run starts no process", "statement": "With the dry run option, no process is started; the option, and the one that forces a rebuild, affect all tasks when they are given, and none otherwise.", "quantifier": "every command line and project", "why_tests_cant": "It is about all processes in all runs.", "anchors": ["core/bin/maike.cpp: main", "core/db/source_tree.cpp: compile", "core/db/compiler.hpp: Compiler::resolveRecipe"]}
{"id": "C68", "title": "The exit status tells whether the build succeeded", "statement": "The exit status of the program is 0 or 255. If it is 0 after a build of everything, then a task has been completed for each source file with targets, and for no other file. If any task failed, it is not 0. If it is not 0 although the command line was valid, then there was no list of files, they did not make up a project, there was a cyclic dependency, a target that does not exist was asked for, or a task failed.", "quantifier": "every command line, project, schedule and outcome of tasks", "why_tests_cant": "It combines all ways in which a run can fail with all schedules of the tasks.", "anchors": ["core/bin/maike.cpp: main", "core/db/source_tree.cpp: compile", "core/db/task_list.cpp: process"]}
{"id": "C69", "title": "Asking for targets builds these targets, and what they need", "statement": "If a list of targets is given, and the exit status is 0, then each of them is a target of the project, and everything that it needs directly or indirectly has been built. Whatever the exit status, nothing is started which is not needed by one of them. A name that is not the name of a target leads to an exit status other than 0.", "quantifier": "every command line, project, schedule and outcome of tasks", "why_tests_cant": "All projects and all lists of targets, combined with all schedules.", "anchors": ["core/bin/maike.cpp: main", "core/db/source_tree.cpp: compile, getTarget"]}
{"id": "C70", "title": "A target in the list of targets can be built by its name", "statement": "The list of targets consists of each target of the project once, relative to the target directory, and a name from the list can be used to ask for that target.", "quantifier": "every project, and every source and target directory", "why_tests_cant": "All combinations of paths.", "anchors": ["core/bin/maike.cpp: printTargets", "core/db/source_tree.cpp: getTarget"]}
{"id": "C71", "title": "The printed dependency graph is complete and exact", "statement": "The dependency graph that is printed has exactly one edge from a file to another one if the former depends directly on the latter, and no other edge.", "quantifier": "every project", "why_tests_cant": "All projects.", "anchors": ["core/bin/maike.cpp: printDepGraph", "core/db/dependency_graph.hpp: visitNodes", "core/db/source_file_record.hpp: visitEdges"]}
{"id": "C72", "title": "The source and target directories are those asked for", "statement": "The directory that is scanned is the one given by the user, or else the current directory. The directory for targets is the one given by the user, or else the documented default, __targets.", "quantifier": "every command line", "why_tests_cant": "All paths, and all combinations of options.", "anchors": ["core/bin/maike.cpp: makeBuildInfo", "core/build/info.hpp: Info::sourceDir, Info::targetDir", "core/bin/cmd_line_options.hpp: CmdLineOptionTraits"]}
{"id": "C73", "title": "Tools that run at the same time do not disturb each other", "statement": "When several tools are run at the same time, each call gives exactly the output of its own tool. A tool is reported as impossible to launch only if it is. If all tools end, then all calls end: calls and tools never wait for each other in a circle.", "quantifier": "every number of calls, every behaviour of the tools, every interleaving, every size of pipes", "why_tests_cant": "Descriptors are inherited at the mercy of the scheduler; a deadlock may need a particular order of calls to pipe, fork and read in several threads.", "anchors": ["core/exec/execve.cpp: execve, communicateWith, Pipe, exec_mutex"]}
{"id": "C74", "title": "A call returns when its tool has ended", "statement": "A call that runs a tool returns as soon as this tool has ended, no matter how long other tools run.", "quantifier": "every number of calls, every behaviour of the tools, every interleaving", "why_tests_cant": "It depends on when other threads fork.", "anchors": ["core/exec/execve.cpp: execve, Pipe, exec_mutex"]}
{"id": "C75", "title": "No process is left behind", "statement": "When a call that runs a tool has ended, in whatever way, the process that it created has exited, and the system has been told to forget about it.", "quantifier": "every number of calls, every behaviour of the tools, every interleaving", "why_tests_cant": "Tests do not look for zombies, and whether a process is still running depends on the scheduler.", "anchors": ["core/exec/execve.cpp: execve, communicateWith"]}
{"id": "C76", "title": "The directory for a target exists when its recipe runs", "statement": "When a recipe is run, the directories into which its targets go exist: for each directory of the project, the corresponding directory below the target directory is made before anything is built from the files in it.", "quantifier": "every directory tree, all tags, every number of threads and every interleaving of scan and build, every state of the target directory", "why_tests_cant": "Tests build in one order, and mostly into a target directory that exists; the order follows from dependencies that several parts of the program add, and is not visible in any of them.", "anchors": ["core/source_tree_loader/source_file_loader_delegator.cpp: load", "core/source_tree_loader/directory_scanner.cpp: processPath", "core/db/task_list.cpp: process", "recipes/make_directory.py: mkdir"]}
{"id": "C77", "title": "A build does not change what the project consists of", "statement": "If a project is scanned, built, and scanned again, then the second scan finds the same source files, with the same targets and dependencies, as the first one: what is built never becomes part of the project.", "quantifier": "every directory tree, every configuration, all tags, every number of threads, every interleaving, builds that fail or are interrupted included", "why_tests_cant": "It combines filters, the names of targets, and what recipes write; tests use one tree and one target directory.", "anchors": ["core/source_tree_loader/directory_scanner.cpp: processPath", "core/source_tree_loader/input_filter.hpp: match", "core/bin/maike.cpp", "core/source_tree_loader/source_file_load_ctxt.cpp: makeTargetName"]}
{"id": "C78", "title": "A generic rule makes one file from each file", "statement": "If an extension is handled by the generic loader, then each file with that extension has exactly one target, whatever the file contains. The target is at the same place in the target directory, and has the name of the file with the configured extension appended, or, if so configured, replaced. Different files have different targets.", "quantifier": "all file names and contents, all configurations, all source and target directories", "why_tests_cant": "The name is computed from the file name by the file system library, is printed as JSON, and parsed again, before it is combined with the directories; tests use four names.", "anchors": ["core/source_file_info_loaders/generic/source_file_loader.cpp: makeTargetName, filterInput", "core/source_file_info_loaders/generic/source_file_loader.hpp: fromJson", "core/source_tree_loader/source_file_load_ctxt.cpp: loadSourceFile", "core/key_value_store/compound.hpp: set"]}
{"id": "C79", "title": "What a source file declares and includes is known to the build", "statement": "Every target that is declared in the tags of a file (comments in C++ and in scripts, the whole text in rule files) is known, at the place in the target directory that corresponds to the file; and a C++ file depends on everything it includes, at the place that the directive refers to.", "quantifier": "all source texts, all tags, all configurations, all source and target directories", "why_tests_cant": "It goes through the lexers, the JSON decoder and its buffering, the interpretation of tags, and path arithmetic; unit tests of each of these cannot show that they fit.", "anchors": ["core/source_tree_loader/source_file_load_ctxt.cpp: loadSourceFile", "core/source_file_info_loaders/cxx/source_file_loader.cpp", "core/source_file_info_loaders/extension/source_file_loader.cpp: filterInput", "core/source_file_info_loaders/maikerule/source_file_loader.cpp: filterInput", "core/key_value_store/json_handle.cpp: jsonLoad"]}
{"id": "C80", "title": "Programs are linked with everything they need", "statement": "If a file is linked, then its recipe is told about all object files and libraries that the program needs: those that have been declared for the target, those that are asked for by included headers, directly or not, and those that are needed by these. All of them that belong to the project have been built when the recipe runs. A file is linked if its settings say so.", "quantifier": "all projects, all orders in which the tasks may run, any number of workers", "why_tests_cant": "Where a dependency comes from is spread over headers, implementation files and three passes over the list of files, and the graph is rebuilt in between; a test can only try some shapes of a project.", "anchors": ["core/db/source_file_list.cpp: makeSourceFileInfo, makeSourceFileInfos, addTargetDepsToSourceFiles", "core/source_file_info_loaders/cxx/source_file_loader.cpp: useTargetDeps", "core/source_file_info_loaders/lib/source_file_loader.hpp: useTargetDeps", "core/source_tree_loader/main.cpp: load", "core/db/task.cpp: Task"]}
{"id": "C81", "title": "A failure is not forgotten", "statement": "If the recipe of a file fails during a build, or the build is interrupted while it runs, then a later build of the same project, with the files left as they are, does not succeed without running this recipe again, with success.", "quantifier": "all projects and task lists, all orders in which tasks run, any number of workers, everything that recipes may have done to the files when they fail", "why_tests_cant": "A test sees a recipe fail at one point only, with the files it happens to leave behind. Whether a failure is noticed later depends on times of files that a failed run may have written, together with those of all other tasks.", "anchors": ["core/db/task.cpp: runIfNecessary, isUpToDate", "core/db/task_list.cpp: processLoop", "core/db/compilation_log.hpp", "recipes/cxx_compiler.py: compile"]}
{"id": "C82", "title": "A recipe that succeeds has made all of its targets", "statement": "If a recipe that comes with maike and is told to compile a file exits with status 0, then all of the targets it has been told about exist, with the content that has been made from the source file.", "quantifier": "all lists of targets, all contents, all behaviours of the tools that are started by the recipe", "why_tests_cant": "Recipes have been tried with one target. The list of targets is open, and the tools may fail at any of them.", "anchors": ["recipes/copy_file.py: compile", "recipes/sass2css.py: compile", "recipes/cxx_compiler.py: compile", "recipes/cxx_linker.py: compile", "recipes/make_lib.py: compile"]}
{"id": "C83", "title": "A document depends on what it refers to", "statement": "If a document is built by doc2html.py, then each file that it refers to by means of an attribute src or href, at any depth, is a dependency of the document, so that it exists when the document is built, and is built if it has to be. References to resources outside of the project are no dependencies.", "quantifier": "all documents, all references, all configurations and directories", "why_tests_cant": "Documents are nested in any way, and may contain any reference; tests can only try some.", "anchors": ["recipes/doc2html.py: get_tags, make_dep_from_ref", "core/db/compiler.cpp: getTags", "core/source_tree_loader/source_file_load_ctxt.cpp: getUseDeps, prependSearchPath, loadSourceFile", "core/db/source_file_list.cpp"]}
{"id": "C84", "title": "Converting Markdown loses no text", "statement": "The result of md2htmlpart.py has the same text as the Markdown file, from the beginning to the end, where headings have become titles of sections. If the recipe fails, then it leaves no target behind.", "quantifier": "all trees that may be delivered by pandoc, all texts", "why_tests_cant": "Documents are nested in any way, and headings may contain any markup.", "anchors": ["recipes/md2htmlpart.py: convert, find_elements"]}
{"id": "C85", "title": "Version information is recorded, and kept", "statement": "vcslog.py records the state of the repository of the project. If there is no repository, then the information that was recorded last for the source directory is used, so that it also is available in a release.", "quantifier": "all repositories, all sequences of later runs, everything that happens to other files in between", "why_tests_cant": "A test repository has one state; what matters is what happens in any later run, possibly elsewhere.", "anchors": ["recipes/vcslog.py: get, mkdir"]}
{"id": "C86", "title": "The log consists of whole records, one for each task", "statement": "When a build returns, the log has one whole record for each task, not mixed with the records of others, and the record of a file comes after the records of everything it needs. After a failed build, this is so for all tasks that were run to their end or skipped. At any time, the log consists of whole records and the beginning of at most one more. Waiting for the log does not keep a build from ending.", "quantifier": "all projects and task lists, all outcomes and outputs of commands, all numbers of threads and all schedules", "why_tests_cant": "Whether two records are mixed depends on the schedule; tests see few of them.", "anchors": ["core/db/compilation_log.cpp: CompilationLog::write", "core/db/task_list.cpp: TaskList::process", "core/db/task.cpp: Task::runIfNecessary", "core/sched/batch.hpp"]}
{"id": "C87", "title": "A job has the parameters given on the command line", "statement": "If the value of an option is not of the kind the option expects, such as a number of workers that is not a number, the program does nothing and fails. Otherwise the number of threads, the start time, the build id, the level and the format of the log, and the directories are the ones given last; without them they are the number of processors, the current time, a random id, and the defaults. Recipes are told these values, and a recipe that starts another build with the time and the id it was told gets a build with the same time and the same id.", "quantifier": "all command lines, all surroundings (time, host, number of processors)", "why_tests_cant": "There is no bound on the number of arguments or on the texts of values; wrong ones are rarely tested.", "anchors": ["core/bin/cmd_line_options.hpp", "core/bin/maike.cpp: makeBuildInfo, getOutputFormat, getLogLevel", "core/build/info.hpp", "core/build/id.cpp", "core/sched/thread_count.hpp", "core/utils/system_time_stamp.hpp", "core/db/log_format.cpp", "core/db/compilation_log.cpp"]}
{"id": "C88", "title": "Lists of targets and dependency graphs can be read by other programs", "statement": "When the program is asked for the targets, each line of standard output is a comment, that is, it begins with a hash sign, or the name of a target, and each target has exactly one line. When the program is asked for the dependency graph, standard output is a text in the language of dot, comments included, and the edges of the graph are the dependencies.", "quantifier": "all projects, command lines, and surroundings (time, host, number of processors)", "why_tests_cant": "There is no bound on the number of files, and names may contain any character; tests of the output look at a few names.", "anchors": ["core/bin/maike.cpp: printTargets, printDepGraph, main"]}
{"id": "C89", "title": "Options that have been given are reported in a form that can be used again", "statement": "Unless it prints a text about itself, the program reports each option that it has been given once, on a line of its own on standard error, together with a text for its value. When the program is started with this text as an additional argument, it behaves in the same way. When it prints a text about itself, it reports nothing.", "quantifier": "all command lines and surroundings", "why_tests_cant": "There is no bound on the number of arguments or on the texts of values.", "anchors": ["core/bin/maike.cpp: print, main", "core/cmd_line_parser/command_line.hpp: forEachOption"]}
{"id": "C90", "title": "The help text agrees with the options", "statement": "The help text has one section for each category of options. Each option is listed exactly once, in the section for its category, and the type of its value is explained exactly once. An option listed without a value is accepted without a value and rejected with one; an option listed with a value is rejected without one; an option listed with an optional value is accepted either way.", "quantifier": "all tables of options, all texts in them, and all arguments for the options of the program", "why_tests_cant": "The help text is made from the table of options at compile time; there is no bound on the number of options, and tests compare it with a copy of itself at best.", "anchors": ["core/bin/maike.cpp: printHelp", "core/bin/cmd_line_options.hpp", "core/cmd_line_parser/command_line.hpp: OptionInfo, TypeInfo, sort, unique, copy_if, get_option_info, get_type_info"]}
{"id": "C91", "title": "Waiting for a counter ends when the counter has the value", "statement": "The value of a signaling counter is its initial value plus the number of increments minus the number of decrements. A call that waits for a value returns only if the counter had this value after the call. When the counter has reached a value and keeps it, all threads that wait for this value return.", "quantifier": "all numbers of threads, all sequences of operations, all interleavings, all spurious wakeups", "why_tests_cant": "The outcome depends on when threads are scheduled, and on which of them is chosen when the counter notifies one of them.", "anchors": ["core/sched/signaling_counter.hpp: SignalingCounter"]}
{"id": "C92", "title": "An event that has been set releases one of the threads that wait", "statement": "Each return from waitAndReset belongs to a call to set of its own, made after the previous return. If an event has been set since the last return and threads wait for it, no matter how many, then one of them is able to return.", "quantifier": "all numbers of threads, all sequences of operations, all interleavings, all spurious wakeups", "why_tests_cant": "The outcome depends on when threads are scheduled, and on which of them is chosen when the event notifies one of them.", "anchors": ["core/sched/event.hpp: Event"]}
{"id": "C93", "title": "The program tells what it was built from", "statement": "The version and the description that a built program prints are those of the build: the tag and the commit of the working copy, the time when the build was started, the id of the build, the host, the description, the license, and for each holder of a copyright the years in order and the name.", "quantifier": "all build ids, times, host names, commits, tags, descriptions, licenses and lists of copyright holders", "why_tests_cant": "The texts pass through a template, a C++ string literal and a format string. A test sees the texts of one project.", "anchors": ["core/bin/about.py: compile, get_copyright", "core/bin/about.hpp", "core/bin/maike.cpp: printVersion, printAbout"]}
{"id": "C94", "title": "A setting that is not understood is reported", "statement": "A source file is accepted only if each setting in its tags is known and has the form it should have: targets, dependencies, the compiler and the rebuild policy. All files whose settings have this form are accepted.", "quantifier": "all tags, all source files, all loaders, all recipes that can be found", "why_tests_cant": "The number of ways to write something else than a setting is not limited.", "anchors": ["core/source_tree_loader/source_file_load_ctxt.cpp: loadSourceFile, getTargets, getTarget, getDependency, getUseDeps, getChildTargetUseDeps", "core/db/compiler.hpp: fromJson", "core/db/rebuild_policy.cpp", "core/db/source_file_origin.cpp", "core/bin/about.py"]}
{"id": "C95", "title": "Everything that is made is in the target directory", "statement": "The targets of a source file are inside the target directory, so that removing this directory removes all that has been made, and nothing else.", "quantifier": "all source and target directories given by normalised paths, all files in the source directory, all tags, all names of targets", "why_tests_cant": "Names of targets are arbitrary paths, which are combined with three directories.", "anchors": ["core/source_tree_loader/source_file_load_ctxt.cpp: makeTargetName, getTarget, loadSourceFile", "doc/maike.doc.xml"]}
{"id": "C96", "title": "Tags delivered by a recipe count like tags in the file", "statement": "If the recipe for a file is configured to deliver tags, then the file has the targets and dependencies in its own tags, and those delivered by the recipe, as if they were in the file.", "quantifier": "all files, tags, loaders and recipes", "why_tests_cant": "Tags come from two sources, both of which are arbitrary.", "anchors": ["core/source_tree_loader/source_file_load_ctxt.cpp: loadSourceFile", "core/db/compiler.cpp: getTags", "core/db/compiler.hpp: Compiler"]}
{"id": "C97", "title": "After success everything asked for is up to date, and a second run does nothing", "statement": "When the program reports success, every target it was asked for is newer than its source file and everything in the project the source file needs, provided that a recipe that succeeds leaves its targets like this. If it is started again, with nothing changed in the meantime, no recipe runs and no file changes.", "quantifier": "all projects, command lines that build something, outcomes and interleavings of recipes, states of files before the run", "why_tests_cant": "It depends on all times of modification, all interleavings, and all sets of targets on the command line.", "anchors": ["core/bin/maike.cpp: main", "core/db/source_tree.cpp: compile", "core/db/task.cpp: Task::runIfNecessary", "core/db/source_file_record.cpp: isUpToDate", "core/db/target_info.cpp: isUpToDate"]}
{"id": "C98", "title": "Without a configuration, a directory with source files is a project", "statement": "Without a configuration file, the project consists of the source directory and of the plain files in it whose names do not begin with a dot or two underscores; subdirectories are left out. The longest extension of a file name that is known determines what is done with the file, as in the list of extensions and recipes of the default configuration.", "quantifier": "all directories and file names, file systems, numbers of workers and interleavings of the scan", "why_tests_cant": "It concerns all file names, and all interleavings of the threads that scan the directory. Tests use one tree.", "anchors": ["core/source_tree_loader/config.hpp: Config", "core/source_file_info_loaders/config.cpp: Config", "core/source_tree_loader/input_filter.cpp: InputFilter, match", "core/source_tree_loader/directory_scanner.cpp: operator()", "core/bin/maike.cpp: main", "doc/maike.doc.xml"]}
{"id": "C99", "title": "The output of a dry run is a shell script that does the build", "statement": "With --dry-run and --log-level=compilation_command, what the program writes to standard output is a shell script: to a POSIX shell it consists of exactly one command for each task, with exactly the program and the arguments that would have been run, and the command of a task comes after the commands of all tasks whose output it needs. When this script is run and its commands succeed, every target is newer than what it is made from.", "quantifier": "all projects, options of recipes, numbers of workers and interleavings, and all states of the files before the script is run", "why_tests_cant": "It concerns all file names and options of recipes, all interleavings of the threads that write the output, and the interpretation of the output by another program. Tests use one project, and one thread.", "anchors": ["Makefile: bootstrap, bootstrap-test", "core/db/compilation_log.cpp: write", "core/exec/command.cpp: toString", "core/exec/execve.cpp: LocalExecve::execve", "core/db/task.cpp: Task, runIfNecessary", "core/bin/maike.cpp: main"]}
{"id": "C100", "title": "Which recipes are run is settled when the build starts", "statement": "Let every recipe that succeeds write all targets of its task. Then a build that succeeds runs exactly the recipes that are due, given the state of the files when it starts: everything if --force-rebuild is given, otherwise those that are always run, those with a target that is missing or not newer than everything it is made from, and those which need a file made by a recipe that is due. This does not depend on the number of threads, or on the order in which they do their work. Afterwards the targets of these recipes are new, and everything else is as it was. If the build fails, nothing has been run that was not due.", "quantifier": "all projects, selections of targets, states of the files, numbers of workers and interleavings", "why_tests_cant": "The decision whether to run a recipe is made in the middle of the build, from files that other threads are changing. A test sees some interleavings of some projects.", "anchors": ["core/db/task.cpp: runIfNecessary", "core/db/source_file_record.cpp: isUpToDate", "core/db/target_info.cpp: isUpToDate", "core/db/task_list.cpp: processTaskList", "core/utils/fs.cpp: isOlder", "core/sched/thread_pool.cpp"]}
{"id": "C101", "title": "Tags mean what they say", "statement": "After a source file has been loaded, its targets, what it needs, what users of its targets need, and its rebuild policy are those that its tags declare, together with those in the tags delivered by its recipe if it is asked for them, in the order in which they are written, and with the files its source code refers to, and its recipe. Each reference has the origin that is given, or the default one (generated for files, system for targets), the other members are its properties, a name that starts with a dot is relative to the directory of the file and other names to the source directory, generated files are at the same place in the target directory, and names of system files and of libraries known to pkg-config are left as they are.", "quantifier": "all tags and sources, locations of files, source and target directories, loaders and recipes; names that do not lead out of the source directory", "why_tests_cant": "Tests load some files with a few of the settings. The meaning of every combination of settings matters, as a wrong dependency leads to a wrong order, or to missing work, only later.", "anchors": ["core/source_tree_loader/source_file_load_ctxt.cpp: loadSourceFile, getDependency, getTarget, getTargets, getUseDeps, getChildTargetUseDeps, prependSearchPath, makeTargetName", "core/db/source_file_origin.cpp: fromString", "core/db/rebuild_policy.cpp: fromString"]}
{"id": "C102", "title": "Adding files does not affect the others", "statement": "When files are added to a project, and neither they nor their targets have been referred to before, then every other file keeps its dependencies, in the same order, its targets and its settings. It is compiled by the same command, apart from the number of the task, and it has to be compiled again exactly when it would have to be compiled without the new files. The project can still be loaded unless the fault is with the new files. The same holds the other way around for files that are removed.", "quantifier": "all projects, all sets of new files, all states of the file system, all jobs", "why_tests_cant": "Tests compare a few projects. All numbers of files change when one is added, and the numbers decide on the order of visits, so that any project could be affected.", "anchors": ["core/db/source_file_list.cpp: collectTargets, makeSourceFileInfos, addTargetDepsToSourceFiles", "core/db/dependency_graph.cpp: DependencyGraph, getUseDepsRecursive", "core/utils/graphutils.hpp: processGraphNodeRecursive", "core/db/source_file_record.cpp: makeBuildCommand"]}
{"id": "C103", "title": "Building again gives the same files as building from scratch", "statement": "However a project has been changed and built before, with or without success, and whatever the number of threads: after a build that succeeds, every file that was to be made has the contents that a build from scratch of the same source files gives it. A file that has been made is used again only if it has the right contents.", "quantifier": "all projects, all sequences of changes and builds, all schedules, all recipes whose results are determined by the files they are declared to depend on", "why_tests_cant": "Tests build a few projects once or twice. Wrong contents shows up only after particular sequences of changes, failures and partial builds.", "anchors": ["core/db/task.cpp: isUpToDate, Task::runIfNecessary", "core/db/task_list.cpp: process", "core/utils/fs_utils.hpp: isOlder, newerThan", "core/db/source_file_list.cpp: load"]}
{"id": "C104", "title": "A tool gets the input that is supplied for it", "statement": "When a tool is run with input that is supplied by the program, it reads exactly that input, in order and from the beginning, and all that it writes to its standard output and standard error is captured, whatever the sizes of the input and the output and however reading and writing are interleaved. The call returns when the tool has ended, and a tool that reads to the end of its input sees that end.", "quantifier": "all tools (sequences of reads and writes that depend on what has been read), all inputs, all interleavings of the threads and the tool, all capacities of the pipes", "why_tests_cant": "Whether a pair of processes connected by pipes of limited size deadlocks depends on the amounts of data and on the interleaving. A test runs one tool with a little data.", "anchors": ["core/exec/execve.cpp: LocalExecve::execve, IoRedirection", "core/io/io_redirector.hpp", "core/io/mem_io_redirector.hpp: MemRedirector"]}
{"id": "C105", "title": "The compiler is told to make the target from the source file", "statement": "The command that is run for a C++ source file names the configured compiler, its configured flags in the given order and each only once, the flags for the packages it depends on, the configured revision of the language, whether to use colours, the source file, and at last its first target as the file to write. If and only if the action to link has been asked for, it also names each object file and library that is needed, once, and otherwise it asks for an object file. Nothing is run for header files, and header files are those with one of the usual file name extensions.", "quantifier": "all source files, configurations, dependencies and answers of pkg-config", "why_tests_cant": "Tests compile a few files with a few settings. A flag in a wrong place, or one too many, is still accepted by a compiler.", "anchors": ["recipes/cxx_compiler.py: compile, collect_cflags, get_actions, no_op", "recipes/cxx_linker.py: collect_deps, filter_deps", "core/db/source_file_record.cpp: makeBuildCommand"]}
{"id": "C106", "title": "Headers are looked for next to the source file and where generated files are put", "statement": "The compiler looks for headers first in the directory of the source file, then in the corresponding directory below the target directory, where files generated next to the source file are put, and then in the configured directories, below the source directory as well as below the target directory. This holds for all ways to write the names of these directories.", "quantifier": "all source files, source, target and working directories and configured directories", "why_tests_cant": "The names of directories are put together from parts that may be relative, absolute or contain dots. Tests use a few of the combinations.", "anchors": ["recipes/cxx_compiler.py: collect_cflags, format_iquote, compile"]}
{"id": "C107", "title": "A program can find out about the build that made it", "statement": "Every C++ source file can use macros for the number of the task, the time when the build was started (as a number and as text), the build id and the names of the target and source directories. They are integer constants and string literals with the right values.", "quantifier": "all tasks, times, build ids and names of directories", "why_tests_cant": "Tests check one build. Whether a text can be used as a literal depends on the characters in it.", "anchors": ["recipes/cxx_compiler.py: compile", "core/build/info.cpp: toJson"]}
{"id": "C108", "title": "The configuration that was asked for is the one in use", "statement": "The program reads the files named by --configfiles, in that order, or maikeconfig.json in the source directory if there is no such option, or no file at all with --config-default. It reads them before it does anything else, and no other configuration file at any time. The configuration that results is the one which --configdump prints, and the one whose filters, loaders and recipes are used to scan the source directory.", "quantifier": "all command lines, all contents of files, all directories", "why_tests_cant": "Which files are read depends on the combination of several options, and on the order of repeated options. Tests of the functions that read a configuration do not see which file they are given, nor what becomes of the result.", "anchors": ["core/bin/maike.cpp: main, lines 314-362", "core/bin/config.cpp: loadConfig, resolveRecipes, mapSourceFileInfoLoaders"]}
{"id": "C109", "title": "Settings in configuration files mean what they say", "statement": "A JSON value is accepted as a configuration if and only if each required setting is there and has the right type, every regular expression is valid, and every loader is of a known kind. Then each setting in the result has the value that is given, optional settings that are left out have their documented default, and nothing is lost, mixed up or made up. The kinds of loaders that are documented are known. Without a configuration file, C++ files, rules for applications and libraries, scripts and style sheets are handled by the documented loaders and recipes.", "quantifier": "all JSON values, and all sets of valid regular expressions", "why_tests_cant": "Tests load a few configurations. Two settings of the same type that have been mixed up, or a default that differs from the documentation, are seen only by a test that happens to use them.", "anchors": ["core/bin/config.hpp: Config", "core/source_tree_loader/config.cpp", "core/source_tree_loader/input_filter.cpp", "core/source_file_info_loaders/config.cpp", "core/source_file_info_loaders/cxx/source_file_loader.hpp: fromJson", "core/source_file_info_loaders/generic/source_file_loader.hpp: fromJson", "doc/maike.doc.xml: 257-290"]}
{"id": "C110", "title": "Times in the compilation log can be trusted", "statement": "The two numbers in the record of a file are the microseconds, since the log was made, at which work on the file was started and completed. The command was run between the two, and a thread worked on the file for all of that time. What a file needs is completed when the file is started. In no microsecond are there more files in progress than there are threads. The mark in the record agrees with how the command ended.", "quantifier": "all projects, all interleavings of the threads, all ways in which time can go by, all results of commands", "why_tests_cant": "Times differ from one run to the next, and threads seldom get in the way of each other in a test. A clock that is read too late, or a task that gives the time of another, looks plausible.", "anchors": ["core/db/task.cpp: Task::runIfNecessary, lines 15-29", "core/db/compilation_log.cpp: to_mus, CompilationLog::write", "core/db/compilation_log.hpp: CompilationLog", "core/db/task_list.cpp: TaskList::process, lines 90-114", "core/bin/maike.cpp: line 380"]}
{"id": "C111", "title": "The table of contents of a document is that of the page", "statement": "The page made from a document by doc2html.xsl has a table of contents if the document asks for one. It lists the chapters, sections and subsections of the document with their titles, in order, each once, on its level and in the right one of main part and appendix; the sections on the page are the same ones.", "quantifier": "for all documents whose sections are nested level by level, with any text, any number of files included, and any number of sections", "why_tests_cant": "Documents are nested in any way; a test can only look at the contents of some of them.", "anchors": ["recipes/doc2html.xsl:15-56", "recipes/doc2html.xsl:110-186", "doc/maike.doc.xml:1-260"]}
{"id": "C112", "title": "Nothing of a document gets lost on its page", "statement": "All texts of a document and of the files it includes, the titles of its sections and the names of properties and items are on the page made from it, in order. Elements that are as in HTML are there with their attributes, and resources are in the head of the page.", "quantifier": "for all documents, with any elements, and any number of files included", "why_tests_cant": "Which template applies to an element depends on its name, on the elements around it, on the mode and on the order of the templates; tests can only try some combinations.", "anchors": ["recipes/doc2html.xsl:9-108", "recipes/doc2html.xsl:146-186"]}
{"id": "C113", "title": "Links within a page lead somewhere", "statement": "If everything that a document refers to exists in it, every link on the page to a place on the page, including those of the table of contents, leads to an element with that identifier. A reference is made a link, with the title of what is referred to as its text or, if there is one, with its own text.", "quantifier": "for all documents, with any references, and any number of files included", "why_tests_cant": "References may be anywhere in the document and in the files it includes, before or after what they refer to.", "anchors": ["recipes/doc2html.xsl:89-144", "recipes/doc2html.xsl:158-167"]}
{"id": "C114", "title": "The reason for a failure is told", "statement": "If the program ends with a status other than zero, the last thing it writes to standard error is a message, the only one of its kind, about something that is really the case: an argument that is wrong, a recipe or loader that does not exist, a problem with the files of the project, a target that has not been declared, or a task that failed in this run. Otherwise there is no such message. Whatever the input, there is a status, and the order of what happens does not depend on messages.", "quantifier": "for all command lines, environments, projects, and all executions of the tasks", "why_tests_cant": "Exceptions are thrown from many places, by several threads, and in combinations of problems; tests check a few of the messages, each from one place.", "anchors": ["core/bin/maike.cpp:255-412", "core/cmd_line_parser/command_line.cpp:60-85", "core/cmd_line_parser/command_line.hpp:251-263", "core/db/source_file_list.cpp:44-125", "core/db/dependency_graph.cpp:36-90", "core/db/source_tree.cpp:15-75", "core/db/task_list.cpp:97-127", "core/source_tree_loader/directory_scanner.cpp:28-35"]}
{"id": "C115", "title": "The numbers in the messages are right", "statement": "The message about the source tree gives the number of files in the project, including those to be generated and those outside of it, and the number of declared targets; it is there whenever the project could be loaded. The message about completed tasks gives the number of files from which something is built, and is there if and only if everything has been built.", "quantifier": "for all projects, command lines and executions", "why_tests_cant": "The numbers are sizes of data structures at some point of a run with an unbounded number of files.", "anchors": ["core/bin/maike.cpp:255-280", "core/bin/maike.cpp:350-405", "core/utils/callwrappers.hpp:16-31", "core/db/source_tree.cpp:42-75", "core/db/task_list.cpp:59-127"]}
{"id": "C116", "title": "The manual page says what the program says", "statement": "The manual page is made from the help text of the program that has been built, the date of the build, and the description, authors, copyright and license of the project, each in its place, whatever characters they contain. Hyphens of options remain hyphens. The documentation shows the options and the default configuration as the program writes them. If a program that is needed fails, the scripts fail, and no target is written.", "quantifier": "for all help texts, projects, times, directories, and outcomes of the programs", "why_tests_cant": "Texts are inserted into a template where some characters have a meaning, and then read as Markdown, where others have one; the pages are not tested at all.", "anchors": ["doc/manpage.py:21-91", "doc/cmdlineopts.py:15-26", "doc/configdefault.py:15-26", "doc/cmdlineopts2xml.py:17-24", "doc/configdefault2xml.py:17-24"]}
{"id": "C117", "title": "The build script succeeds if and only if both builds do", "statement": "build.py succeeds if and only if the program has first been built by an installed one or, only if there is none, by the bootstrap script, and the program made in this way has then built itself. Nothing is run after a failure. The arguments are valid, the second build uses the program from the target directory of the first, and called as a recipe the script does nothing.", "quantifier": "for all outcomes of the commands, which may depend on those before, and all arguments", "why_tests_cant": "Outcomes include programs that can not be started or are stopped by signals, which a test of the script does not bring about.", "anchors": ["build.py:1-34", "core/bin/cmd_line_options.hpp:18-41"]}
{"id": "C118", "title": "An installed program finds the recipes installed with it", "statement": "If install.sh succeeds, the program that has been built is in bin, all recipes are in lib/maike2/recipes with the same contents, the program finds each of them by its name from any directory unless the project has a file with that name, other users can run them, and nothing else has been changed.", "quantifier": "for all directories to install into, given by any name, all working directories, all contents of the file system, and any set of recipes including directories", "why_tests_cant": "Whether a recipe is found depends on the script, on the place from which the program is started, and on what there has been in the file system; a test tries one empty directory.", "anchors": ["install.sh:1-12", "core/utils/fs.cpp:21-24", "core/utils/fs.cpp:60-65", "core/bin/maike.cpp:330-332", "core/source_tree_loader/command_dictionary.cpp:9-42"]}
{"id": "C119", "title": "A file that can not be loaded for lack of resources is not ignored", "statement": "If loading throws something that is not a standard exception, the scan still comes to an end, exactly these files are missing in its result, all other faults are reported, and a build which has noticed the exceptions does not succeed.", "quantifier": "for all directory trees, filters, numbers of workers, interleavings including the moment at which the thread pool stores the exception, and any set of files for which loading throws", "why_tests_cant": "The lack of file descriptors can hardly be produced for a certain file, and what follows depends on the order in which threads proceed.", "anchors": ["core/exec/execve.cpp:30", "core/source_tree_loader/directory_scanner.cpp:37-94", "core/sched/thread_pool.hpp:110-126", "core/db/task_list.cpp:122-124", "core/bin/maike.cpp:340-412"]}
{"id": "C120", "title": "A tool has its own standard streams", "statement": "The standard input, output and error streams of a tool are the pipes made for it, it has no other ends of these pipes, and inherits all other descriptors as they are; the reason why it can not be launched is written to the pipe made for that.", "quantifier": "for all sets of descriptors that are open when the call begins, all limits of their number, and everything other threads open and close in the meantime", "why_tests_cant": "The numbers of descriptors depend on what else is open, and on other threads; a test sees one assignment.", "anchors": ["core/exec/execve.cpp:22-107", "core/exec/execve.cpp:172-208"]}
{"id": "C121", "title": "No file descriptor is left open", "statement": "When a call to execve has ended, by returning or by any exception, none of the descriptors of its pipes is open, and it has not closed any descriptor that belongs to somebody else.", "quantifier": "for all sets of descriptors, limits, failures of system calls, and interleavings with other threads", "why_tests_cant": "A leak for each of some thousand tools becomes visible only when the limit is reached, and a descriptor closed by mistake only if another thread uses the same number at that time.", "anchors": ["core/exec/execve.cpp:22-107", "core/exec/execve.cpp:160-228"]}
{"id": "C122", "title": "The integration test fails if something is wrong", "statement": "The integration test succeeds only if all of its parts do, all of them are run unless one of the first two fails, a part succeeds only if all of its commands do, and the new program is accepted if and only if it tells the id of the build that made it.", "quantifier": "for all results and outputs of all commands, all values of variables, and all ids", "why_tests_cant": "The test itself is not tested; it can only be seen to fail if something is broken on purpose in each of its steps.", "anchors": ["integration_test/main.sh:1-18", "integration_test/bootstrap_from_release.sh:1-31", "integration_test/build_new_version.sh:1-39", "integration_test/can_generate_working_bootstrap_script.sh:1-14", "integration_test/check_release_tarball.sh:1-18", "integration_test/install_and_rebuild.sh:1-9", "integration_test/install_and_rebuild_out_of_tree.sh:1-15", "integration_test/install_and_rebuild_out_of_tree_rel_path.sh:1-15", "integration_test/install_and_rebuild_out_of_tree_from_subpath.sh:1-17", "core/bin/maike.cpp:140-156", "core/bin/maike.cpp:339-352"]}
{"id": "C123", "title": "The source archive has the project and the script that builds it", "statement": "If make source-archive succeeds, the unpacked archive has exactly the files listed by git and those below __buildcache, with the content they have in the working directory; the script for building the project is the output of a successful dry run; and nothing that git lists is left out.", "quantifier": "for all working directories, results of the build, outputs of the dry run and lists of files", "why_tests_cant": "What is left out or stored twice with different content depends on which files there are, and a test only sees one working directory.", "anchors": ["Makefile:5-9", "Makefile:17-21", "recipes/vcslog.py:41-52"]}
{"id": "C124", "title": "What pkg-config says is passed on", "statement": "The words that pkg-config writes are passed to the compiler and the linker, as separate arguments and in the order in which they are written; if pkg-config fails, so does the recipe.", "quantifier": "for all outputs and results of pkg-config, all packages, and all lists of dependencies", "why_tests_cant": "What pkg-config writes depends on the packages that are installed; white space, repeated words and libraries shared by packages come in endless combinations.", "anchors": ["recipes/pkg_config.py:9-38", "recipes/cxx_linker.py:16-38", "recipes/cxx_compiler.py:38-44"]}
{"id": "C125", "title": "Cleaning up and formatting do not destroy anything of the project", "statement": "make clean removes the directories of targets and nothing else; make format replaces the content of each JSON file by what jq makes of it, leaves those alone for which jq fails, and touches no other file.", "quantifier": "for all working directories, all results of jq, and all orders in which files are found", "why_tests_cant": "Tests would have to be run in working directories with all kinds of files, among them some which must not be lost.", "anchors": ["Makefile:29-36"]}
{"id": "C126", "title": "The integration test removes the directories it makes", "statement": "When a script of the integration test ends, whether it succeeds or fails, the directories it has made are removed.", "quantifier": "for all results and outputs of all commands, and all working directories", "why_tests_cant": "A test of the integration test would have to make each of its commands fail, one after the other.", "anchors": ["integration_test/main.sh:5-6", "integration_test/bootstrap_from_release.sh:7-8", "integration_test/check_release_tarball.sh:7-8", "integration_test/install_and_rebuild.sh:5-6", "integration_test/install_and_rebuild_out_of_tree.sh:7-9", "integration_test/install_and_rebuild_out_of_tree_from_subpath.sh:7-17", "integration_test/install_and_rebuild_out_of_tree_rel_path.sh:7-16"]}
{"id": "C127", "title": "The integration test does not depend on the name of the source directory", "statement": "Whether the tests that build outside the source directory pass does not depend on what the source directory is called.", "quantifier": "for all results and outputs of all commands such that a program is there only after a build with its target directory, and all names of the source directory", "why_tests_cant": "The test is run in a checkout with one name.", "anchors": ["integration_test/install_and_rebuild_out_of_tree.sh:11-15", "integration_test/install_and_rebuild_out_of_tree_rel_path.sh:11-15", "core/bin/maike.cpp:33-42"]}
