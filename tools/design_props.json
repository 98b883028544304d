{
 "C01": [
  "GraphModel.v: the iterative depth first search with marks and an explicit stack, as in graphutils.hpp.",
  "Invariant of the loop over stack, marks and callbacks; the fuel of the model is shown to be enough."
 ],
 "C02": [
  "GraphModel.v: the iterative depth first search with marks and an explicit stack, as in graphutils.hpp.",
  "Same invariant; from a mark in progress a cycle is constructed, and from a cycle the error."
 ],
 "C03": [
  "GraphModel.v: the iterative depth first search with marks and an explicit stack, as in graphutils.hpp.",
  "Same invariant, started from one node."
 ],
 "C04": [
  "DepGraphModel.v: resolution by bisection in the sorted list of nodes.",
  "Specification of lower_bound by strong induction; then induction over files and dependencies."
 ],
 "C05": [
  "DepGraphModel.v: getNode.",
  "Specification of lower_bound."
 ],
 "C06": [
  "DepGraphModel.v: getUseDepsRecursive on the graph with use dependencies only.",
  "From C03."
 ],
 "C07": [
  "SchedModel.v: TaskList::process, the workers of the pool, queue, event, counter and results as a transition system; TaskListModel.v: how the list of tasks is made.",
  "Inductive invariant over all reachable states; lifted to files by the specification of the task list."
 ],
 "C08": [
  "SchedModel.v: TaskList::process, the workers of the pool, queue, event, counter and results as a transition system; TaskListModel.v: how the list of tasks is made.",
  "Invariant: submitted, running and finished tasks form a permutation."
 ],
 "C09": [
  "SchedModel.v: TaskList::process, the workers of the pool, queue, event, counter and results as a transition system; TaskListModel.v: how the list of tasks is made.",
  "Invariant: a task is only submitted when all results it waits for are successes."
 ],
 "C10": [
  "SchedModel.v: TaskList::process, the workers of the pool, queue, event, counter and results as a transition system; TaskListModel.v: how the list of tasks is made.",
  "Progress lemma and a decreasing measure on steps other than spurious wakeups."
 ],
 "C11": [
  "SchedModel.v: TaskList::process, the workers of the pool, queue, event, counter and results as a transition system; TaskListModel.v: how the list of tasks is made.",
  "Counterexample: after it, an invariant excludes every final state. The positive part uses the measure from C10."
 ],
 "C12": [
  "PoolModel.v: ThreadPool as a transition system (owner, workers, queue, exception slot, termination flag).",
  "Inductive invariant; progress; decreasing measure."
 ],
 "C13": [
  "PoolModel.v: ThreadPool as a transition system (owner, workers, queue, exception slot, termination flag).",
  "Inductive invariant relating the history of exceptions to the slot."
 ],
 "C14": [
  "BuildModel.v: isOlder, isNewer, isUpToDate, the decision in runIfNecessary and the process that is run; the file system is a function from path to status.",
  "Case analysis; induction over the trace of a run for the project-level theorem."
 ],
 "C15": [
  "BuildModel.v: isOlder, isNewer, isUpToDate, the decision in runIfNecessary and the process that is run; the file system is a function from path to status.",
  "Induction over targets and dependencies; three valued logic for exceptions."
 ],
 "C16": [
  "BuildModel.v: isOlder, isNewer, isUpToDate, the decision in runIfNecessary and the process that is run; the file system is a function from path to status.",
  "Case analysis."
 ],
 "C17": [
  "BuildModel.v: isOlder, isNewer, isUpToDate, the decision in runIfNecessary and the process that is run; the file system is a function from path to status. Runs of the scheduler model act on the file system.",
  "Invariant over the trace of a run: what has been completed is current."
 ],
 "C18": [
  "BuildModel.v: isOlder, isNewer, isUpToDate, the decision in runIfNecessary and the process that is run; the file system is a function from path to status.",
  "Case analysis with an arbitrary process."
 ],
 "C19": [
  "LexModel.v: the state machines character by character. LexSpec.v: a grammar for the part of C++ that matters (comments, literals, raw strings, directives).",
  "Induction on the input."
 ],
 "C20": [
  "LexModel.v: the state machines character by character. LexSpec.v: a grammar for the part of C++ that matters (comments, literals, raw strings, directives).",
  "Induction on the input with an invariant on lines and columns."
 ],
 "C21": [
  "LexModel.v: the state machines character by character. LexSpec.v: a grammar for the part of C++ that matters (comments, literals, raw strings, directives).",
  "Induction on the grammar, one lemma per kind of token and state. Missing: texts outside of `tame_text`, for which it is false."
 ],
 "C22": [
  "LexModel.v: the state machines character by character. LexSpec.v: a grammar for the part of C++ that matters (comments, literals, raw strings, directives).",
  "As for C21, with the place where the lexer is (beginning of a line, after the name of a directive, rest of the line) as an additional index. Missing: texts outside of `tame`; apart from line continuation in the middle of tokens these are the ones for which it is false, or where it holds by accident."
 ],
 "C23": [
  "IoModel.v: Fifo as a transition system between a writer and a reader, buffers as functions on lists of chunks.",
  "Invariant over all interleavings: what has been read, followed by what is stored, is what has been written."
 ],
 "C24": [
  "IoModel.v: Fifo as a transition system between a writer and a reader, buffers as functions on lists of chunks.",
  "Induction on reads and writes."
 ],
 "C25": [
  "ScanModel.v: tasks, the table of files, the counter of pending tasks and the exception list as a transition system on an abstract tree.",
  "Inductive invariant over all interleavings; decreasing measure."
 ],
 "C26": [
  "FileListModel.v: from scanned files to the graph, function by function.",
  "Induction over the files."
 ],
 "C27": [
  "FileListModel.v: from scanned files to the graph, function by function.",
  "Induction over the files."
 ],
 "C28": [
  "FileListModel.v: from scanned files to the graph, function by function.",
  "From C46."
 ],
 "C29": [
  "LoadModel.v: matchLongestExtension.",
  "Induction on the file name."
 ],
 "C30": [
  "LoadModel.v: CommandDictionary, sequentially and with threads.",
  "Invariant over histories."
 ],
 "C31": [
  "JsonModel.v: JSON values and the merge of compounds.",
  "Structural induction on values; associativity by induction on size."
 ],
 "C32": [
  "JLoadModel.v: the callback that feeds the decoder, with any decoder; then a decoder for a JSON grammar.",
  "Induction on the text in chunks. Missing: the texts named in the refutations."
 ],
 "C33": [
  "ValueModel.v: build ids.",
  "Induction on digits."
 ],
 "C34": [
  "CmdModel.v: the tokeniser for lists.",
  "Induction on the text."
 ],
 "C35": [
  "CmdModel.v: lookup of options by lower_bound and prefix comparison, collection of values.",
  "Induction on arguments; exact conditions for acceptance and for the value of each option. Missing: rejection of abbreviations, which is false."
 ],
 "C36": [
  "ValueModel.v, TimeProofs.v: thread counts and time stamps.",
  "Induction on digits; arithmetic of the calendar. Missing: garbage after a thread count, which is accepted."
 ],
 "C37": [
  "ValueModel.v: five enumerated settings.",
  "Case analysis."
 ],
 "C38": [
  "LogModel.v: printing of commands.",
  "A reader for printed commands, shown to be a left inverse."
 ],
 "C39": [
  "OwnModel.v: programs over variables, objects on the heap as numbered resources.",
  "Invariant over histories. Missing: move assignment of InputFile and ScopeExitHandler and copies of moved-from loaders, for which it is false."
 ],
 "C40": [
  "LogModel.v: CompilationLog::write.",
  "Induction on the output. Missing: output with NUL characters and incomplete last lines."
 ],
 "C41": [
  "RecipeModel.v: what is passed to recipes, and the recipes cxx_linker.py, make_lib.py, cxx_compiler.py and generic.py.",
  "Induction on the dependencies, order preserved by filtering. Missing: dependencies declared in two ways."
 ],
 "C42": [
  "LoadModel.v: operator| for compilers.",
  "Case analysis. Missing: configuration without recipe."
 ],
 "C43": [
  "MemModel.v: the parser for /proc/meminfo.",
  "Induction on the text. Missing: the cases named in the refutations."
 ],
 "C44": [
  "LoadModel.v: search paths and target locations; LocProofs.v: lexical operations on paths.",
  "Induction on path components. Missing: source directories that are not normalised. For references with steps upwards, see StepProofs.v."
 ],
 "C45": [
  "JsonModel.v: JSON values and the merge of compounds.",
  "Counterexample, for every pair of different boolean values."
 ],
 "C46": [
  "FileListModel.v: from scanned files to the graph, function by function.",
  "Each stage is specified, and the specifications composed."
 ],
 "C47": [
  "SchedModel.v: TaskList::process, the workers of the pool, queue, event, counter and results as a transition system; TaskListModel.v: how the list of tasks is made.",
  "From C03 and the invariant of record_node."
 ],
 "C48": [
  "PoolModel.v: ThreadPool as a transition system (owner, workers, queue, exception slot, termination flag).",
  "Invariant over all interleavings including the destructor."
 ],
 "C49": [
  "PoolModel.v: AsyncTaskResult with several readers.",
  "Invariant; counterexample with two readers. Missing: more than one reader."
 ],
 "C50": [
  "BuildModel.v: isOlder, isNewer, isUpToDate, the decision in runIfNecessary and the process that is run; the file system is a function from path to status.",
  "From C17, with the set of files changed since the previous build."
 ],
 "C51": [
  "LoadModel.v: createTargets/load for one file.",
  "Case analysis."
 ],
 "C52": [
  "LoadModel.v: as for C51.",
  "Case analysis. Missing: tags with a compiler but without recipe."
 ],
 "C53": [
  "LogModel.v; LogSpec.v: how a shell reads words; ScriptSpec.v: how a shell reads a script.",
  "Induction on characters. C53_shell_exactly: the shell reads the command that is run if and only if no word has a backslash or a single quotation mark. Missing: the other commands, for which the claim is thereby refuted."
 ],
 "C54": [
  "LogModel.v: the log levels.",
  "Case analysis and induction on the lines. Missing: regular output and empty lines."
 ],
 "C55": [
  "ExecModel.v: child, pipes with bounded capacity, two reader threads and the calling thread as a transition system.",
  "Inductive invariant; decreasing measure; exit status by arithmetic on the wait status."
 ],
 "C56": [
  "ExecModel.v: child, pipes with bounded capacity, two reader threads and the calling thread as a transition system.",
  "A state from which no final state is reachable, for every child that reads its standard input."
 ],
 "C57": [
  "RecipeModel.v: what is passed to recipes, and the recipes cxx_linker.py, make_lib.py, cxx_compiler.py and generic.py.",
  "Case analysis over JSON construction. Missing: names that are not UTF-8."
 ],
 "C58": [
  "RecipeModel.v: what is passed to recipes, and the recipes cxx_linker.py, make_lib.py, cxx_compiler.py and generic.py. MarkModel.v: md2htmlpart.py and doc2html.py.",
  "Case analysis over return codes. Missing: the generic recipe and md2htmlpart.py, which ignore the results of their tools."
 ],
 "C59": [
  "RecipeModel.v: what is passed to recipes, and the recipes cxx_linker.py, make_lib.py, cxx_compiler.py and generic.py.",
  "Induction over the flags. Missing: repeated flags."
 ],
 "C60": [
  "RecipeModel.v: what is passed to recipes, and the recipes cxx_linker.py, make_lib.py, cxx_compiler.py and generic.py.",
  "Induction over candidates. Missing: see the refutations."
 ],
 "C61": [
  "OutputModel.v: BufferReader and the loop that reads from it.",
  "From C32; counterexamples by an invariant of the endless loop. Missing: output beyond the first buffer."
 ],
 "C62": [
  "CfgModel.v: conversion of the configuration from and to JSON, default values, reading of files.",
  "Induction over the maps and lists of a configuration."
 ],
 "C63": [
  "CfgModel.v: conversion of the configuration from and to JSON, default values, reading of files.",
  "Case analysis; counterexample."
 ],
 "C64": [
  "CfgModel.v: conversion of the configuration from and to JSON, default values, reading of files.",
  "Induction over the map of extensions."
 ],
 "C65": [
  "MainModel.v: main as a function from environment and arguments to events and exit status; TaskList::process and the scanner are fields of the environment, required to be executions of their models (`genuine`).",
  "Case analysis over the phases of main. Missing: three options for which it is false."
 ],
 "C66": [
  "MainModel.v: main as a function from environment and arguments to events and exit status; TaskList::process and the scanner are fields of the environment, required to be executions of their models (`genuine`).",
  "Case analysis over the phases of main. Missing: everything about files, it is false."
 ],
 "C67": [
  "MainModel.v: main as a function from environment and arguments to events and exit status; TaskList::process and the scanner are fields of the environment, required to be executions of their models (`genuine`).",
  "Case analysis over the phases of main. Missing: recipes that are run while loading."
 ],
 "C68": [
  "MainModel.v: main as a function from environment and arguments to events and exit status; TaskList::process and the scanner are fields of the environment, required to be executions of their models (`genuine`).",
  "From C08, C09, C46 and C47, composed through main."
 ],
 "C69": [
  "MainModel.v: main as a function from environment and arguments to events and exit status; TaskList::process and the scanner are fields of the environment, required to be executions of their models (`genuine`).",
  "From C47, composed through main."
 ],
 "C70": [
  "MainModel.v: main as a function from environment and arguments to events and exit status; TaskList::process and the scanner are fields of the environment, required to be executions of their models (`genuine`).",
  "Lemmas on relative paths from C44. Missing: the cases named in the refutations."
 ],
 "C71": [
  "MainModel.v: main as a function from environment and arguments to events and exit status; TaskList::process and the scanner are fields of the environment, required to be executions of their models (`genuine`).",
  "Invariant of insertion into a sorted set."
 ],
 "C72": [
  "MainModel.v: main as a function from environment and arguments to events and exit status; TaskList::process and the scanner are fields of the environment, required to be executions of their models (`genuine`).",
  "Exact conditions for options from C35. Missing: the default with --source-dir, which is another one."
 ],
 "C73": [
  "ForkModel.v: any number of threads in execve, with their children and reader threads, as a transition system; descriptors that children inherit from other calls.",
  "Invariants over all interleavings: what has been captured and is in a pipe is what has been written so far; a process inherits the error pipe only of calls whose process is created later, since that pipe is closed before the lock is released; the oldest process can always go on; each step decreases a measure."
 ],
 "C74": [
  "As C73.",
  "A call can return on its own if no running process has its descriptors; which processes have them, and that they must exit first. Missing: the rest, which is refuted."
 ],
 "C75": [
  "As C73; `waited_for` says that waitpid has returned.",
  "By cases from the invariant of C73. Missing: tools that can not be launched, for which it is refuted."
 ],
 "C76": [
  "TreeModel.v puts ScanModel.v and LoadModel.v together (which file is loaded as what), and adds recipes/make_directory.py. TreeSpec.v: a build where the recipe for directories is that one, and other recipes may do anything to the targets of their own tasks.",
  "The scan (C25) gives an entry for the directory of each file, whose only target is the corresponding directory (C44); the file depends on it (C51), so its task has succeeded before (C07); an invariant over the build shows that the target of a directory that has succeeded is a directory, and stays one. Missing: names of targets with a directory part, and plain files in place of directories, for which it is refuted."
 ],
 "C77": [
  "As C76. AgainSpec.v says how names in directories relate to the files there, and what it means that the target directory is left out of the scan. Paths that are different in normal form are taken to be different files (so --target-dir with an absolute path into the source directory is not covered).",
  "A build changes targets only (induction over the build). A file that belongs to the project is reached through names that are not filtered out, so it is not in the target directory, and nothing about it has changed; hence it belongs to the project at the other time too (induction over how it is found). By C25, both scans return exactly these files. Missing: target directories that are not left out, for which it is refuted."
 ],
 "C78": [
  "KindModel.v has the loaders that a configuration refers to (all six kinds, together with LexModel.v), and SourceFileLoaderDelegator::load with them. Printing and parsing JSON are functions; that they fit together is a hypothesis (`reads_back`).",
  "Which loader handles a file follows from C64. The computed name is compared with an inductive description of appending and replacing extensions; the place follows from C44. That only UTF-8 is accepted by jansson's check is proved in Utf8Proofs.v, in both directions. Missing: names that are not UTF-8, for which it is refuted; replaced extensions may give the same target, which is refuted as well."
 ],
 "C79": [
  "The models in LexModel.v, JLoadModel.v (jansson is any decoder that skips white space), LoadModel.v and KindModel.v, put together. FoundSpec.v says what the tags of a file are, in terms of its lines, or of the items of a C++ text.",
  "What is in the stream of tags follows from C20 and C21; white space in front of the tags is skipped, so that C32 gives the first object, whatever follows; then the declared names are followed through the interpretation of the tags, and C44 gives the places. The includes follow from C22. Missing: C++ texts that are not tame (as for C21 and C22), control characters other than white space, and tags after the first object; the last two are refuted. That tags which are not an object are not ignored follows from the same steps (C79_not_object)."
 ],
 "C80": [
  "The models in FileListModel.v, DepGraphModel.v, TaskListModel.v, SchedModel.v and KindModel.v. LinkSpec.v says what a target uses, and, by induction, what it needs.",
  "The effect of the loop in addTargetDepsToSourceFiles is computed exactly (what has been changed before does not matter, as targets are not linked themselves). What a target needs is then reachable in the graph from its source file, so that C06 gives that the recipe is told, and C07 that it has been built. Missing: files with settings of their own, and implementations that use each other; both are refuted."
 ],
 "C81": [
  "The task list and the thread pool (SchedModel.v), the decision of each task (BuildModel.v), a disk with times of files. FailSpec.v extends the executions of C50 with a note of the disk at the end of each task. MakeModel.v: cxx_compiler.py.",
  "Invariant: targets of a task that has ended are not written by others, so that the decision of the second build is made on what the failed recipe has left, or on something older. Conversely, if the targets are up to date, the same decision is made as if the recipe had succeeded. Missing: recipes that fail after having made their targets; refuted, also for cxx_compiler.py with a program that is run, or clang-tidy."
 ],
 "C82": [
  "MakeModel.v: files by name with contents; the tools are parameters that map files to files and a return code.",
  "Induction over the targets. Missing: header files with targets, and more than one target of the linker and the archiver; both are refuted."
 ],
 "C83": [
  "DocModel.v: the tree of elements with attributes, and the regular expression for external resources, are modelled; parsing of XML and what xsltproc does are not. The tags are passed on to the model of the loader (LoadModel.v, KindModel.v) and of the list of files.",
  "Induction over documents; the regular expression is shown to accept exactly small letters followed by ://. The paths come from C44, and the failure of loading from C46. Missing: references that are relative to the document, but do not start with ./ , and external references of other forms; both refuted. A document that is not well-formed keeps the project from being loaded (C83_malformed)."
 ],
 "C84": [
  "MarkModel.v: trees of ElementTree with texts and tails, the loop over sections, and writing the tree, including how far it gets. pandoc and the XML parser are parameters; escaping is any function with the properties stated in MarkSpec.v.",
  "Induction over trees. The result is read by a small reader of tags and text, that is a part of the specification. C84_headings_anywhere: wherever the headings are in the tree, their titles are in the result. Missing: markup in headings; refuted, also for what is left behind by a failure."
 ],
 "C85": [
  "VcsModel.v: files by name, the repository and JSON are parameters.",
  "Induction over later runs. Missing: other working directories; refuted."
 ],
 "C86": [
  "WriteModel.v: the mutex of the log and what the threads put into stdout and stderr, character by character, on top of the model of the thread pool (SchedModel.v). The texts of the records are those of LogModel.v (C39). Errors of fputs and buffering are not modelled.",
  "Invariant over all steps: the owner of the mutex is the only task in the middle of its record, and the records written so far are those of an order of tasks that have been started. The order of dependencies comes from C02, and the end of the build from C05, with a measure that includes the characters yet to be written."
 ],
 "C87": [
  "JobModel.v: the value of each option (ValueModel.v) in the table of options of MainModel.v, and what `main` and `makeBuildInfo` make of it. The time, random bytes, host name, number of processors and isatty are parameters. A value out of the range of its type is a result of its own (`JobUndefined`).",
  "The texts that are accepted are characterised for each option (`acceptable`), for both directions; the command line theorems (C35) give the last value. Missing: numbers followed by something else, numbers out of range, and short ids are not rejected; refuted."
 ],
 "C88": [
  "ShowModel.v: the text printed by `printTargets` and `printDepGraph` and the lines before it (the parameters of the job, C87), for the targets and edges of MainModel.v. The specification contains a reader for a part of the language of dot.",
  "The lines before the list are shown to be comments (the numbers, the date and the id contain no line break); the text of the graph is read by the reader of the specification, by induction on the edges. Combined with what is known about the targets and edges (C70, C71). Missing: names with line breaks or a hash sign at the beginning, and names with quotes or backslashes; refuted."
 ],
 "C89": [
  "ShowModel.v: `print` for each type of value and `forEachOption`, starting from the command line. A list is printed with a null pointer for the name, which is a result of its own (`ReportUndefined`).",
  "Each printed value is accepted by its option and converted to the same value (C35-C37); the job and the program depend on the values of the options only, so that repeating one of them changes nothing. Missing: lists, and the start time, which is printed as a date; refuted."
 ],
 "C90": [
  "HelpModel.v: the insertion sort of the options by category and name, the sorted list of types without repetitions, and `printHelp`, for any table of options; categories, types and names of the options of the program. Summaries and explanations are parameters.",
  "The sort is shown to give a sorted permutation; consecutive options of one category form a section, by induction on the sorted list. How an option is listed is compared with what the command line accepts (C27, C87), for any other arguments."
 ],
 "C91": [
  "SyncModel.v: SignalingCounter on its own, with any number of threads that wait, each for a value of its own, and may do so repeatedly. Overflow is not modelled.",
  "Induction on the sequence of steps; with a single thread that waits, it is blocked only while the counter has another value. Missing: several threads that wait at the same time, for which it is false, as only one of them is notified."
 ],
 "C92": [
  "SyncModel.v: Event on its own, with any number of threads that wait, and may do so repeatedly.",
  "Invariant: if the event is set and a thread is blocked, then another one is about to look at the event."
 ],
 "C93": [
  "AboutModel.v: the file written by about.py, and the texts printed by printVersion and printAbout. How a compiler reads the definitions in the file is a specification of its own (AboutSpec.v). Not modelled: missing members and members that are not texts.",
  "The reading of a file is unique, and is known for the file written by about.py. Missing: texts with quotes, backslashes or line breaks, which are put into literals as they are."
 ],
 "C94": [
  "LoadModel.v. The form of settings is a specification of its own (TagSpec.v).",
  "Each of the functions that read settings succeeds exactly if the settings have the right form. Missing: settings with other names are ignored, which is shown for all tags."
 ],
 "C95": [
  "LoadModel.v, Path.v. Following names, with steps upwards, is a specification of its own (StepSpec.v).",
  "Normalising a path is following names, as long as the directory is not left. Missing: names that lead out of the source directory, and absolute names."
 ],
 "C96": [
  "LoadModel.v; running the recipe is a parameter (see C61 for how its output is read).",
  "Case analysis. Missing: the rebuild policy, and files that have a compiler configuration of their own."
 ],
 "C97": [
  "MainModel.v, BuildModel.v. The files before and after each list of tasks are described by `building` (BuildSpec.v), and those of the whole run by `unfolds` (WholeSpec.v).",
  "A task list processed after another one leaves up-to-date targets alone unless it is forced to run recipes, by induction over the events of the run, on top of C21 and C22. Missing: several names in `--targets` together with `--force-rebuild` or a policy `always`, for which it is false; names that are not normalised."
 ],
 "C98": [
  "DefaultModel.v: the scan of C25 with the filters of a configuration (`input_filter.cpp:39-44`, `maike.cpp:355-364`); the default configuration is that of C64. What is assumed of regular expressions is that the two of the default configuration mean what they are supposed to mean.",
  "From C25 (files that belong to the project), by induction over how a file is found, and from C29 and the table of the loaders. The source directory has to be written in normal form: with `./foo`, it is false."
 ],
 "C99": [
  "ScriptModel.v: what a task of a dry run delivers (`task.cpp:15-29`, `execve.cpp:264-269`), its command (`task.cpp:5-13`) and what the log is told about it. The writing of the log is that of C60 (WriteModel.v, LogModel.v). ScriptSpec.v has a reader for the part of the language of the shell that is used (quotes, backslashes, comments, words, lines); it answers `None` for everything else. It has been written from POSIX, not from a shell.",
  "From the order and the text of the records (C60), by induction over the text of a command and over the records. That the script builds everything follows as in C17, by induction over the commands that have been run. Partial: the names have to be without line breaks, and arguments without backslashes and single quotes; both are necessary, see the refutations. The printing of JSON (jansson) is a parameter, for which it is assumed that task ids can be told apart."
 ],
 "C100": [
  "The model of C14 - C17 and C50 (BuildModel.v, SchedModel.v, TaskListModel.v). DueSpec.v says what a recipe that succeeds leaves behind (`fresh_build`: files newer than the time at which the build started, or directories), and which tasks are due (`due`, an inductive definition over the state of the files when the build starts).",
  "Invariants over the build: what has changed is a target of a recipe that was run, and what a recipe has made stays as it is. When a task starts, everything it needs has been made, so that the decision can be traced back to the initial state; the other direction is by induction over `due`. A target which another file refers to as a system header or external library is excluded (only for the direction that needs it): such files are not compared."
 ],
 "C101": [
  "The model of loading a file (LoadModel.v). MeanSpec.v says what tags say, member by member, without functions of the model: `names` for what a name refers to, `says_dependency`, `says_target`, `says_file`, `says_policy`.",
  "By following the function that loads a file, with the results of C44 for names. The parsing of JSON, looking up recipes, and running them are parameters."
 ],
 "C102": [
  "The models of loading a project (FileListModel.v, DepGraphModel.v, GraphModel.v), of the command of a task (RecipeModel.v, ScriptModel.v), and `due` of C100. LocalSpec.v: `only_adds`, `same_record`, `without_task_id`.",
  "Simulation: a traversal of the smaller graph and one of the larger one, from the same file, go through the same states up to the numbers of the files. The dependencies taken over from targets are given in closed form. For projects where names are in normal form, and no target is another source file. What stands for something outside of the project may change its kind, if a new file refers to it in another way (example vector_placeholder)."
 ],
 "C103": [
  "The models of building (BuildModel.v, SchedModel.v, TaskListModel.v) and loading. Contents are of any type. A recipe is a function `make` from the contents of all files to the contents of a target; `repeatable`: only the contents of its inputs matter. CleanSpec.v: `history` (any sequence of changes of source files, tags and the project itself, and of builds that succeed or fail), `producing` (a build, as `building`, with contents), `proper_content` (what should be in a file, by recursion on what it is made from).",
  "Invariant of all histories: a target that is newer than all source files it is made from, directly or not, has its proper contents. A build keeps it by induction on its trace (with C07: what a task needs has been finished, C15: a task that has nothing to do is newer than everything). A change keeps it because what is changed gets a new time stamp, and whoever depends on something made from it depends on it as well. Assumed of recipes: one that fails leaves no target that is newer than its source files (see C81 for one that does not behave like this). Refuted otherwise: a file that is replaced and keeps its time stamp, and settings that are changed in the configuration, do not cause anything to be built."
 ],
 "C104": [
  "FeedModel.v: the calling thread, the feeding thread, the two capturing threads, the pipes (of any capacity, with any amount moved at a time) and the tool (an arbitrary tree of reads and writes that depends on what has been read) as a transition system. FeedSpec.v: `behave` runs a tool by hand on its input.",
  "Invariant: what has been read, what is in the pipe and what is left is the input, and what the tool still does is what it does by hand. Progress by cases on the state; a measure bounds the number of steps. Refuted for tools that read to the end: the state in which it waits has no successor and execve has not returned."
 ],
 "C105": [
  "CxxModel.v: `compile` in cxx_compiler.py up to the call of the compiler, with the functions of `os.path` it uses; pkg-config, the working directory and the printing of a time are parameters. CxxSpec.v: `without_repetitions` (what a list without repetitions is), `flag_for` (flags for a dependency), `needed_for` (as in C41), `header_name`.",
  "The JSON value passed to the recipe is taken apart with the lemmas for C57; then list reasoning. Names of headers: characterisation of the last dot after the last slash, and of lower case."
 ],
 "C106": [
  "CxxModel.v, including `os.path.relpath`, `dirname` and `abspath`. CxxSpec.v: `place`, the directory that a text denotes, found by walking from the root or the working directory, name by name.",
  "`relpath` followed from its start leads to its goal (common prefix, then up and down). The two options for each directory lead to the walk from the source directory, or from the target directory. The order follows from removing repetitions."
 ],
 "C107": [
  "CxxModel.v: the definitions passed to the preprocessor. CxxSpec.v: `literal_value` reads a string literal of C++ with its escape sequences; ValueSpec.v: `c_constant` for integers.",
  "Induction on the text: a literal without escapes has the value of its characters, and with escapes it is shorter than its text or is none at all."
 ],
 "C108": [
  "MainModel.v. ConfSpec.v: `chosen_files` and `chosen_config` in terms of the options that are given on the command line; `documented`, the table of options (C35).",
  "Every option has a value of its own type, so the cases of the model are those of the specification. No other phase of the program reads a configuration file."
 ],
 "C109": [
  "CfgModel.v. ConfSpec.v: `config_says`, in terms of the members of JSON objects, and `usual`, the table of loaders without a configuration file.",
  "An equivalence for each function that takes a JSON value apart. A sorted map with the same entries is the same map, which gives the direction from the specification to the model."
 ],
 "C110": [
  "StampModel.v: the model of the pool and the log (WriteModel.v) with a clock, and with the steps of `runIfNecessary`. What the log says about a task is given in advance; a thread can write to the log only if that is what the clock said. StampSpec.v: `stands_for`, `in_progress`, `delivered`.",
  "Three invariants: how far each thread is, what has been read from the clock (with a statement about all earlier times, for the number of tasks in progress), and what the log has to say. Truncated intervals that contain a microsecond all contain its last nanosecond."
 ],
 "C111": [
  "doc2html.xsl as a function from the element tree of a document, with the files it includes, to the element tree of the page. Templates are chosen by name, parent and mode as XSLT does by priority. Comments, processing instructions and namespaces are left out, and so is a file that includes itself.",
  "By induction over the content of a document, level by level; that there is no other table of contents by induction over what may be in a document."
 ],
 "C112": [
  "As for C111. What is a document is said by an inductive predicate.",
  "By induction over what may be in a document: for each template, what it makes of the content."
 ],
 "C113": [
  "As for C111; keys are looked up in the file the reference is in, as key() does.",
  "Everything in a document, and in the files it includes, is rendered somewhere on the page; conversely, each link on the page comes from a reference, a link or the table of contents."
 ],
 "C114": [
  "The program of MainModel.v, with the text of each exception (WhyModel.v). The texts of exceptions thrown by recipes, while looking for files, and by tasks are parameters; for tasks, they are restricted to those of a run of the scheduler (SchedModel.v).",
  "Forgetting the messages gives the program without them. Each place where an exception is thrown is matched with the condition it reports."
 ],
 "C115": [
  "As for C114; times are left out, except for their place in the text.",
  "The number of nodes is related to the files that are available, and the number of tasks to the files with targets, by the theorems about loading (FileListProofs.v) and task lists (TaskListProofs.v)."
 ],
 "C116": [
  "string.Template of the Python library as an automaton that reads the template character by character; the scripts with the program, pandoc and the XML parser as parameters, and files as a function from names to contents. Markdown only as far as backslashes, hyphens and blocks are concerned. Texts are sequences of bytes, of which the order is the same as that of code points in UTF-8.",
  "Induction on the template, with a lemma for text, one for a name, and one for the rest. A relation describes what is left of a text where backslashes escape characters; it is shown to be a function and to undo what the script does."
 ],
 "C117": [
  "subprocess.run as a function of the commands run before; None if the program can not be started. The status of a shell script without set -e is that of its last command.",
  "Case distinction; return codes lie between -255 and 255, so that exit does not turn a failure into success."
 ],
 "C118": [
  "The file system as a tree of files and directories with the permissions for others; mkdir -p, cp, cp -r and chmod as functions on trees; names resolved lexically, without symbolic links. Other reasons for which a command may fail are a parameter. If a command fails, the state is not modelled.",
  "Lemmas about what is at a place after a change at another one: at the place, below it, on the way to it, elsewhere. The meaning of the name of the directory is specified by a relation on steps and shown to be what lexical normalisation gives. The search composes with LoadModel.v."
 ],
 "C119": [
  "The transition system of ScanModel.v, where loading may also throw a string: the task ends, the counter is released, and at some later time the pool catches the string. How main ends, as a function of what the pool has caught.",
  "Simulation: to each run there is one of ScanModel.v in which the lost files are reported as faulty, with the same files, tasks and counter. An invariant tells for which files strings are thrown. Concrete runs for the refuted statements."
 ],
 "C120": [
  "FdModel.v: descriptor tables as functions from numbers; pipe, close, dup2, fcntl and exec as functions on tables, with the lowest free number; class Pipe and the code of the child line by line.",
  "The table of the child is computed for arbitrary numbers greater than 2; an invariant of the call gives these numbers, for all interleavings with other threads. For a single thread, the numbers are in ascending order, and all cases are computed."
 ],
 "C121": [
  "FdModel.v: the call as a sequence of steps with all its exits, including those by exceptions, interleaved with other threads that open and close descriptors.",
  "Invariant: the numbers stored in the Pipe objects are exactly those of the descriptors of these pipes."
 ],
 "C122": [
  "IntegModel.v: the part of bash that the scripts use, with set -e, pipelines, word splitting and command substitution; the nine scripts, command by command; grep, awk, sed, tr and echo as they are used; the first lines of a log. All other commands are a parameter that may depend on everything that has been run before.",
  "Induction over scripts for those which consist of commands only, and for those which stop at a failure; main.sh by cases for its first two parts and induction over the others. The commands that have been run are computed step by step for each script. For the ids, the tools are specified on texts that consist of lines, among them exactly one which is looked for."
 ],
 "C123": [
  "PackModel.v: the two rules of the Makefile on trees of files and directories (SetupModel.v), with the shell opening the file for the output first, and the pipeline from find and git to tar; archives as lists of members, unpacked one after the other. The build, the dry run and git are parameters.",
  "The members of a name are characterised by what is at a place in a directory without duplicate names; find only gives names below __buildcache. Members with the same name have the same content, so that the order of unpacking does not matter. Writing the script keeps everything apart from it. PackProps2.v composes this with C99: the job is computed from the arguments in the Makefile."
 ],
 "C124": [
  "PkgModel.v: the three functions of pkg_config.py with strip, split() and split(' ') of Python; pkg-config is a parameter. They are put into the models of the linker and compiler recipes (RecipeModel.v), where they were parameters.",
  "The words of a text are specified by a relation, which split() is shown to compute; strip removes gaps at both ends; splitting at blanks is the inverse of joining with blanks. Removing repetitions keeps a list of words together if they have not occurred before."
 ],
 "C125": [
  "TidyModel.v: the working directory as a function from places to files and directories; rm -rf with the pattern of the Makefile; the shell command that is run for each JSON file; the words that xargs makes of the output of find. jq is a parameter.",
  "One file at a time: what happens to it, to .fmt and to all others; then induction over the files that are found."
 ],
 "C126": [
  "TrapModel.v: the command given to trap that is in force when a script ends, following the interpreter of IntegModel.v; the scripts are the ones of C122. The working directory is computed from the commands that have been run (TrapSpec.v).",
  "Scripts whose remaining commands are something else than mktemp -d, and which set no trap, change neither the trap nor the temporary directories. Commands are told apart by characters that occur in their text. The scripts for relative names step by step."
 ],
 "C127": [
  "The scripts of C122 (IntegModel.v) together with the target directory computed by the program (JobModel.v). What is supposed about the machine is in WhereSpec.v: a program is there only if a build with its target directory has been run.",
  "The scripts step by step; the only build is the one with the source directory of the script, and appending _targets to a component gives maike_targets only for maike."
 ]
}