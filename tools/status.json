{
 "C01": [
  "proved",
  ""
 ],
 "C02": [
  "proved",
  ""
 ],
 "C03": [
  "proved",
  ""
 ],
 "C04": [
  "proved",
  ""
 ],
 "C05": [
  "proved",
  ""
 ],
 "C06": [
  "proved",
  "A dependency with an empty name is visited but not reported."
 ],
 "C07": [
  "proved",
  ""
 ],
 "C08": [
  "proved",
  ""
 ],
 "C09": [
  "proved",
  "A task counts as failed also if it ends with an exception without recording a result."
 ],
 "C10": [
  "proved",
  "Proved under the weaker assumption that no task that others wait for ends without recording a result (see C11). Spurious wakeups may occur, but not forever."
 ],
 "C100": [
  "proved",
  ""
 ],
 "C101": [
  "proved",
  ""
 ],
 "C102": [
  "proved",
  "For projects whose names are in normal form, and where no target is another source file."
 ],
 "C103": [
  "partial",
  "Proved if files that are changed get a new time stamp, and settings outside of the source files stay as they are; otherwise refuted."
 ],
 "C11": [
  "partial",
  "Refuted: if a task ends without recording a result and another task waits for it, processing never ends (C11_ends_after_exception_refuted, C11_never_ends). Holds if nobody waits for it (C11_ends_after_exception_partial)."
 ],
 "C12": [
  "proved",
  ""
 ],
 "C13": [
  "proved",
  "The first exception wins, later ones are dropped. Tasks with a result object keep their exception there (C49)."
 ],
 "C14": [
  "proved",
  "run_task covers runIfNecessary and the function run by the thread pool; writing the log is left out. Project-level theorem for forced builds."
 ],
 "C15": [
  "proved",
  "Exact characterisation, the reasons for an exception, and the project-level consequence."
 ],
 "C16": [
  "proved",
  ""
 ],
 "C17": [
  "proved",
  "Assumes names in normal form, no target named as another source file, recipes write only their own targets, and leave them newer than the inputs on success."
 ],
 "C18": [
  "proved",
  "The effect of a process is an arbitrary function; with the flag set it is never applied."
 ],
 "C19": [
  "proved",
  ""
 ],
 "C20": [
  "proved",
  ""
 ],
 "C21": [
  "partial",
  "Exact for the #@ loader on all inputs. For C++, proved for every source text (cxx_source: C++ lexing with continued lines between tokens, digit separators and prefixed raw strings) in which comments and literals satisfy the side conditions in tame_text. The full statement is refuted: line comments containing /*, block comments ending in **/, raw strings containing ), literals ending in R."
 ],
 "C22": [
  "partial",
  "Proved for every source text (cxx_source) that satisfies the side conditions in tame, among them headers with include guards, nested conditionals, and macros over several lines. The full statement is refuted: directive without argument on the line before an include, include after a block comment on the same line, string operand of another directive, comments containing /*."
 ],
 "C23": [
  "proved",
  "An empty write acts as end of file (C23_empty_chunk_refuted shows that the restriction to non-empty chunks is needed)."
 ],
 "C24": [
  "proved",
  "The reads issued by the input buffer are those of the FIFO model with constant size."
 ],
 "C25": [
  "proved",
  "The source directory, once normalised, must not end with a slash; the file system does not change during the scan."
 ],
 "C26": [
  "proved",
  ""
 ],
 "C27": [
  "proved",
  ""
 ],
 "C28": [
  "proved",
  ""
 ],
 "C29": [
  "proved",
  ""
 ],
 "C30": [
  "proved",
  "Sequential history with changing file system, and any interleaving of threads with a fixed file system."
 ],
 "C31": [
  "proved",
  "true and false count as different kinds (see C45). C31_failing_file_ignored_refuted: a configuration file that fails to merge is reported, but the members before the offending one stay merged."
 ],
 "C32": [
  "partial",
  "Refuted as stated: text that is not blank but has none of the characters }, ] and space, and is shorter than the buffer, or that follows a control character, silently yields nothing. Proved: when an error is reported, that these are the only exceptions, and that complete objects are always found."
 ],
 "C33": [
  "proved",
  "Also: short and over-long texts are accepted, and a last odd digit is dropped (Example odd_id)."
 ],
 "C34": [
  "partial",
  "Refuted for lists whose last element is empty (C34_empty_last_refuted); every list can be passed with a backslash at the end (C34_every_list)."
 ],
 "C35": [
  "partial",
  "Exact names are handled as claimed (C35_exact, C35_bad_value); that other names are rejected is refuted, since any beginning of an option name is accepted (C35_rejected_refuted, C35_abbreviation)."
 ],
 "C36": [
  "partial",
  "Refuted for trailing garbage in a thread count (atoi), C36_thread_count_garbage_refuted; everything else is proved."
 ],
 "C37": [
  "proved",
  "All five enumerated settings."
 ],
 "C38": [
  "proved",
  ""
 ],
 "C39": [
  "partial",
  "Proved for UniqueFunction and Loader for every program over variables of these types. For InputFile and ScopeExitHandler proved for programs without move assignment; with it a handle is closed twice (C39_file_refuted), or a handler is never run (C39_scope_refuted). Copying a moved-from Loader is undefined (C39_copy_refuted)."
 ],
 "C40": [
  "partial",
  "Lines are marked exactly as stated (C40_lines, for all texts). What is finally written is refuted for output with NUL characters (the rest is lost) and the record is not ended if the last line is incomplete."
 ],
 "C41": [
  "partial",
  "Proved: each needed word is passed exactly once and nothing else (C41_once, C41_library), users precede what they use (C41_reversed, C41_project). Refuted: an object declared as implementation by one file and without relation by another may not be linked (C41_missing_refuted)."
 ],
 "C42": [
  "partial",
  "The origin is wrong if the tags name a configuration but no recipe (C42_origin_refuted); proved otherwise."
 ],
 "C43": [
  "partial",
  "Proved for a terminated line within the first 4096 bytes; zero is reported if there is none. Refuted: a line further away, a last line without line break, a file that cannot be read (undefined)."
 ],
 "C44": [
  "partial",
  "Proved for normalised source and target directories; refuted for other source directories such as ./foo."
 ],
 "C45": [
  "partial",
  "Refuted: the code throws 'Type mismatch'."
 ],
 "C46": [
  "proved",
  "Starts after the directory scan. A declared target whose normalised name is that of a source file is not generated: the record of the source file is kept (map::insert)."
 ],
 "C47": [
  "proved",
  ""
 ],
 "C48": [
  "proved",
  "Assumes that the captures of the function object are destroyed in reverse order of declaration."
 ],
 "C49": [
  "partial",
  "Refuted for two or more readers: only one of the waiting threads is woken (C49_all_readers_return_refuted). Holds for a single reader (C49_single_reader_returns_partial)."
 ],
 "C50": [
  "proved",
  "Same assumptions as C17."
 ],
 "C51": [
  "proved",
  ""
 ],
 "C52": [
  "partial",
  "Refuted when the tags have a compiler without a recipe; proved otherwise."
 ],
 "C53": [
  "partial",
  "Refuted: backslashes and quotes are not escaped in the way shells require. Proved for words without them, and that the claim fails for every command with one of them."
 ],
 "C54": [
  "partial",
  "Refuted: skipped tasks cause an empty line and the standard output of tools is written. Proved: standard error is exact at all levels."
 ],
 "C55": [
  "proved",
  ""
 ],
 "C56": [
  "partial",
  "Refuted for every tool that waits for input."
 ],
 "C57": [
  "partial",
  "Proved for names that are valid UTF-8; refuted otherwise: the key is omitted silently (C57_name_refuted)."
 ],
 "C58": [
  "partial",
  "Proved of the linker, archiver and compiler recipes and doc2html.py, as an equivalence; refuted for generic.py and md2htmlpart.py, which ignore the result of their tool."
 ],
 "C59": [
  "partial",
  "Proved if no flag is repeated; refuted in general: repeated words are dropped."
 ],
 "C60": [
  "partial",
  "What is selected is within the limits (C60_within_partial); refuted: an upper limit alone never works, one broken compiler makes it fail, the candidate with the least support is selected."
 ],
 "C61": [
  "partial",
  "Proved for values within the first 4096 bytes of output, and for output that is not a sequence of values, which is rejected; refuted for longer output and for output that consists of line breaks, which are read forever, as the read offset is never advanced."
 ],
 "C62": [
  "proved",
  "The text written by jansson is taken to be read back as the same value, with members in sorted order. What std::regex accepts is a parameter."
 ],
 "C63": [
  "partial",
  "Refuted: the default configuration is used instead (C63_stops_refuted); proved that it is either the given one or the default one, and that an error is reported in the latter case."
 ],
 "C64": [
  "proved",
  ""
 ],
 "C65": [
  "partial",
  "Proved for help, version, about, configuration, list of targets and dependency graph. Refuted for --print-dep-graph-inv, --dump-database and --list-external-deps: these are accepted, print nothing, and a complete build is run."
 ],
 "C66": [
  "partial",
  "Refuted: the names of files are accepted and ignored, everything is written to standard output (proved for all command lines)."
 ],
 "C67": [
  "partial",
  "Proved: the flags reach all tasks exactly when given, and in a dry run no process is started by a task. Refuted in full: recipes are run while the configuration and the source files are loaded."
 ],
 "C68": [
  "proved",
  "Reading of the configuration, resolution of recipes, the scanner and TaskList::process are parameters here; the latter has to be an execution of the scheduler model (hypothesis genuine)."
 ],
 "C69": [
  "proved",
  "As for C68."
 ],
 "C70": [
  "partial",
  "Proved for targets inside a target directory given by a normalised path other than '.'. Refuted for the top directory, which is listed as '.' but not accepted, and for every target if the directory is given as ./build."
 ],
 "C71": [
  "proved",
  "The text of the dot file is not modelled, only the set of edges that is printed."
 ],
 "C72": [
  "partial",
  "Refuted: with --source-dir=foo and no --target-dir, foo_targets in the current directory is used, which is not the documented default."
 ],
 "C73": [
  "proved",
  ""
 ],
 "C74": [
  "partial",
  "refuted in general: a call waits for processes that were created while it had its pipes open"
 ],
 "C75": [
  "partial",
  "refuted for tools that can not be launched"
 ],
 "C76": [
  "partial",
  "Proved for targets without a directory part, if no plain file is in place of a directory that has to be made. The full statement is refuted."
 ],
 "C77": [
  "partial",
  "Proved for target directories that are left out of the scan by the filters, or are not in the source directory. The full statement is refuted."
 ],
 "C78": [
  "partial",
  "Files whose name is not valid UTF-8 are excluded, and make loading the project fail; with replaced extensions, two files may have the same target. Both refuted."
 ],
 "C79": [
  "partial",
  "For C++ texts that are tame (see C21, C22), without control characters other than white space, and the first JSON object in the tags. Refuted for a second object and for a form feed."
 ],
 "C80": [
  "partial",
  "Refuted for files that are linked because of settings in their own tags, and for implementations that use each other (the project can not be built)."
 ],
 "C81": [
  "partial",
  "Refuted for recipes that fail after they have made their targets, such as cxx_compiler.py when the program that it runs fails."
 ],
 "C82": [
  "partial",
  "Refuted for header files with targets, and for the second target of the linker and the archiver."
 ],
 "C83": [
  "partial",
  "Refuted for references that do not start with ./, and for external references such as mailto:."
 ],
 "C84": [
  "partial",
  "Refuted for headings that contain markup."
 ],
 "C85": [
  "partial",
  "Refuted for other working directories; keeping the information is proved in general."
 ],
 "C86": [
  "proved",
  ""
 ],
 "C87": [
  "partial",
  "Numbers followed by something else, numbers out of range, and short ids are not rejected (refuted). All other parts are proved."
 ],
 "C88": [
  "partial",
  "names with line breaks, hash signs, quotes or backslashes are not printed properly; refuted"
 ],
 "C89": [
  "partial",
  "lists (undefined behaviour) and the start time (printed as a date) cannot be used again; refuted"
 ],
 "C90": [
  "proved",
  ""
 ],
 "C91": [
  "partial",
  "Refuted for two or more threads that wait: only one of them is notified (C91_all_return_refuted). All other parts are proved."
 ],
 "C92": [
  "proved",
  "All parts, for any number of threads."
 ],
 "C93": [
  "partial",
  "Texts without quotes, backslashes and line breaks. Otherwise refuted."
 ],
 "C94": [
  "partial",
  "Settings of the wrong form are reported. That settings with unknown names are reported is refuted."
 ],
 "C95": [
  "partial",
  "Names that stay inside the source directory. Otherwise refuted."
 ],
 "C96": [
  "partial",
  "Refuted for the rebuild policy, and for files with a compiler configuration of their own."
 ],
 "C97": [
  "partial",
  "Partial: several names in --targets together with --force-rebuild or a policy always (refuted); names are normalised."
 ],
 "C98": [
  "proved",
  "For source directories in normal form; false for ./foo (C98_dot_refuted)."
 ],
 "C99": [
  "partial",
  "Proved for names without line breaks, and arguments without backslashes and single quotes; refuted for both: a name may add a command to the script, and the escapes of JSON change the arguments."
 ],
 "C104": [
  "partial",
  "Proved for tools that ask for no more input than there is. Refuted for others: the end of the input is never signalled while the tool runs, since the writing end of the pipe stays open, so that a tool which reads to the end of its input never gets there, and the call does not return."
 ],
 "C106": [
  "partial",
  "Proved for a target directory and configured directories that are given by relative paths. Refuted for absolute paths: they are looked up below the working directory or the source directory."
 ],
 "C107": [
  "partial",
  "Proved: the value of a text is right exactly if it contains no quotation mark, backslash or end of line; build ids never do. Refuted for names of directories that do."
 ],
 "C105": [
  "proved",
  "For all sources, dependencies, settings and directories; the parts of the command that come from the settings are those of the recipe's own configuration."
 ],
 "C108": [
  "proved",
  "For all command lines and environments; what the scan does with the settings is C25 and C64."
 ],
 "C109": [
  "partial",
  "Proved for all JSON values, except that two of the documented kinds of loaders, cxx and identity, are not accepted (refuted)."
 ],
 "C110": [
  "proved",
  "For all runs of the model of the pool, with a steady clock that does not run over."
 ],
 "C111": [
  "partial",
  "C111_contents, C111_made and C111_sections are proved. Refuted outside of what they assume: chapters of files that are included, and sections within sections (as in the user guide), are not listed (C111_included_refuted, C111_nested_refuted); sections in a file that is included into the appendix do not get the class of the appendix (C111_appendix_refuted)."
 ],
 "C112": [
  "partial",
  "C112_text, C112_body, C112_copied and C112_resources are proved. Refuted: text directly within a section is dropped (C112_section_refuted)."
 ],
 "C113": [
  "partial",
  "C113_links and C113_reference are proved. Refuted: references to other files of the document, and to paragraphs, are without a text (C113_titles_refuted); the entry of a chapter without an identifier leads to the top of the page (C113_unnamed_refuted)."
 ],
 "C114": [
  "partial",
  "C114_same_run, C114_reason, C114_silent and C114_scan_lines are proved. Refuted: in case of a cyclic dependency no file is told (C114_cycle_refuted), if a target is declared twice only one of the files is (C114_duplicate_refuted), and an option which takes no value is not named (C114_flag_refuted). Not covered: the texts of exceptions thrown by recipes and during the scan, which are parameters."
 ],
 "C115": [
  "partial",
  "C115_loaded, C115_tree, C115_counts, C115_incomplete and C115_text are proved. Refuted: tasks that belong to more than one of the targets given, or to one that is given twice, are counted repeatedly (C115_tasks_refuted)."
 ],
 "C116": [
  "partial",
  "C116_page, C116_hyphens, C116_manual, C116_output, C116_config and C116_parts are proved. Refuted: if pandoc fails, the script for the manual page succeeds nevertheless (C116_pandoc_refuted; for the parts of the documentation, C58_pandoc_refuted)."
 ],
 "C117": [
  "partial",
  "C117_success, C117_stops, C117_recipe and C117_arguments are proved. Refuted: the bootstrap script does not stop at a command that fails, thus its success does not mean that the program has been built as intended (C117_bootstrap_refuted)."
 ],
 "C118": [
  "partial",
  "C118_program, C118_recipes, C118_found, C118_others and C118_elsewhere are proved. Refuted: that others can run the program whatever the umask is (C118_umask_refuted), and that only recipes of the installed version are found (C118_version_refuted). Missing: what has been done when the script fails, and symbolic links."
 ],
 "C119": [
  "partial",
  "C119_returned, C119_threw, C119_not_stuck, C119_terminates and C119_status are proved. Refuted: that a list of targets printed with status 0 is complete (C119_listing_refuted), that a build with status 0 has seen all files, without the condition that the exceptions thrown have been caught in time (C119_late_refuted), and that the reason is told (C119_reason_refuted). Missing: strings thrown by tasks of the build itself, or in the main thread while recipes are configured; when main compiles, what the pool catches after the scan is a parameter."
 ],
 "C120": [
  "partial",
  "C120_streams, C120_report and C120_alone are proved. Refuted: that the streams are right whatever maike itself was started with (C120_closed_refuted), that a standard input suffices if there are other threads (C120_threads_refuted), and that the reason for a failure to launch a tool always gets into the right pipe (C120_report_refuted)."
 ],
 "C121": [
  "proved",
  "close is assumed to close. Descriptors of other parts of the program are anything that other threads open and close. If the second thread for reading can not be created (execve.cpp:139), the program is terminated; this is not a state of the model."
 ],
 "C122": [
  "partial",
  "C122_main, C122_commands, C122_stops, the theorems C122_did_..., C122_new_version, C122_release, C122_log and C122_version are proved. Refuted: that the new program tells the commit it was built from (C122_commit_refuted), that the build of the new version has succeeded (C122_build_refuted), and that there is a directory to install the program to (C122_mktemp_refuted). Missing: what the commands do, which are parameters. Removing directories at the end is C126."
 ],
 "C123": [
  "partial",
  "C123_content, C123_complete, C123_script, C123_version, C123_same_version, C123_succeeds, C123_needs and C123_job are proved. C123_builds_partial, that the script in the archive does the build, is for names in one line and words that can be quoted, as C99. Refuted: that git has succeeded if make has (C123_git_refuted), and that the script is kept if make fails (C123_keeps_refuted). Missing: permissions, symbolic links, names that git puts into quotes, and what the build does to the working directory, which is a parameter."
 ],
 "C124": [
  "partial",
  "C124_words, C124_libs, C124_libdirs, C124_cflags_text, C124_fails and C124_link_fails are proved. C124_cflags_partial is for words with one blank between them, and C124_link_partial for packages whose words are not needed for earlier dependencies. Refuted: the same for other white space (C124_cflags_refuted), for words with blanks in them (C124_escaped_refuted), and for libraries shared by packages (C124_order_refuted). Missing: characters that are not ASCII."
 ],
 "C125": [
  "partial",
  "C125_clean, C125_restored, C125_cache, C125_json, C125_mode, C125_others, C125_blocked, C125_left and C125_twice are proved. C125_sources_partial is for names without white space. Refuted: the same for other names (C125_names_refuted), that the permissions of JSON files are kept (C125_mode_refuted), and that no file .fmt is overwritten or left behind (C125_left_refuted). Missing: links, names with characters that are special for the shell or for xargs, failures while a file is written, and clang-format."
 ],
 "C126": [
  "partial",
  "C126_temporary and C126_targets are proved. C126_out_of_tree_partial leaves open the case that the second temporary directory can not be made, which is refuted (C126_second_refuted); C126_subpath_partial is for success only, otherwise refuted (C126_subpath_refuted). Refuted as well: that nothing is left in the parent directory (C126_parent_refuted). Missing: signals, symbolic links, and names with characters that are special to the shell."
 ],
 "C127": [
  "partial",
  "Refuted as stated (C127_name_refuted). Proved: two of the tests pass only in a directory called maike (C127_out_of_tree, C127_rel_path), if directories have absolute names without special characters. C127_rel_path supposes that the parent directory has no such program beforehand. Missing: that the test with --target-dir is independent of the name for all machines; there is an example only."
 ]
}