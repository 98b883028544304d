[
 [
  "C11_ends_after_exception_refuted",
  "A task whose up-to-date check throws (for example because a directory cannot be searched) leaves its result pending, and `process` waits forever for tasks that depend on it (`core/db/task_list.cpp`, `task.hpp`)."
 ],
 [
  "C21_line_comment_refuted",
  "`// see /* here` makes the rest of the file, tags included, disappear for the tag filter (`cxx/source_file_loader.cpp`)."
 ],
 [
  "C21_block_comment_refuted",
  "A block comment that ends with two asterisks is not seen to end."
 ],
 [
  "C21_raw_string_refuted",
  "A raw string that contains a right parenthesis is not seen to end."
 ],
 [
  "C21_literal_refuted",
  "A string literal that ends with R starts a raw string."
 ],
 [
  "C22_after_endif_refuted",
  "After a directive without argument, such as `#endif`, an include directive on the next line is missed."
 ],
 [
  "C22_after_comment_refuted",
  "`/* text */ #include \"x.hpp\"` is not seen, because the directive does not come first on the line."
 ],
 [
  "C22_pragma_refuted",
  "The operand of any directive, as in `#pragma message \"x\"`, is taken for an include file."
 ],
 [
  "C22_comment_refuted",
  "As for C21, includes are hidden by `// ... /*`."
 ],
 [
  "C23_empty_chunk_refuted",
  "An empty write to a Fifo is read as end of file."
 ],
 [
  "C31_failing_file_ignored_refuted",
  "A configuration file that cannot be merged is reported, but the members before the offending one stay merged (`bin/config.cpp`)."
 ],
 [
  "C32_unclosed_refuted",
  "A tag block with an unclosed object is silently taken to be empty (`json_handle.cpp`)."
 ],
 [
  "C32_garbage_refuted",
  "So is a short text that is not JSON at all."
 ],
 [
  "C32_control_refuted",
  "A control character before an object discards the object silently."
 ],
 [
  "C34_empty_last_refuted",
  "An empty last element of a list is lost."
 ],
 [
  "C35_rejected_refuted",
  "Any beginning of the name of an option is accepted instead of the name; even the empty name, as in `=x`."
 ],
 [
  "C36_thread_count_garbage_refuted",
  "`4x` is accepted as a number of threads."
 ],
 [
  "C39_file_refuted",
  "Move assignment of an InputFile closes a handle twice (`io/input_file.hpp`)."
 ],
 [
  "C39_copy_refuted",
  "Copying a Loader that has been moved from dereferences a null pointer."
 ],
 [
  "C39_scope_refuted",
  "Move assignment of a ScopeExitHandler forgets the handler that was there, and has no return statement (`utils/scope_exit_handler.hpp`)."
 ],
 [
  "C40_nul_refuted",
  "The log loses what follows a NUL character in the output of a tool."
 ],
 [
  "C40_continued_refuted",
  "A log record is not ended if the last line of the output is incomplete."
 ],
 [
  "C41_missing_refuted",
  "An object which one file needs as its implementation, and another one in some other way, may be missing from the command line of the linker."
 ],
 [
  "C42_origin_refuted",
  "If tags configure a compiler without naming a recipe, the default recipe is used with the wrong origin."
 ],
 [
  "C43_far_refuted",
  "MemAvailable is not found beyond the first buffer."
 ],
 [
  "C43_last_refuted",
  "It is not found on a last line that is not terminated."
 ],
 [
  "C43_unreadable_refuted",
  "If /proc/meminfo cannot be opened, the behaviour is undefined."
 ],
 [
  "C44_other_source_dir_refuted",
  "With --source-dir=./foo, targets are placed outside of the target directory."
 ],
 [
  "C45_boolean_can_be_overridden_refuted",
  "A boolean setting cannot be overridden by a later configuration: true and false count as different types."
 ],
 [
  "C49_all_readers_return_refuted",
  "With two threads waiting for an AsyncTaskResult, one may sleep forever (`notify_one`)."
 ],
 [
  "C52_depends_on_recipe_refuted",
  "A file with a compiler configuration but without recipe of its own is not rebuilt when the default recipe changes."
 ],
 [
  "C53_shell_refuted",
  "Printed commands are not quoted as shells need it when there is a backslash or a quote."
 ],
 [
  "C54_quiet_refuted",
  "With log level `errors`, skipped tasks produce empty lines, and regular output is shown."
 ],
 [
  "C56_input_refuted",
  "A tool that reads its standard input hangs forever, and the build with it: the write end of the pipe is closed only after the tool has exited (`exec/execve.cpp`)."
 ],
 [
  "C57_name_refuted",
  "If a file name is not valid UTF-8, the recipe is not told which file to compile."
 ],
 [
  "C58_generic_refuted",
  "`generic.py` ignores the exit status of its tool."
 ],
 [
  "C59_flags_refuted",
  "Repeated flags are dropped, which breaks flags that consist of two words."
 ],
 [
  "C60_max_refuted",
  "Requesting only the latest acceptable language revision never works."
 ],
 [
  "C60_broken_refuted",
  "One compiler that cannot be run makes the configuration fail."
 ],
 [
  "C60_oldest_refuted",
  "Among compilers with partial support, that with the least is selected."
 ],
 [
  "C61_long_refuted",
  "Output of a recipe beyond 4096 bytes is never read; the first block is read again and again."
 ],
 [
  "C61_blank_refuted",
  "A recipe that prints only line breaks makes the program read forever."
 ],
 [
  "C63_stops_refuted",
  "If a configuration file cannot be read, the program goes on with the default configuration."
 ],
 [
  "C65_still_builds_refuted",
  "`--print-dep-graph-inv`, `--dump-database` and `--list-external-deps`, which are documented to print something and exit, print nothing and build everything."
 ],
 [
  "C66_file_refuted",
  "File names given to `--list-targets`, `--print-dep-graph`, `--help` and so on are ignored."
 ],
 [
  "C67_recipes_run_refuted",
  "`--dry-run` runs recipes while loading."
 ],
 [
  "C70_directory_refuted",
  "`--list-targets` lists the top directory as `.`, but `--targets=.` fails."
 ],
 [
  "C70_dot_refuted",
  "With `--target-dir=./build`, no target can be asked for at all, neither by the name in the list nor by any other name relative to it."
 ],
 [
  "C72_default_refuted",
  "With `--source-dir=foo`, targets are placed in `foo_targets` in the current directory, contrary to the documentation."
 ],
 [
  "C74_prompt_refuted",
  "The pipes of a call are created before the mutex is locked (execve.cpp:172-177), and without `O_CLOEXEC`. A process created by another thread in between gets their write ends, and keeps them until it exits. The call then waits for that process too: a short compilation does not end before a long one."
 ],
 [
  "C75_cleaned_up_refuted",
  "If exec fails, the exception is thrown without a call to waitpid (execve.cpp:213-220), and the process remains as a zombie until the program ends."
 ],
 [
  "C75_still_running_refuted",
  "If exec fails, the exception may be thrown while the process is still running."
 ],
 [
  "C76_subdirectory_refuted",
  "A target may be called `sub/x.o`. Unless there is a directory `sub` next to the source file, nobody makes `sub` below the target directory, and the compiler cannot write the target."
 ],
 [
  "C76_file_in_the_way_refuted",
  "make_directory.py ignores FileExistsError (recipes/make_directory.py:16-17), also when what exists is a plain file. The task succeeds, and the recipes for the files in the directory fail with a message that does not tell why."
 ],
 [
  "C77_same_project_refuted",
  "Only the filters decide what is scanned; the target directory is not left out by itself. With `--target-dir=build`, the directory `build` is part of the project, and gets a directory `build/build` for its own targets. The next scan finds that one as well, and the next build makes `build/build/build`. Targets with a known extension (generated sources) are compiled once more from the target directory."
 ],
 [
  "C78_apart_refuted",
  "With `\"filename_ext_replacement_mode\": \"replace\"`, `a.rst` and `a.txt` both have the target `a.html`."
 ],
 [
  "C78_one_result_refuted",
  "If a file handled by a generic loader has a name that is not UTF-8, then the name of the target is silently left out of the JSON object (the result of `json_object_set_new` is ignored), and loading the project fails with an error about a missing key."
 ],
 [
  "C79_second_object_refuted",
  "Only the first JSON object in the tags of a file is read. A second one, in a later comment, is ignored without a message."
 ],
 [
  "C79_form_feed_refuted",
  "A form feed (or another control character) in front of the tags is copied to the stream of tags, and makes the JSON decoder fail. As no character above the space had been seen by then, this is taken for a file without tags: its targets disappear without a message."
 ],
 [
  "C80_own_settings_refuted",
  "Whether a C++ file gets the dependencies of its targets is decided from the compiler settings of the loader. If the tags of the file itself ask for the action `link`, then the recipe links, but is not told about any object file. (`Loader::useTargetDeps` passes `m_compiler`; `loadSourceFile` has the file's own compiler at hand.)"
 ],
 [
  "C80_mutual_refuted",
  "If `a.cpp` includes `b.hpp` and `b.cpp` includes `a.hpp`, and each header says that its object file is needed, then `a.o` and `b.o` depend on each other: the project is loaded, but building it fails because of a cyclic dependency, though there is no cycle between the files."
 ],
 [
  "C81_failure_refuted",
  "Whether a recipe has to run is decided from the times of files only. If a recipe fails after it has written its targets, then the next build succeeds without running it. This is the case for `cxx_compiler.py` (`C81_test_program`): if the program is built, but fails when it is run (a failing test), or clang-tidy complains, then a second invocation of maike reports success, unless the file is to be rebuilt always."
 ],
 [
  "C82_header_refuted",
  "`cxx_compiler.py` does nothing for a header file, also if it has been declared to have a target. It exits with 0, so that the file is built again each time."
 ],
 [
  "C82_linker_refuted",
  "`cxx_linker.py` and `make_lib.py` make the first target only, and exit with 0. (`cxx_compiler.py` copies the first target to the others.) As the others are missing, the file is built again each time."
 ],
 [
  "C82_archiver_refuted",
  "`cxx_linker.py` and `make_lib.py` make the first target only, and exit with 0. (`cxx_compiler.py` copies the first target to the others.) As the others are missing, the file is built again each time."
 ],
 [
  "C83_depends_refuted",
  "A reference such as `b.svg` in `doc/a.doc.xml` means `doc/b.svg` in a browser, but maike makes the document depend on `b.svg` at the top of the target directory. Only references that start with `./` are relative to the document."
 ],
 [
  "C83_external_refuted",
  "`doc2html.py` considers a reference external iff it starts with small letters followed by `://`. A link such as `mailto:me@example.org` (or `#top`, `HTTP://...`, `svn+ssh://...`) becomes a dependency on a generated file of this name, and the project can not be loaded."
 ],
 [
  "C84_text_refuted",
  "`md2htmlpart.py` uses the text in front of the first markup in a heading as title, and drops the rest: `# A *b* c` becomes `A`."
 ],
 [
  "C84_partly_written_refuted",
  "If a heading starts with markup, such as `# *b*`, the title becomes `None`. The recipe fails while writing the target, so that the beginning of the document is left behind, which counts as up to date in the next build (see C81)."
 ],
 [
  "C58_pandoc_refuted",
  "`md2htmlpart.py` ignores the exit status of pandoc: if pandoc fails, an empty document is written, and the recipe succeeds."
 ],
 [
  "C85_repository_refuted",
  "`vcslog.py` opens `.git` in the working directory, not in the source directory that it is told about."
 ],
 [
  "C87_number_refuted",
  "`--num-workers=2x` is accepted and means 2: what follows the digits is ignored."
 ],
 [
  "C87_range_refuted",
  "`--start-time=9223372037` (in the year 2262) is accepted, and the conversion to nanoseconds overflows: undefined behaviour."
 ],
 [
  "C87_short_id_refuted",
  "`--build-id=12` is accepted; the id is padded with zeros. Characters after the 64th are ignored."
 ],
 [
  "C88_newline_refuted",
  "The name of a target may contain a line break; `--list-targets` prints it as two lines."
 ],
 [
  "C88_hash_refuted",
  "The name of a target may begin with a hash sign; in the list of targets its line looks like a comment."
 ],
 [
  "C88_quote_refuted",
  "`--print-dep-graph` does not escape quotes in names; the result is not a text in the language of dot."
 ],
 [
  "C89_list_refuted",
  "The values of `--targets` and `--configfiles` are reported by `print(nullptr, val)`, which passes a null pointer to fprintf for `%s`: undefined behaviour whenever these options are used."
 ],
 [
  "C89_start_time_refuted",
  "The start time is reported as a date, which `--start-time` does not accept."
 ],
 [
  "C91_all_return_refuted",
  "If two threads wait for the same value of a SignalingCounter, only one of them is notified when the value is reached; the other one waits forever (`sched/signaling_counter.hpp`). In maike, there is one thread that waits."
 ],
 [
  "C93_quote_refuted",
  "about.py puts texts into C++ string literals as they are: with a quote in the description, the file that is generated is not C++."
 ],
 [
  "C93_backslash_refuted",
  "With a backslash in the description, the program shows another text (`core/bin/about.py`)."
 ],
 [
  "C94_unknown_refuted",
  "Members of tags that are not settings are ignored. `core/bin/about.py` has `\"rebuild_policy\":\"always\"`, but the name of the setting is `rebuild`. So the information about the build is not updated when maike is built again (`source_tree_loader/source_file_load_ctxt.cpp:229`)."
 ],
 [
  "C95_outside_refuted",
  "The name of a target may lead out of the target directory: with `../a.cpp` in the tags of `a.cpp`, the file is its own target, and will be overwritten (`source_file_load_ctxt.cpp:83-89`)."
 ],
 [
  "C95_absolute_refuted",
  "If the source directory is given by a relative path, all targets with absolute names denote the target directory itself."
 ],
 [
  "C96_policy_refuted",
  "A rebuild policy in tags that are delivered by a recipe is ignored (`source_file_load_ctxt.cpp:212-232`)."
 ],
 [
  "C96_own_config_refuted",
  "If the tags of a file have a compiler configuration, the recipe is not asked for tags, even if `use_get_tags` is set for its kind of files."
 ],
 [
  "C97_always_refuted",
  "With `--targets=a,b`, there is one list of tasks for each name, and they are processed one after the other (`core/db/source_tree.cpp:56-75`). A file that is always rebuilt and is needed for both is made twice, and `a` is out of date when the program is done."
 ],
 [
  "C97_forced_refuted",
  "The same happens to all files needed for both if `--force-rebuild` is given."
 ],
 [
  "C98_dot_refuted",
  "With `--source-dir=./foo` and the default configuration, nothing is built: the names of the files are relative to `foo` (normalised, `directory_scanner.cpp`), so relative to `./foo` they begin with `../`, which the default filter `^\\.` leaves out."
 ],
 [
  "C99_newline_refuted",
  "A line break in the name of a source file ends the comment in the line that is logged for it (`compilation_log.cpp:50-58`), so that the rest of the name becomes a command of the script a dry run prints: with a file called `a\u23cerm notes.txt #.cpp`, the script removes `notes.txt`."
 ],
 [
  "C99_backslash_refuted",
  "`shell_escape` (`command.cpp:11-21`) puts a backslash before backslashes and quotes, and single quotes around the word. In single quotes, the shell does not remove the backslash. As JSON has a backslash before each quotation mark inside a string, an option like `-DNAME=\"x\"` makes the script printed by a dry run call the recipe with other arguments than the program does."
 ],
 [
  "C103_old_file_refuted",
  "Only time stamps are compared. If a source file is replaced by another one, and keeps its time stamp (or gets an older one, as with `cp -p` or `mv`), nothing is built, and the result is not that of a build from scratch."
 ],
 [
  "C103_settings_refuted",
  "No target depends on the configuration (maikeconfig.json) or on the version of the tools. If compiler flags are changed there, nothing is built again, and what is built afterwards is mixed with what had been built with the old flags."
 ],
 [
  "C104_end_refuted",
  "A tool that is run with supplied input and reads until the end of it never sees the end: the writing end of the pipe is closed only when the call returns, and the call returns only when the tool has ended. (No part of the program supplies input to a tool at present, apart from tests.)"
 ],
 [
  "C104_filter_refuted",
  "The same for a filter that copies its input to its output, such as `cat`: it is stuck after having copied everything."
 ],
 [
  "C106_generated_refuted",
  "With an absolute `--target-dir`, generated headers are not found by the compiler: the option names `<working directory>/<target directory>/...`."
 ],
 [
  "C106_configured_refuted",
  "An absolute path among the `iquote` directories of the configuration is looked up below the source directory if `--source-dir` is given."
 ],
 [
  "C107_texts_refuted",
  "A quotation mark or a backslash in the name of the source or target directory makes the definition of `MAIKE_BUILDINFO_SOURCEDIR` or `MAIKE_BUILDINFO_TARGETDIR` something that is not a string literal."
 ],
 [
  "C109_documented_refuted",
  "The documentation of loaders (`doc/maike.doc.xml`) has `cxx` and `identity`. With either of them in a configuration, the whole configuration is discarded, and the default configuration is used. (The kind for C++ is called `cxx_src_loader`, and there is none called `identity`.)"
 ],
 [
  "C111_included_refuted",
  "The table of contents is made from the elements of the document itself (doc2html.xsl:110-144): chapters of files that are included are on the page, but not listed."
 ],
 [
  "C111_nested_refuted",
  "The table of contents lists the sections of a chapter and the subsections of a section only (doc2html.xsl:110-136). The user guide has sections within a section (doc/maike.doc.xml:68-224), which are not listed."
 ],
 [
  "C111_appendix_refuted",
  "For a file that is included into the appendix, only the sections at the top are made in mode appendix (doc2html.xsl:39-46); what they contain looks for an appendix around it in its own file, does not find one, and gets the class for the main part."
 ],
 [
  "C112_section_refuted",
  "Sections apply templates to their elements only (doc2html.xsl:36,45): text directly within a section gets lost."
 ],
 [
  "C113_titles_refuted",
  "key() looks for an item in the file that contains the reference (doc2html.xsl:95-101): a reference to an item of another file of the same document gets no text at all. Neither does one to a paragraph, which has no key."
 ],
 [
  "C113_unnamed_refuted",
  "A chapter without an identifier, like one in the user guide (doc/maike.doc.xml:258), gets an entry in the table of contents that leads to the top of the page (doc2html.xsl:110-136). The user guide also refers to source_tree_loader_props (doc/maike.doc.xml:239), which does not exist: the link is without a text, and leads nowhere."
 ],
 [
  "C114_cycle_refuted",
  "If files depend on each other in a cycle, the message is just \"Cyclic dependency detected\" (core/utils/graphutils.hpp): which files these are is not told."
 ],
 [
  "C114_duplicate_refuted",
  "If a target is declared by two files, the message (core/db/source_file_list.cpp:44-62) names the first one only, so the other one has to be searched for."
 ],
 [
  "C114_flag_refuted",
  "--dry-run=yes is rejected with \"Option does not take any value\" (core/cmd_line_parser/command_line.hpp:77), without naming the option."
 ],
 [
  "C115_tasks_refuted",
  "The number of completed tasks is the sum over the targets given (core/db/source_tree.cpp:56-75): with --targets=app,app, each task of app is counted twice. If there is no task at all, the time per task is a division by zero (core/bin/maike.cpp:271-279)."
 ],
 [
  "C116_pandoc_refuted",
  "doc/manpage.py:90-91 ignores the return code of pandoc and returns 0: if pandoc fails, the task is regarded as successful without its target having been written, or with an old one left in place."
 ],
 [
  "C117_bootstrap_refuted",
  "The bootstrap script made by a dry run (Makefile:8) has no set -e, and build.py:14-16 uses only its exit status, that is the status of the last command: if another command fails, the build goes on with what there is."
 ],
 [
  "C118_umask_refuted",
  "install.sh:11-13 gives others access to the files, but not to the directories made by mkdir -p: with umask 077 an installation by root into a new directory can not be used by others."
 ],
 [
  "C118_version_refuted",
  "install.sh does not remove anything: recipes of an older version, which the new one does not have any more, are still found."
 ],
 [
  "C119_listing_refuted",
  "execve.cpp:30 throws a string if there are no file descriptors left for a pipe. directory_scanner.cpp:84 catches std::exception only, so the file is left out of the source tree without any message, and maike2 --list-targets or --print-dep-graph prints an incomplete result with status 0."
 ],
 [
  "C119_late_refuted",
  "When such a string is thrown, the counter of the scan is released (directory_scanner.cpp:40, a parameter of processPath) before the thread pool stores the exception (thread_pool.hpp:118-122). The scan, and in principle the whole build, may be over before that, and the status is 0."
 ],
 [
  "C119_reason_refuted",
  "If the string has been stored, it is thrown after all tasks have been completed (task_list.cpp:124), and not caught by main (maike.cpp:407): the program is terminated without a message."
 ],
 [
  "C120_closed_refuted",
  "execve.cpp:52-57: dup2 followed by close is wrong if the read end already has the number 0, which is the case if maike2 is started with its standard input closed. Then the tools have no standard input."
 ],
 [
  "C120_threads_refuted",
  "If maike2 is started with standard output and standard error closed, the numbers 1 and 2 may be used by the third pipe of a call, and the tool has no standard error stream. This depends on the order in which threads proceed."
 ],
 [
  "C120_report_refuted",
  "In the same situation, the fourth pipe of a call may get these numbers, and its write end is overwritten by the one for standard error (execve.cpp:194). If the tool can not be launched, that is not noticed, and the tool has no standard error stream."
 ],
 [
  "C122_commit_refuted",
  "integration_test/build_new_version.sh ends with 'exit 0' as soon as the build ids agree; the comparison of commits below is never reached."
 ],
 [
  "C122_build_refuted",
  "In build_new_version.sh and bootstrap_from_release.sh, maike2 is the first command of a pipeline without pipefail; if the build fails after the program has been made, for instance in a unit test, it is not noticed."
 ],
 [
  "C122_mktemp_refuted",
  "In integration_test/main.sh, the status of mktemp is lost by export; if it fails, the name of the directory is empty, and 'make PREFIX= install' installs the program to /bin and /lib of the system."
 ],
 [
  "C123_git_refuted",
  "In the rule source-archive, the status of git ls-files is lost in the pipeline; where there is no repository, for instance in an unpacked release, 'make source-archive' succeeds and makes an archive without sources."
 ],
 [
  "C123_keeps_refuted",
  "In the rule bootstrap, the shell truncates __buildcache/bootstrap.sh before the dry run; if the dry run fails, the working script of an unpacked release is lost."
 ],
 [
  "C124_cflags_refuted",
  "pkg_config.get_cflags splits with split(' '), unlike the two other functions; two blanks in a row give an empty argument for the compiler, which takes it for the name of a file."
 ],
 [
  "C124_escaped_refuted",
  "In pkg_config.py, words with blanks, which pkg-config writes with a backslash, are torn apart (shlex.split would not do that)."
 ],
 [
  "C124_order_refuted",
  "In cxx_linker.py, if a library is needed for a package that comes first in the list of dependencies, it is placed after the libraries it uses according to the output of pkg-config for another package; with static libraries, linking fails."
 ],
 [
  "C125_mode_refuted",
  "In the Makefile, make format replaces JSON files by new ones, so that their permissions are lost."
 ],
 [
  "C125_left_refuted",
  "In the Makefile, .fmt is left behind by make format if jq fails; a file of that name that was there before is lost. Since find does not tell about failures of the commands it runs, make format succeeds nevertheless."
 ],
 [
  "C125_names_refuted",
  "In the Makefile, make format splits the names of source files at blanks (find -print0 and xargs -0 would not do that)."
 ],
 [
  "C126_subpath_refuted",
  "In install_and_rebuild_out_of_tree_from_subpath.sh, temp_build_dir is left behind if one of the commands after cd fails, since the trap has a relative name; the next run fails at mkdir."
 ],
 [
  "C126_second_refuted",
  "In install_and_rebuild_out_of_tree.sh, the first temporary directory is left behind if the second can not be made."
 ],
 [
  "C126_parent_refuted",
  "install_and_rebuild_out_of_tree_rel_path.sh leaves maike_targets in the parent directory of the source directory."
 ],
 [
  "C127_name_refuted",
  "install_and_rebuild_out_of_tree.sh and install_and_rebuild_out_of_tree_rel_path.sh look for the new program in maike_targets, but the target directory is named after the source directory. They fail in a checkout that is not called maike."
 ]
]