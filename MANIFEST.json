{
 "claims": [
  {
   "property": "C01",
   "status": "proved",
   "theorems": [
    "C01_dependencies_visited_first",
    "C01_dependencies_visited_first_until_error"
   ],
   "note": ""
  },
  {
   "property": "C02",
   "status": "proved",
   "theorems": [
    "C02_cycle_error_iff_cycle"
   ],
   "note": ""
  },
  {
   "property": "C03",
   "status": "proved",
   "theorems": [
    "C03_traversal_reports_reachable_nodes"
   ],
   "note": ""
  },
  {
   "property": "C04",
   "status": "proved",
   "theorems": [
    "C04_strict_resolution",
    "C04_lenient_resolution"
   ],
   "note": ""
  },
  {
   "property": "C05",
   "status": "proved",
   "theorems": [
    "C05_lookup_finds_the_named_file",
    "C05_lookup_of_unknown_file"
   ],
   "note": ""
  },
  {
   "property": "C06",
   "status": "proved",
   "theorems": [
    "C06_recursive_dependencies_exact"
   ],
   "note": "A dependency with an empty name is visited but not reported."
  },
  {
   "property": "C07",
   "status": "proved",
   "theorems": [
    "C07_dependencies_succeed_first",
    "C07_project_dependencies_built_first"
   ],
   "note": ""
  },
  {
   "property": "C08",
   "status": "proved",
   "theorems": [
    "C08_no_task_started_twice",
    "C08_all_tasks_done_on_return",
    "C08_project_built"
   ],
   "note": ""
  },
  {
   "property": "C09",
   "status": "proved",
   "theorems": [
    "C09_failure_stops_dependents",
    "C09_project_failure"
   ],
   "note": "A task counts as failed also if it ends with an exception without recording a result."
  },
  {
   "property": "C10",
   "status": "proved",
   "theorems": [
    "C10_process_ends",
    "C10_project_ends"
   ],
   "note": "Proved under the weaker assumption that no task that others wait for ends without recording a result (see C11). Spurious wakeups may occur, but not forever."
  },
  {
   "property": "C11",
   "status": "partial",
   "theorems": [
    "C11_ends_after_exception_refuted",
    "C11_never_ends",
    "C11_ends_after_exception_partial"
   ],
   "note": "Refuted: if a task ends without recording a result and another task waits for it, processing never ends (C11_ends_after_exception_refuted, C11_never_ends). Holds if nobody waits for it (C11_ends_after_exception_partial)."
  },
  {
   "property": "C12",
   "status": "proved",
   "theorems": [
    "C12_started_in_order_once",
    "C12_all_done_when_destroyed",
    "C12_no_idle_threads",
    "C12_no_deadlock",
    "C12_destructor_returns"
   ],
   "note": ""
  },
  {
   "property": "C13",
   "status": "proved",
   "theorems": [
    "C13_exceptions_are_kept"
   ],
   "note": "The first exception wins, later ones are dropped. Tasks with a result object keep their exception there (C49)."
  },
  {
   "property": "C14",
   "status": "proved",
   "theorems": [
    "C14_recipe_run_when_needed",
    "C14_forced_build_runs_everything"
   ],
   "note": "run_task covers runIfNecessary and the function run by the thread pool; writing the log is left out. Project-level theorem for forced builds."
  },
  {
   "property": "C15",
   "status": "proved",
   "theorems": [
    "C15_up_to_date_exact",
    "C15_up_to_date_throws",
    "C15_up_to_date_project"
   ],
   "note": "Exact characterisation, the reasons for an exception, and the project-level consequence."
  },
  {
   "property": "C16",
   "status": "proved",
   "theorems": [
    "C16_ages_compared"
   ],
   "note": ""
  },
  {
   "property": "C17",
   "status": "proved",
   "theorems": [
    "C17_build_leaves_everything_current",
    "C17_second_build_does_nothing"
   ],
   "note": "Assumes names in normal form, no target named as another source file, recipes write only their own targets, and leave them newer than the inputs on success."
  },
  {
   "property": "C18",
   "status": "proved",
   "theorems": [
    "C18_dry_run_starts_nothing",
    "C18_dry_run_task"
   ],
   "note": "The effect of a process is an arbitrary function; with the flag set it is never applied."
  },
  {
   "property": "C19",
   "status": "proved",
   "theorems": [
    "C19_cxx_source_unchanged",
    "C19_extension_source_unchanged"
   ],
   "note": ""
  },
  {
   "property": "C20",
   "status": "proved",
   "theorems": [
    "C20_cxx_tag_positions",
    "C20_extension_tags_exact"
   ],
   "note": ""
  },
  {
   "property": "C21",
   "status": "partial",
   "theorems": [
    "C21_cxx_tags_found_partial",
    "C21_line_comment_refuted",
    "C21_block_comment_refuted",
    "C21_raw_string_refuted",
    "C21_literal_refuted"
   ],
   "note": "Exact for the #@ loader on all inputs. For C++, proved for every source text (cxx_source: C++ lexing with continued lines between tokens, digit separators and prefixed raw strings) in which comments and literals satisfy the side conditions in tame_text. The full statement is refuted: line comments containing /*, block comments ending in **/, raw strings containing ), literals ending in R."
  },
  {
   "property": "C22",
   "status": "partial",
   "theorems": [
    "C22_includes_found_partial",
    "C22_after_endif_refuted",
    "C22_after_comment_refuted",
    "C22_pragma_refuted",
    "C22_comment_refuted"
   ],
   "note": "Proved for every source text (cxx_source) that satisfies the side conditions in tame, among them headers with include guards, nested conditionals, and macros over several lines. The full statement is refuted: directive without argument on the line before an include, include after a block comment on the same line, string operand of another directive, comments containing /*."
  },
  {
   "property": "C23",
   "status": "proved",
   "theorems": [
    "C23_fifo_delivers",
    "C23_fifo_never_stuck",
    "C23_fifo_terminates",
    "C23_empty_chunk_refuted"
   ],
   "note": "An empty write acts as end of file (C23_empty_chunk_refuted shows that the restriction to non-empty chunks is needed)."
  },
  {
   "property": "C24",
   "status": "proved",
   "theorems": [
    "C24_buffers_deliver",
    "C24_output_buffer",
    "C24_input_buffer"
   ],
   "note": "The reads issued by the input buffer are those of the FIFO model with constant size."
  },
  {
   "property": "C25",
   "status": "proved",
   "theorems": [
    "C25_everything_is_loaded_once",
    "C25_errors_are_reported",
    "C25_not_stuck",
    "C25_terminates"
   ],
   "note": "The source directory, once normalised, must not end with a slash; the file system does not change during the scan."
  },
  {
   "property": "C26",
   "status": "proved",
   "theorems": [
    "C26_targets_are_unique"
   ],
   "note": ""
  },
  {
   "property": "C27",
   "status": "proved",
   "theorems": [
    "C27_placeholders"
   ],
   "note": ""
  },
  {
   "property": "C28",
   "status": "proved",
   "theorems": [
    "C28_target_not_its_own_dependency"
   ],
   "note": ""
  },
  {
   "property": "C29",
   "status": "proved",
   "theorems": [
    "C29_longest_extension"
   ],
   "note": ""
  },
  {
   "property": "C30",
   "status": "proved",
   "theorems": [
    "C30_recipe_lookup",
    "C30_concurrent_lookup"
   ],
   "note": "Sequential history with changing file system, and any interleaving of threads with a fixed file system."
  },
  {
   "property": "C31",
   "status": "proved",
   "theorems": [
    "C31_merge",
    "C31_associative",
    "C31_empty_neutral",
    "C31_files_merged_in_order",
    "C31_failing_file_ignored_refuted"
   ],
   "note": "true and false count as different kinds (see C45). C31_failing_file_ignored_refuted: a configuration file that fails to merge is reported, but the members before the offending one stay merged."
  },
  {
   "property": "C32",
   "status": "partial",
   "theorems": [
    "C32_total",
    "C32_value",
    "C32_value_sound",
    "C32_error_sound",
    "C32_reported_partial",
    "C32_silent",
    "C32_unclosed_refuted",
    "C32_garbage_refuted",
    "C32_control_refuted"
   ],
   "note": "Refuted as stated: text that is not blank but has none of the characters }, ] and space, and is shorter than the buffer, or that follows a control character, silently yields nothing. Proved: when an error is reported, that these are the only exceptions, and that complete objects are always found."
  },
  {
   "property": "C33",
   "status": "proved",
   "theorems": [
    "C33_round_trip",
    "C33_digits",
    "C33_printed",
    "C33_rejected_iff"
   ],
   "note": "Also: short and over-long texts are accepted, and a last odd digit is dropped (Example odd_id)."
  },
  {
   "property": "C34",
   "status": "partial",
   "theorems": [
    "C34_total",
    "C34_round_trip_partial",
    "C34_every_list",
    "C34_nothing_else",
    "C34_elements",
    "C34_empty_last_refuted"
   ],
   "note": "Refuted for lists whose last element is empty (C34_empty_last_refuted); every list can be passed with a backslash at the end (C34_every_list)."
  },
  {
   "property": "C35",
   "status": "partial",
   "theorems": [
    "C35_exact",
    "C35_bad_value",
    "C35_unknown_partial",
    "C35_abbreviation",
    "C35_accepted",
    "C35_values",
    "C35_rejected_refuted",
    "C35_program_options",
    "C35_switches"
   ],
   "note": "Exact names are handled as claimed (C35_exact, C35_bad_value); that other names are rejected is refuted, since any beginning of an option name is accepted (C35_rejected_refuted, C35_abbreviation)."
  },
  {
   "property": "C36",
   "status": "partial",
   "theorems": [
    "C36_thread_count_round_trip",
    "C36_thread_count_accepted_partial",
    "C36_thread_count_integer",
    "C36_thread_count_positive",
    "C36_thread_count_garbage_refuted",
    "C36_time_stamp_accepted_iff",
    "C36_time_stamp_decimal",
    "C36_time_stamp_printed",
    "C36_time_stamp_injective"
   ],
   "note": "Refuted for trailing garbage in a thread count (atoi), C36_thread_count_garbage_refuted; everything else is proved."
  },
  {
   "property": "C37",
   "status": "proved",
   "theorems": [
    "C37_names"
   ],
   "note": "All five enumerated settings."
  },
  {
   "property": "C38",
   "status": "proved",
   "theorems": [
    "C38_reads",
    "C38_injective",
    "C38_recover"
   ],
   "note": ""
  },
  {
   "property": "C39",
   "status": "partial",
   "theorems": [
    "C39_function",
    "C39_loader",
    "C39_file_partial",
    "C39_file_refuted",
    "C39_scope_partial",
    "C39_scope_refuted",
    "C39_copy_refuted",
    "C39_defined"
   ],
   "note": "Proved for UniqueFunction and Loader for every program over variables of these types. For InputFile and ScopeExitHandler proved for programs without move assignment; with it a handle is closed twice (C39_file_refuted), or a handler is never run (C39_scope_refuted). Copying a moved-from Loader is undefined (C39_copy_refuted)."
  },
  {
   "property": "C40",
   "status": "partial",
   "theorems": [
    "C40_lines",
    "C40_every_text",
    "C40_record_partial",
    "C40_command",
    "C40_skipped",
    "C40_nul_refuted",
    "C40_continued_refuted"
   ],
   "note": "Lines are marked exactly as stated (C40_lines, for all texts). What is finally written is refuted for output with NUL characters (the rest is lost) and the record is not ended if the last line is incomplete."
  },
  {
   "property": "C41",
   "status": "partial",
   "theorems": [
    "C41_once",
    "C41_order",
    "C41_started",
    "C41_library",
    "C41_reversed",
    "C41_project",
    "C41_missing_refuted"
   ],
   "note": "Proved: each needed word is passed exactly once and nothing else (C41_once, C41_library), users precede what they use (C41_reversed, C41_project). Refuted: an object declared as implementation by one file and without relation by another may not be linked (C41_missing_refuted)."
  },
  {
   "property": "C42",
   "status": "partial",
   "theorems": [
    "C42_combined_compiler_partial",
    "C42_origin_refuted"
   ],
   "note": "The origin is wrong if the tags name a configuration but no recipe (C42_origin_refuted); proved otherwise."
  },
  {
   "property": "C43",
   "status": "partial",
   "theorems": [
    "C43_reported_partial",
    "C43_absent",
    "C43_far_refuted",
    "C43_last_refuted",
    "C43_unreadable_refuted"
   ],
   "note": "Proved for a terminated line within the first 4096 bytes; zero is reported if there is none. Refuted: a line further away, a last line without line break, a file that cannot be read (undefined)."
  },
  {
   "property": "C44",
   "status": "partial",
   "theorems": [
    "C44_locations",
    "C44_targets_apart",
    "C44_other_source_dir_refuted",
    "C44_steps_local",
    "C44_steps_global"
   ],
   "note": "Proved for normalised source and target directories; refuted for other source directories such as ./foo."
  },
  {
   "property": "C45",
   "status": "partial",
   "theorems": [
    "C45_boolean_can_be_overridden_refuted"
   ],
   "note": "Refuted: the code throws 'Type mismatch'."
  },
  {
   "property": "C46",
   "status": "proved",
   "theorems": [
    "C46_loading_a_project"
   ],
   "note": "Starts after the directory scan. A declared target whose normalised name is that of a source file is not generated: the record of the source file is kept (map::insert)."
  },
  {
   "property": "C47",
   "status": "proved",
   "theorems": [
    "C47_tasks_of_a_project",
    "C47_tasks_of_a_target",
    "C47_target_built",
    "C47_nothing_else_started"
   ],
   "note": ""
  },
  {
   "property": "C48",
   "status": "proved",
   "theorems": [
    "C48_no_thread_left_behind"
   ],
   "note": "Assumes that the captures of the function object are destroyed in reverse order of declaration."
  },
  {
   "property": "C49",
   "status": "partial",
   "theorems": [
    "C49_nothing_before_the_result",
    "C49_readers_get_the_result",
    "C49_single_reader_returns_partial",
    "C49_all_readers_return_refuted"
   ],
   "note": "Refuted for two or more readers: only one of the waiting threads is woken (C49_all_readers_return_refuted). Holds for a single reader (C49_single_reader_returns_partial)."
  },
  {
   "property": "C50",
   "status": "proved",
   "theorems": [
    "C50_rebuild_minimal",
    "C50_rebuild_complete"
   ],
   "note": "Same assumptions as C17."
  },
  {
   "property": "C51",
   "status": "proved",
   "theorems": [
    "C51_depends_on_directory",
    "C51_unknown_extension"
   ],
   "note": ""
  },
  {
   "property": "C52",
   "status": "partial",
   "theorems": [
    "C52_depends_on_recipe_partial",
    "C52_depends_on_recipe_refuted"
   ],
   "note": "Refuted when the tags have a compiler without a recipe; proved otherwise."
  },
  {
   "property": "C53",
   "status": "partial",
   "theorems": [
    "C53_shell_partial",
    "C53_shell_refuted",
    "C53_shell_exactly"
   ],
   "note": "Refuted: backslashes and quotes are not escaped in the way shells require. Proved for words without them, and that the claim fails for every command with one of them."
  },
  {
   "property": "C54",
   "status": "partial",
   "theorems": [
    "C54_quiet_partial",
    "C54_stderr",
    "C54_quiet_refuted"
   ],
   "note": "Refuted: skipped tasks cause an empty line and the standard output of tools is written. Proved: standard error is exact at all levels."
  },
  {
   "property": "C55",
   "status": "proved",
   "theorems": [
    "C55_captured",
    "C55_no_deadlock",
    "C55_bounded",
    "C55_exit_code",
    "C55_killed"
   ],
   "note": ""
  },
  {
   "property": "C56",
   "status": "partial",
   "theorems": [
    "C56_input_refuted"
   ],
   "note": "Refuted for every tool that waits for input."
  },
  {
   "property": "C57",
   "status": "partial",
   "theorems": [
    "C57_told",
    "C57_self",
    "C57_name_refuted"
   ],
   "note": "Proved for names that are valid UTF-8; refuted otherwise: the key is omitted silently (C57_name_refuted)."
  },
  {
   "property": "C58",
   "status": "partial",
   "theorems": [
    "C58_pandoc_refuted",
    "C58_xsltproc",
    "C58_run",
    "C58_compile",
    "C58_generic_refuted"
   ],
   "note": "Proved of the linker, archiver and compiler recipes and doc2html.py, as an equivalence; refuted for generic.py and md2htmlpart.py, which ignore the result of their tool."
  },
  {
   "property": "C59",
   "status": "partial",
   "theorems": [
    "C59_flags_partial",
    "C59_flags_refuted"
   ],
   "note": "Proved if no flag is repeated; refuted in general: repeated words are dropped."
  },
  {
   "property": "C60",
   "status": "partial",
   "theorems": [
    "C60_within_partial",
    "C60_max_refuted",
    "C60_broken_refuted",
    "C60_oldest_refuted"
   ],
   "note": "What is selected is within the limits (C60_within_partial); refuted: an upper limit alone never works, one broken compiler makes it fail, the candidate with the least support is selected."
  },
  {
   "property": "C61",
   "status": "partial",
   "theorems": [
    "C61_short_partial",
    "C61_malformed_partial",
    "C61_long_refuted",
    "C61_blank_refuted"
   ],
   "note": "Proved for values within the first 4096 bytes of output, and for output that is not a sequence of values, which is rejected; refuted for longer output and for output that consists of line breaks, which are read forever, as the read offset is never advanced."
  },
  {
   "property": "C62",
   "status": "proved",
   "theorems": [
    "C62_round_trip",
    "C62_loaded"
   ],
   "note": "The text written by jansson is taken to be read back as the same value, with members in sorted order. What std::regex accepts is a parameter."
  },
  {
   "property": "C63",
   "status": "partial",
   "theorems": [
    "C63_given_or_default_partial",
    "C63_stops_refuted"
   ],
   "note": "Refuted: the default configuration is used instead (C63_stops_refuted); proved that it is either the given one or the default one, and that an error is reported in the latter case."
  },
  {
   "property": "C64",
   "status": "proved",
   "theorems": [
    "C64_loaders_mapped",
    "C64_loader_of_file",
    "C64_recipes_resolved",
    "C64_own_recipe"
   ],
   "note": ""
  },
  {
   "property": "C65",
   "status": "partial",
   "theorems": [
    "C65_program_information",
    "C65_no_build_partial",
    "C65_configdump",
    "C65_still_builds_refuted"
   ],
   "note": "Proved for help, version, about, configuration, list of targets and dependency graph. Refuted for --print-dep-graph-inv, --dump-database and --list-external-deps: these are accepted, print nothing, and a complete build is run."
  },
  {
   "property": "C66",
   "status": "partial",
   "theorems": [
    "C66_standard_output_partial",
    "C66_file_refuted"
   ],
   "note": "Refuted: the names of files are accepted and ignored, everything is written to standard output (proved for all command lines)."
  },
  {
   "property": "C67",
   "status": "partial",
   "theorems": [
    "C67_flags",
    "C67_processes_partial",
    "C67_recipes_run_refuted"
   ],
   "note": "Proved: the flags reach all tasks exactly when given, and in a dry run no process is started by a task. Refuted in full: recipes are run while the configuration and the source files are loaded."
  },
  {
   "property": "C68",
   "status": "proved",
   "theorems": [
    "C68_status_values",
    "C68_success",
    "C68_failure",
    "C68_reasons"
   ],
   "note": "Reading of the configuration, resolution of recipes, the scanner and TaskList::process are parameters here; the latter has to be an execution of the scheduler model (hypothesis genuine)."
  },
  {
   "property": "C69",
   "status": "proved",
   "theorems": [
    "C69_targets_built",
    "C69_nothing_else",
    "C69_unknown_target"
   ],
   "note": "As for C68."
  },
  {
   "property": "C70",
   "status": "partial",
   "theorems": [
    "C70_list",
    "C70_names_partial",
    "C70_directory_refuted",
    "C70_dot_refuted"
   ],
   "note": "Proved for targets inside a target directory given by a normalised path other than '.'. Refuted for the top directory, which is listed as '.' but not accepted, and for every target if the directory is given as ./build."
  },
  {
   "property": "C71",
   "status": "proved",
   "theorems": [
    "C71_graph"
   ],
   "note": "The text of the dot file is not modelled, only the set of edges that is printed."
  },
  {
   "property": "C72",
   "status": "partial",
   "theorems": [
    "C72_directories_partial",
    "C72_default_refuted"
   ],
   "note": "Refuted: with --source-dir=foo and no --target-dir, foo_targets in the current directory is used, which is not the documented default."
  },
  {
   "property": "C73",
   "status": "proved",
   "theorems": [
    "C73_separate",
    "C73_failed",
    "C73_no_deadlock",
    "C73_bounded"
   ],
   "note": ""
  },
  {
   "property": "C74",
   "status": "partial",
   "theorems": [
    "C74_prompt_partial",
    "C74_inherited",
    "C74_waits",
    "C74_prompt_refuted"
   ],
   "note": "refuted in general: a call waits for processes that were created while it had its pipes open"
  },
  {
   "property": "C75",
   "status": "partial",
   "theorems": [
    "C75_cleaned_up_partial",
    "C75_cleaned_up_refuted",
    "C75_still_running_refuted"
   ],
   "note": "refuted for tools that can not be launched"
  },
  {
   "property": "C76",
   "status": "partial",
   "theorems": [
    "C76_directory_exists_partial",
    "C76_subdirectory_refuted",
    "C76_file_in_the_way_refuted"
   ],
   "note": "Proved for targets without a directory part, if no plain file is in place of a directory that has to be made. The full statement is refuted."
  },
  {
   "property": "C77",
   "status": "partial",
   "theorems": [
    "C77_same_project_partial",
    "C77_filtered",
    "C77_same_project_refuted"
   ],
   "note": "Proved for target directories that are left out of the scan by the filters, or are not in the source directory. The full statement is refuted."
  },
  {
   "property": "C78",
   "status": "partial",
   "theorems": [
    "C78_one_result_partial",
    "C78_not_text",
    "C78_apart",
    "C78_configured",
    "C78_apart_refuted",
    "C78_one_result_refuted"
   ],
   "note": "Files whose name is not valid UTF-8 are excluded, and make loading the project fail; with replaced extensions, two files may have the same target. Both refuted."
  },
  {
   "property": "C79",
   "status": "partial",
   "theorems": [
    "C79_targets_partial",
    "C79_includes_partial",
    "C79_not_object",
    "C79_second_object_refuted",
    "C79_form_feed_refuted"
   ],
   "note": "For C++ texts that are tame (see C21, C22), without control characters other than white space, and the first JSON object in the tags. Refuted for a second object and for a form feed."
  },
  {
   "property": "C80",
   "status": "partial",
   "theorems": [
    "C80_linked_partial",
    "C80_exact",
    "C80_who",
    "C80_own_settings_refuted",
    "C80_mutual_refuted"
   ],
   "note": "Refuted for files that are linked because of settings in their own tags, and for implementations that use each other (the project can not be built)."
  },
  {
   "property": "C81",
   "status": "partial",
   "theorems": [
    "C81_run_again_partial",
    "C81_interrupted_partial",
    "C81_forgotten",
    "C81_failure_refuted",
    "C81_test_program"
   ],
   "note": "Refuted for recipes that fail after they have made their targets, such as cxx_compiler.py when the program that it runs fails."
  },
  {
   "property": "C82",
   "status": "partial",
   "theorems": [
    "C82_copied",
    "C82_converted",
    "C82_copy_succeeds",
    "C82_copy_leaves",
    "C82_convert_succeeds",
    "C82_compiled_partial",
    "C82_compile_succeeds",
    "C82_header_refuted",
    "C82_linked_partial",
    "C82_archived_partial",
    "C82_tool_succeeds",
    "C82_linker_refuted",
    "C82_archiver_refuted"
   ],
   "note": "Refuted for header files with targets, and for the second target of the linker and the archiver."
  },
  {
   "property": "C83",
   "status": "partial",
   "theorems": [
    "C83_tags",
    "C83_depends_partial",
    "C83_only",
    "C83_unknown",
    "C83_malformed",
    "C83_depends_refuted",
    "C83_external_refuted"
   ],
   "note": "Refuted for references that do not start with ./, and for external references such as mailto:."
  },
  {
   "property": "C84",
   "status": "partial",
   "theorems": [
    "C84_text_partial",
    "C84_headings_anywhere",
    "C84_text_refuted",
    "C84_partly_written_refuted"
   ],
   "note": "Refuted for headings that contain markup."
  },
  {
   "property": "C85",
   "status": "partial",
   "theorems": [
    "C85_recorded_partial",
    "C85_kept",
    "C85_repository_refuted"
   ],
   "note": "Refuted for other working directories; keeping the information is proved in general."
  },
  {
   "property": "C86",
   "status": "proved",
   "theorems": [
    "C86_one_record_each",
    "C86_failed_build",
    "C86_any_time",
    "C86_ends"
   ],
   "note": ""
  },
  {
   "property": "C87",
   "status": "partial",
   "theorems": [
    "C87_rejected_partial",
    "C87_accepted",
    "C87_workers",
    "C87_start_time",
    "C87_id",
    "C87_log",
    "C87_directories",
    "C87_told",
    "C87_passed_on",
    "C87_number_refuted",
    "C87_range_refuted",
    "C87_short_id_refuted"
   ],
   "note": "Numbers followed by something else, numbers out of range, and short ids are not rejected (refuted). All other parts are proved."
  },
  {
   "property": "C88",
   "status": "partial",
   "theorems": [
    "C88_targets_partial",
    "C88_graph_partial",
    "C88_newline_refuted",
    "C88_hash_refuted",
    "C88_quote_refuted"
   ],
   "note": "names with line breaks, hash signs, quotes or backslashes are not printed properly; refuted"
  },
  {
   "property": "C89",
   "status": "partial",
   "theorems": [
    "C89_reported_partial",
    "C89_silent",
    "C89_list_refuted",
    "C89_start_time_refuted"
   ],
   "note": "lists (undefined behaviour) and the start time (printed as a date) cannot be used again; refuted"
  },
  {
   "property": "C90",
   "status": "proved",
   "theorems": [
    "C90_structure",
    "C90_usage"
   ],
   "note": ""
  },
  {
   "property": "C91",
   "status": "partial",
   "theorems": [
    "C91_value",
    "C91_not_early",
    "C91_single_partial",
    "C91_all_return_refuted"
   ],
   "note": "Refuted for two or more threads that wait: only one of them is notified (C91_all_return_refuted). All other parts are proved."
  },
  {
   "property": "C92",
   "status": "proved",
   "theorems": [
    "C92_one_each",
    "C92_not_missed"
   ],
   "note": "All parts, for any number of threads."
  },
  {
   "property": "C93",
   "status": "partial",
   "theorems": [
    "C93_compiles_partial",
    "C93_version_partial",
    "C93_about_partial",
    "C93_quote_refuted",
    "C93_backslash_refuted"
   ],
   "note": "Texts without quotes, backslashes and line breaks. Otherwise refuted."
  },
  {
   "property": "C94",
   "status": "partial",
   "theorems": [
    "C94_wrong_form_partial",
    "C94_right_form",
    "C94_unknown_ignored",
    "C94_unknown_refuted"
   ],
   "note": "Settings of the wrong form are reported. That settings with unknown names are reported is refuted."
  },
  {
   "property": "C95",
   "status": "partial",
   "theorems": [
    "C95_inside_partial",
    "C95_outside_refuted",
    "C95_absolute_refuted"
   ],
   "note": "Names that stay inside the source directory. Otherwise refuted."
  },
  {
   "property": "C96",
   "status": "partial",
   "theorems": [
    "C96_delivered_partial",
    "C96_policy_refuted",
    "C96_own_config_refuted"
   ],
   "note": "Refuted for the rebuild policy, and for files with a compiler configuration of their own."
  },
  {
   "property": "C97",
   "status": "partial",
   "theorems": [
    "C97_up_to_date_partial",
    "C97_again",
    "C97_always_refuted",
    "C97_forced_refuted"
   ],
   "note": "Partial: several names in --targets together with --force-rebuild or a policy always (refuted); names are normalised."
  },
  {
   "property": "C98",
   "status": "proved",
   "theorems": [
    "C98_files",
    "C98_recipes",
    "C98_dot_refuted"
   ],
   "note": "For source directories in normal form; false for ./foo (C98_dot_refuted)."
  },
  {
   "property": "C99",
   "status": "partial",
   "theorems": [
    "C99_script_partial",
    "C99_builds_partial",
    "C99_newline_refuted",
    "C99_backslash_refuted"
   ],
   "note": "Proved for names without line breaks, and arguments without backslashes and single quotes; refuted for both: a name may add a command to the script, and the escapes of JSON change the arguments."
  },
  {
   "property": "C100",
   "status": "proved",
   "theorems": [
    "C100_exactly_due",
    "C100_same_recipes",
    "C100_outcome",
    "C100_only_due"
   ],
   "note": ""
  },
  {
   "property": "C101",
   "status": "proved",
   "theorems": [
    "C101_tags_mean"
   ],
   "note": ""
  },
  {
   "property": "C102",
   "status": "proved",
   "theorems": [
    "C102_same_files",
    "C102_same_needs",
    "C102_same_command",
    "C102_same_due",
    "C102_still_loads"
   ],
   "note": "For projects whose names are in normal form, and where no target is another source file."
  },
  {
   "property": "C103",
   "status": "partial",
   "theorems": [
    "C103_same_as_clean_partial",
    "C103_same_contents_partial",
    "C103_right_contents_partial",
    "C103_new_is_right_partial",
    "C103_old_file_refuted",
    "C103_settings_refuted"
   ],
   "note": "Proved if files that are changed get a new time stamp, and settings outside of the source files stay as they are; otherwise refuted."
  },
  {
   "property": "C104",
   "status": "partial",
   "theorems": [
    "C104_delivered",
    "C104_in_order",
    "C104_no_deadlock_partial",
    "C104_bounded",
    "C104_returns_partial",
    "C104_end_refuted",
    "C104_filter_refuted"
   ],
   "note": "Proved for tools that ask for no more input than there is. Refuted for others: the end of the input is never signalled while the tool runs, since the writing end of the pipe stays open, so that a tool which reads to the end of its input never gets there, and the call does not return."
  },
  {
   "property": "C105",
   "status": "proved",
   "theorems": [
    "C105_command",
    "C105_started",
    "C105_headers"
   ],
   "note": "For all sources, dependencies, settings and directories; the parts of the command that come from the settings are those of the recipe's own configuration."
  },
  {
   "property": "C106",
   "status": "partial",
   "theorems": [
    "C106_own_directory",
    "C106_generated_partial",
    "C106_configured_partial",
    "C106_order_partial",
    "C106_generated_refuted",
    "C106_configured_refuted"
   ],
   "note": "Proved for a target directory and configured directories that are given by relative paths. Refuted for absolute paths: they are looked up below the working directory or the source directory."
  },
  {
   "property": "C107",
   "status": "partial",
   "theorems": [
    "C107_numbers",
    "C107_texts_partial",
    "C107_build_id",
    "C107_texts_refuted"
   ],
   "note": "Proved: the value of a text is right exactly if it contains no quotation mark, backslash or end of line; build ids never do. Refuted for names of directories that do."
  },
  {
   "property": "C108",
   "status": "proved",
   "theorems": [
    "C108_files",
    "C108_dump",
    "C108_scan"
   ],
   "note": "For all command lines and environments; what the scan does with the settings is C25 and C64."
  },
  {
   "property": "C109",
   "status": "partial",
   "theorems": [
    "C109_settings",
    "C109_default_loaders",
    "C109_default_scan",
    "C109_documented_refuted"
   ],
   "note": "Proved for all JSON values, except that two of the documented kinds of loaders, cxx and identity, are not accepted (refuted)."
  },
  {
   "property": "C110",
   "status": "proved",
   "theorems": [
    "C110_in_order",
    "C110_interval",
    "C110_command_run",
    "C110_needed_first",
    "C110_project",
    "C110_parallel",
    "C110_success",
    "C110_log",
    "C110_possible",
    "C110_record"
   ],
   "note": "For all runs of the model of the pool, with a steady clock that does not run over."
  },
  {
   "property": "C111",
   "status": "partial",
   "theorems": [
    "C111_contents",
    "C111_made",
    "C111_sections",
    "C111_included_refuted",
    "C111_nested_refuted",
    "C111_appendix_refuted"
   ],
   "note": "C111_contents, C111_made and C111_sections are proved. Refuted outside of what they assume: chapters of files that are included, and sections within sections (as in the user guide), are not listed (C111_included_refuted, C111_nested_refuted); sections in a file that is included into the appendix do not get the class of the appendix (C111_appendix_refuted)."
  },
  {
   "property": "C112",
   "status": "partial",
   "theorems": [
    "C112_text",
    "C112_body",
    "C112_copied",
    "C112_resources",
    "C112_section_refuted"
   ],
   "note": "C112_text, C112_body, C112_copied and C112_resources are proved. Refuted: text directly within a section is dropped (C112_section_refuted)."
  },
  {
   "property": "C113",
   "status": "partial",
   "theorems": [
    "C113_links",
    "C113_reference",
    "C113_titles_refuted",
    "C113_unnamed_refuted"
   ],
   "note": "C113_links and C113_reference are proved. Refuted: references to other files of the document, and to paragraphs, are without a text (C113_titles_refuted); the entry of a chapter without an identifier leads to the top of the page (C113_unnamed_refuted)."
  },
  {
   "property": "C114",
   "status": "partial",
   "theorems": [
    "C114_same_run",
    "C114_reason",
    "C114_silent",
    "C114_scan_lines",
    "C114_cycle_refuted",
    "C114_duplicate_refuted",
    "C114_flag_refuted"
   ],
   "note": "C114_same_run, C114_reason, C114_silent and C114_scan_lines are proved. Refuted: in case of a cyclic dependency no file is told (C114_cycle_refuted), if a target is declared twice only one of the files is (C114_duplicate_refuted), and an option which takes no value is not named (C114_flag_refuted). Not covered: the texts of exceptions thrown by recipes and during the scan, which are parameters."
  },
  {
   "property": "C115",
   "status": "partial",
   "theorems": [
    "C115_loaded",
    "C115_tree",
    "C115_counts",
    "C115_incomplete",
    "C115_text",
    "C115_tasks_refuted"
   ],
   "note": "C115_loaded, C115_tree, C115_counts, C115_incomplete and C115_text are proved. Refuted: tasks that belong to more than one of the targets given, or to one that is given twice, are counted repeatedly (C115_tasks_refuted)."
  },
  {
   "property": "C116",
   "status": "partial",
   "theorems": [
    "C116_page",
    "C116_hyphens",
    "C116_manual",
    "C116_output",
    "C116_config",
    "C116_parts",
    "C116_pandoc_refuted"
   ],
   "note": "C116_page, C116_hyphens, C116_manual, C116_output, C116_config and C116_parts are proved. Refuted: if pandoc fails, the script for the manual page succeeds nevertheless (C116_pandoc_refuted; for the parts of the documentation, C58_pandoc_refuted)."
  },
  {
   "property": "C117",
   "status": "partial",
   "theorems": [
    "C117_success",
    "C117_stops",
    "C117_recipe",
    "C117_arguments",
    "C117_bootstrap_refuted"
   ],
   "note": "C117_success, C117_stops, C117_recipe and C117_arguments are proved. Refuted: the bootstrap script does not stop at a command that fails, thus its success does not mean that the program has been built as intended (C117_bootstrap_refuted)."
  },
  {
   "property": "C118",
   "status": "partial",
   "theorems": [
    "C118_program",
    "C118_recipes",
    "C118_found",
    "C118_others",
    "C118_elsewhere",
    "C118_umask_refuted",
    "C118_version_refuted"
   ],
   "note": "C118_program, C118_recipes, C118_found, C118_others and C118_elsewhere are proved. Refuted: that others can run the program whatever the umask is (C118_umask_refuted), and that only recipes of the installed version are found (C118_version_refuted). Missing: what has been done when the script fails, and symbolic links."
  },
  {
   "property": "C119",
   "status": "partial",
   "theorems": [
    "C119_returned",
    "C119_threw",
    "C119_not_stuck",
    "C119_terminates",
    "C119_status",
    "C119_listing_refuted",
    "C119_late_refuted",
    "C119_reason_refuted"
   ],
   "note": "C119_returned, C119_threw, C119_not_stuck, C119_terminates and C119_status are proved. Refuted: that a list of targets printed with status 0 is complete (C119_listing_refuted), that a build with status 0 has seen all files, without the condition that the exceptions thrown have been caught in time (C119_late_refuted), and that the reason is told (C119_reason_refuted). Missing: strings thrown by tasks of the build itself, or in the main thread while recipes are configured; when main compiles, what the pool catches after the scan is a parameter."
  },
  {
   "property": "C120",
   "status": "partial",
   "theorems": [
    "C120_streams",
    "C120_report",
    "C120_alone",
    "C120_closed_refuted",
    "C120_threads_refuted",
    "C120_report_refuted"
   ],
   "note": "C120_streams, C120_report and C120_alone are proved. Refuted: that the streams are right whatever maike itself was started with (C120_closed_refuted), that a standard input suffices if there are other threads (C120_threads_refuted), and that the reason for a failure to launch a tool always gets into the right pipe (C120_report_refuted)."
  },
  {
   "property": "C121",
   "status": "proved",
   "theorems": [
    "C121_nothing_left",
    "C121_others",
    "C121_restored"
   ],
   "note": "close is assumed to close. Descriptors of other parts of the program are anything that other threads open and close. If the second thread for reading can not be created (execve.cpp:139), the program is terminated; this is not a state of the model."
  },
  {
   "property": "C122",
   "status": "partial",
   "theorems": [
    "C122_main",
    "C122_commands",
    "C122_stops",
    "C122_did_generate",
    "C122_did_release",
    "C122_did_install",
    "C122_did_out_of_tree",
    "C122_did_subpath",
    "C122_did_rel_path",
    "C122_did_tarball",
    "C122_new_version",
    "C122_release",
    "C122_log",
    "C122_version",
    "C122_commit_refuted",
    "C122_build_refuted",
    "C122_mktemp_refuted"
   ],
   "note": "C122_main, C122_commands, C122_stops, the theorems C122_did_..., C122_new_version, C122_release, C122_log and C122_version are proved. Refuted: that the new program tells the commit it was built from (C122_commit_refuted), that the build of the new version has succeeded (C122_build_refuted), and that there is a directory to install the program to (C122_mktemp_refuted). Missing: what the commands do, which are parameters. Removing directories at the end is C126."
  },
  {
   "property": "C123",
   "status": "partial",
   "theorems": [
    "C123_content",
    "C123_complete",
    "C123_script",
    "C123_version",
    "C123_same_version",
    "C123_succeeds",
    "C123_needs",
    "C123_git_refuted",
    "C123_keeps_refuted",
    "C123_job",
    "C123_builds_partial"
   ],
   "note": "C123_content, C123_complete, C123_script, C123_version, C123_same_version, C123_succeeds, C123_needs and C123_job are proved. C123_builds_partial, that the script in the archive does the build, is for names in one line and words that can be quoted, as C99. Refuted: that git has succeeded if make has (C123_git_refuted), and that the script is kept if make fails (C123_keeps_refuted). Missing: permissions, symbolic links, names that git puts into quotes, and what the build does to the working directory, which is a parameter."
  },
  {
   "property": "C124",
   "status": "partial",
   "theorems": [
    "C124_words",
    "C124_libs",
    "C124_libdirs",
    "C124_cflags_partial",
    "C124_cflags_text",
    "C124_fails",
    "C124_link_fails",
    "C124_link_partial",
    "C124_cflags_refuted",
    "C124_escaped_refuted",
    "C124_order_refuted"
   ],
   "note": "C124_words, C124_libs, C124_libdirs, C124_cflags_text, C124_fails and C124_link_fails are proved. C124_cflags_partial is for words with one blank between them, and C124_link_partial for packages whose words are not needed for earlier dependencies. Refuted: the same for other white space (C124_cflags_refuted), for words with blanks in them (C124_escaped_refuted), and for libraries shared by packages (C124_order_refuted). Missing: characters that are not ASCII."
  },
  {
   "property": "C125",
   "status": "partial",
   "theorems": [
    "C125_clean",
    "C125_restored",
    "C125_cache",
    "C125_json",
    "C125_mode",
    "C125_others",
    "C125_blocked",
    "C125_left",
    "C125_twice",
    "C125_sources_partial",
    "C125_names_refuted",
    "C125_mode_refuted",
    "C125_left_refuted"
   ],
   "note": "C125_clean, C125_restored, C125_cache, C125_json, C125_mode, C125_others, C125_blocked, C125_left and C125_twice are proved. C125_sources_partial is for names without white space. Refuted: the same for other names (C125_names_refuted), that the permissions of JSON files are kept (C125_mode_refuted), and that no file .fmt is overwritten or left behind (C125_left_refuted). Missing: links, names with characters that are special for the shell or for xargs, failures while a file is written, and clang-format."
  },
  {
   "property": "C126",
   "status": "partial",
   "theorems": [
    "C126_temporary",
    "C126_out_of_tree_partial",
    "C126_second_refuted",
    "C126_targets",
    "C126_subpath_partial",
    "C126_subpath_refuted",
    "C126_parent_refuted"
   ],
   "note": "C126_temporary and C126_targets are proved. C126_out_of_tree_partial leaves open the case that the second temporary directory can not be made, which is refuted (C126_second_refuted); C126_subpath_partial is for success only, otherwise refuted (C126_subpath_refuted). Refuted as well: that nothing is left in the parent directory (C126_parent_refuted). Missing: signals, symbolic links, and names with characters that are special to the shell."
  },
  {
   "property": "C127",
   "status": "partial",
   "theorems": [
    "C127_out_of_tree",
    "C127_rel_path",
    "C127_name_refuted"
   ],
   "note": "Refuted as stated (C127_name_refuted). Proved: two of the tests pass only in a directory called maike (C127_out_of_tree, C127_rel_path), if directories have absolute names without special characters. C127_rel_path supposes that the parent directory has no such program beforehand. Missing: that the test with --target-dir is independent of the name for all machines; there is an example only."
  }
 ]
}
