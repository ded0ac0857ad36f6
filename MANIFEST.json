{
 "claims": [
  {
   "property": "C01",
   "status": "proved",
   "theorems": [
    "C01_products_in_out_dir",
    "C01_link_products_in_out_dir",
    "C01_naming_total"
   ],
   "note": ""
  },
  {
   "property": "C02",
   "status": "partial",
   "theorems": [
    "C02_distinct_sources_partial",
    "C02_collision_shape_partial",
    "C02_short_paths_partial",
    "C02_distinct_sources_refuted"
   ],
   "note": "The full statement is false of the code: C02_distinct_sources_refuted exhibits two 83-byte paths with one object name. Proved: colliding paths agree up to swapping '/' and '_', and must differ in two places at least 12 bytes apart; so paths up to 12 bytes never collide."
  },
  {
   "property": "C03",
   "status": "proved",
   "theorems": [
    "C03_side_files_distinct",
    "C03_side_not_object",
    "C03_side_not_link_product",
    "C03_object_not_link_product"
   ],
   "note": ""
  },
  {
   "property": "C04",
   "status": "partial",
   "theorems": [
    "C04_link_name_order_independent",
    "C04_kinds_distinct",
    "C04_one_input_changed_partial",
    "C04_one_input_added_partial",
    "C04_different_inputs_refuted"
   ],
   "note": "Order independence proved in full. Distinctness is false of the code (XOR of hashes: C04_different_inputs_refuted); proved for changing, adding or removing a single input with a different (non-zero) hash, and between link and archive."
  },
  {
   "property": "C05",
   "status": "partial",
   "theorems": [
    "C05_same_object_refuted",
    "C05_same_link_refuted",
    "C05_first_rule_lost_refuted",
    "C05_products_distinct_partial"
   ],
   "note": "Full statement is false of the code: names of products do not depend on flags (three refutations, one showing a build that succeeds although one rule's object is lost). Proved: distinct sources and object/link products stay apart where C02 and C04 hold."
  },
  {
   "property": "C06",
   "status": "proved",
   "theorems": [
    "C06_requests_in_order"
   ],
   "note": ""
  },
  {
   "property": "C07",
   "status": "proved",
   "theorems": [
    "C07_failing_step_stops",
    "C07_success_means_all_succeeded"
   ],
   "note": ""
  },
  {
   "property": "C08",
   "status": "proved",
   "theorems": [
    "C08_no_job_twice",
    "C08_queue_order",
    "C08_exclusive"
   ],
   "note": ""
  },
  {
   "property": "C09",
   "status": "proved",
   "theorems": [
    "C09_success_means_all_ran",
    "C09_nothing_left_running"
   ],
   "note": ""
  },
  {
   "property": "C10",
   "status": "proved",
   "theorems": [
    "C10_failure_reported"
   ],
   "note": ""
  },
  {
   "property": "C11",
   "status": "proved",
   "theorems": [
    "C11_few_jobs_after_failure"
   ],
   "note": ""
  },
  {
   "property": "C12",
   "status": "proved",
   "theorems": [
    "C12_no_deadlock",
    "C12_terminates"
   ],
   "note": ""
  },
  {
   "property": "C13",
   "status": "proved",
   "theorems": [
    "C13_up_to_date_exact",
    "C13_work_exact",
    "C13_error_exact"
   ],
   "note": ""
  },
  {
   "property": "C14",
   "status": "partial",
   "theorems": [
    "C14_flag_change_noticed_partial",
    "C14_no_record_means_rebuild",
    "C14_flags_recorded_partial",
    "C14_check_touches_only_record",
    "C14_flag_change_refuted"
   ],
   "note": "Proved for flags without newline and NUL characters, with the recorded state written exactly. False for flags containing a newline (C14_flag_change_refuted): one flag 'a\\nb' is confused with the two flags 'a','b'."
  },
  {
   "property": "C15",
   "status": "partial",
   "theorems": [
    "C15_recorded_flags_partial",
    "C15_recorded_link_flags_partial",
    "C15_failed_build_refuted"
   ],
   "note": "Full statement is false of the code: flags are recorded before compiling, so a failed build makes the record wrong for good (C15_failed_build_refuted). Proved for every history in which failed or interrupted builds do not change flags of existing products."
  },
  {
   "property": "C16",
   "status": "partial",
   "theorems": [
    "C16_deps_extracted_partial",
    "C16_quoted_name_refuted"
   ],
   "note": "Proved for every layout (wrapping, indentation) of rules over names that make does not quote. False for names with blanks (C16_quoted_name_refuted): the quoted blank splits the name."
  },
  {
   "property": "C17",
   "status": "proved",
   "theorems": [
    "C17_deps_read_back",
    "C17_prerequisites_read_back"
   ],
   "note": ""
  },
  {
   "property": "C18",
   "status": "partial",
   "theorems": [
    "C18_noop_partial",
    "C18_future_source_refuted"
   ],
   "note": "Proved for every history and schedule; missing: sources with a modification time in the future, which are recompiled by every build (refuted)."
  },
  {
   "property": "C19",
   "status": "partial",
   "theorems": [
    "C19_modified_rebuilt_partial",
    "C19_relinked_partial",
    "C19_nothing_else_partial",
    "C19_same_second_refuted"
   ],
   "note": "Proved for every history and schedule when the build starts in a later second than the last link; within the same second it is false (refuted)."
  },
  {
   "property": "C20",
   "status": "proved",
   "theorems": [
    "C20_clean_build",
    "C20_any_schedule",
    "C20_some_result"
   ],
   "note": "Every schedule of the thread pool, any requests, any compiler and linker that meet the stated assumptions."
  },
  {
   "property": "C21",
   "status": "partial",
   "theorems": [
    "C21_incremental_is_clean_partial",
    "C21_incremental_succeeds_partial",
    "C21_products_current_partial",
    "C21_failed_build_refuted",
    "C21_deleted_header_refuted"
   ],
   "note": "Full statement is false of the code (failed builds that change flags; replaced older files with deleted headers; edits within the same second: refutations). Proved for every other history, with equality of all products to a clean build."
  },
  {
   "property": "C22",
   "status": "proved",
   "theorems": [
    "C22_unexaminable_fails"
   ],
   "note": "Every schedule; no command at all is run by the step."
  },
  {
   "property": "C23",
   "status": "partial",
   "theorems": [
    "C23_log_replayed",
    "C23_log_touches_only_log",
    "C23_shows_what_the_tool_prints_partial",
    "C23_skipped_source_shows_its_log",
    "C23_interrupted_build_refuted"
   ],
   "note": "Over all histories of edits and finished builds (successful or failed) every successful build shows exactly one text per requested product, the one its tool prints, and a skipped product shows what it showed before. Excluded: builds killed between a compile and the saving of its log; C23_interrupted_build_refuted exhibits the loss of a warning."
  },
  {
   "property": "C24",
   "status": "partial",
   "theorems": [
    "C24_output_collected_partial",
    "C24_nothing_lost",
    "C24_output_collected_refuted"
   ],
   "note": "Full statement is false of the code: the child is waited for before its output is read, so a child writing more than the pipe holds never ends, whatever the capacity (refuted for every capacity and output). Proved for outputs up to the capacity, every schedule."
  },
  {
   "property": "C25",
   "status": "partial",
   "theorems": [
    "C25_success_is_exit_zero_partial",
    "C25_tool_judged_by_its_end_partial",
    "C25_success_is_exit_zero_refuted"
   ],
   "note": "Proved whenever waiting reports the child's end, for every ending. False when waitpid itself fails (SIGCHLD ignored): every command counts as successful (refuted)."
  },
  {
   "property": "C26",
   "status": "partial",
   "theorems": [
    "C26_arguments_verbatim_partial",
    "C26_arguments_verbatim_refuted"
   ],
   "note": "Proved for the whole command line, both getopt behaviours, user words other than '--'. A '--' among the user's words is dropped (refuted)."
  },
  {
   "property": "C27",
   "status": "partial",
   "theorems": [
    "C27_first_along_path_partial",
    "C27_tools_first_along_path_partial",
    "C27_first_or_nowhere",
    "C27_first_along_path_refuted",
    "C27_empty_field_refuted"
   ],
   "note": "Proved for PATHs of non-empty directories; for programs run in place only if the working directory has no such file. Refuted: the working directory is preferred, empty fields mean the root directory."
  },
  {
   "property": "C28",
   "status": "partial",
   "theorems": [
    "C28_not_found_fails_partial",
    "C28_no_path_exits",
    "C28_not_found_refuted",
    "C28_not_started_refuted"
   ],
   "note": "Full statement is false of the code: a compiler or linker that is not found makes Bob read uninitialised memory; one that cannot be started too (refuted for all such cases). Proved: preprocessor and in-place programs not found fail cleanly; unset PATH exits with failure."
  },
  {
   "property": "C29",
   "status": "partial",
   "theorems": [
    "C29_copies_in_order_partial",
    "C29_missing_source_fails",
    "C29_copies_refuted"
   ],
   "note": "The copies made, and their order, are stated exactly for maps whose destinations are plain names under a link-free prefix, and the first missing source is shown to stop the installation. Refuted: a source in a directory (or file) next to the output directory whose name starts with the output directory's name is silently skipped."
  },
  {
   "property": "C30",
   "status": "partial",
   "theorems": [
    "C30_install_stays_in_prefix_partial",
    "C30_product_stays_in_prefix_partial",
    "C30_dotdot_refuted",
    "C30_link_refuted"
   ],
   "note": "Holds, also for installations that fail half-way, when destinations contain no '..' and no symbolic link lies between the prefix and a destination. Both exceptions are refuted by example."
  },
  {
   "property": "C31",
   "status": "partial",
   "theorems": [
    "C31_destinations_have_content_partial",
    "C31_newer_destination_refuted",
    "C31_link_refuted",
    "C31_directory_refuted"
   ],
   "note": "Holds for files and whole directory trees when an existing destination that is not older than the source already has its content, the source is not a link to a file, and no directory is in the way of a file. Each exception is refuted by example."
  },
  {
   "property": "C32",
   "status": "partial",
   "theorems": [
    "C32_build_installs_products_partial",
    "C32_build_with_install_cookie_partial",
    "C32_product_copied_partial",
    "C32_plain_build_installs_nothing",
    "C32_spelling_refuted"
   ],
   "note": "Copying one product is proved of install_cookie over a file system with directories and links (C32_product_copied_partial), and of whole builds, over the flat file system of the build model with an installer that does this, in every schedule: after a successful build every product the map names is at its destination, rebuilt or up to date (C32_build_installs_products_partial). A plain build installs nothing. Excluded: destinations changed by others since the last installation or in the second the build starts. Refuted: a product the map names by another spelling of its path is never installed although the installation succeeds. C32_build_with_install_cookie_partial joins the two: the installer of the build is install_cookie run on the tree the files make up; excluded there are destinations that are directories and an output directory under the prefix."
  },
  {
   "property": "C33",
   "status": "proved",
   "theorems": [
    "C33_run_only_after_success",
    "C33_private_programs_first"
   ],
   "note": "Every command line, environment and pattern of phase results (phases return 0 or -1)."
  },
  {
   "property": "C34",
   "status": "partial",
   "theorems": [
    "C34_unprivileged_changes_nothing",
    "C34_only_in_output_partial",
    "C34_output_handed_over",
    "C34_install_partial",
    "C34_output_directory_itself",
    "C34_namesake_refuted"
   ],
   "note": "Every owner change is shown to be of a place in the output directory or in a directory named like it with something appended; the second is a real exception (refuted by example). Owner changes by tools Bob runs are not modelled."
  },
  {
   "property": "C35",
   "status": "partial",
   "theorems": [
    "C35_job_count_accepted_partial",
    "C35_bad_job_count_starts_nothing_partial",
    "C35_accepted_count_is_workers",
    "C35_at_least_one_worker_partial",
    "C35_at_least_one_worker_refuted",
    "C35_huge_count_refuted"
   ],
   "note": "Proved for every number that fits an int, and every non-zero number of processors. Refuted: numbers outside int are undefined; zero reported processors give zero workers."
  },
  {
   "property": "C36",
   "status": "proved",
   "theorems": [
    "C36_command_line_reading",
    "C36_known_instruction",
    "C36_unknown_instruction",
    "C36_unprepared",
    "C36_not_understood",
    "C36_build_install_status"
   ],
   "note": "Every command line and pattern of phase results. For run and sh the end after successful phases is specified by 'afterwards' (SpecMain.v), including the abort of 'bob sh -- --'."
  },
  {
   "property": "C37",
   "status": "partial",
   "theorems": [
    "C37_equality_decides_sameness_partial",
    "C37_sameness_is_an_equivalence",
    "C37_equality_is_no_equivalence_refuted"
   ],
   "note": "False as stated: adding maps keeps both entries of a shared key, and such a map is not equal to itself, nor is == symmetric on such maps (C37_equality_is_no_equivalence_refuted). Proved for all values whose maps have distinct keys, of any nesting: == says whether they are the same and != whether they are not, and sameness is an equivalence. Functions and instances can only be compared to none. Undefined behaviour when the operands are released is left open (C50)."
  },
  {
   "property": "C38",
   "status": "proved",
   "theorems": [
    "C38_literal_makes_its_entries",
    "C38_equal_keys_are_refused",
    "C38_lookup"
   ],
   "note": "A literal whose keys differ makes the map of its entries; the first key that is the same as one before it is refused; lookup in a map with distinct keys gives the value for the key or none. 'Same' is the independent relation of SpecFlamingo, so maps and vectors as keys are covered. Values in the map must not have been released (C50)."
  },
  {
   "property": "C39",
   "status": "partial",
   "theorems": [
    "C39_index_partial",
    "C39_discarded_index_is_not_checked_refuted"
   ],
   "note": "Proved for every vector and every 64-bit index but the least, when the value is used. False in two cases, both refuted: indexing with INT64_MIN negates it, which is undefined, and a discarded index expression is not checked at all."
  },
  {
   "property": "C40",
   "status": "partial",
   "theorems": [
    "C40_arithmetic_partial",
    "C40_unary",
    "C40_power_refuted"
   ],
   "note": "Exact for all operators on all pairs of 64-bit integers but **, which goes through pow(3): refuted for 3 ** 39 and any pow that returns doubles. Overflow is undefined behaviour and shown as such, including the remainder of INT64_MIN by -1."
  },
  {
   "property": "C41",
   "status": "proved",
   "theorems": [
    "C41_literal"
   ],
   "note": "Every non-empty digit string with underscores, by an inductive definition of what it denotes; numbers that do not fit overflow (undefined)."
  },
  {
   "property": "C42",
   "status": "partial",
   "theorems": [
    "C42_ordinary_operators",
    "C42_operators_partial",
    "C42_scalar_operators"
   ],
   "note": "C42_ordinary_operators leaves no outcome open: for every two values that are neither functions nor instances, a value, an error message or an overflow, under the stated conditions on releasing the operands (strings do not share bytes; names of copied elements can still be read). C42_operators_partial covers functions and instances too, memory errors aside."
  },
  {
   "property": "C43",
   "status": "partial",
   "theorems": [
    "C43_concatenation",
    "C43_concatenation_partial",
    "C43_members",
    "C43_engine_provides"
   ],
   "note": "C43_concatenation leaves no outcome open for strings and vectors, under the stated conditions on releasing the operands; C43_members for len, startswith, endswith. The partial theorem drops these conditions and leaves memory errors open."
  },
  {
   "property": "C44",
   "status": "partial",
   "theorems": [
    "C44_map",
    "C44_map_succeeds",
    "C44_where",
    "C44_where_needs_booleans_partial"
   ],
   "note": "Both directions for map, success of where, and the error of where for every result that is not a boolean, strings and functions included. Left out: results that are instances, whose state the host lets go of before the error is reported, and results whose memory is already gone."
  },
  {
   "property": "C45",
   "status": "partial",
   "theorems": [
    "C45_identifiers_denote_their_innermost_declaration",
    "C45_unknown_names_are_reported",
    "C45_declaring_twice_is_an_error",
    "C45_let_declares_partial",
    "C45_functions_are_declared",
    "C45_initial_value_refuted"
   ],
   "note": "Proved for all states: identifiers denote the innermost declaration, unknown names and redeclarations are reported, let and function declarations add one variable to the innermost scope, which the name then denotes, and leave the other scopes as evaluating the initial value left them. False of the code: in the initial value of a variable its name denotes the new variable, which has no value yet, so shadowing a variable with an expression of it dereferences NULL (C45_initial_value_refuted)."
  },
  {
   "property": "C46",
   "status": "partial",
   "theorems": [
    "C46_elements_keep_their_type_partial",
    "C46_functions_cannot_be_assigned_partial",
    "C46_variables_change_type_refuted"
   ],
   "note": "False of variables: assigning a value of another type is accepted (C46_variables_change_type_refuted). Proved: assigning a value of another type to an element is reported (with the element already changed), and variables that are functions or classes cannot be assigned at all."
  },
  {
   "property": "C47",
   "status": "partial",
   "theorems": [
    "C47_assignment_changes_the_variable_partial",
    "C47_assignment_changes_the_element_partial",
    "C47_unknown_names_are_reported",
    "C47_elements_are_shared_refuted"
   ],
   "note": "False of elements: an element may be the value of a variable, which changes with it, and assigning to an absent key of a map does nothing (C47_elements_are_shared_refuted). Proved: assigning to a variable changes this slot of this scope only and no value; assigning to an element changes exactly one value, to what was assigned."
  },
  {
   "property": "C48",
   "status": "proved",
   "theorems": [
    "C48_expressions_are_balanced",
    "C48_calls_are_balanced",
    "C48_blocks_are_balanced",
    "C48_statements_are_balanced",
    "C48_scripts_end_in_the_outermost_scope"
   ],
   "note": "For every expression, call, block, statement and script that completes: the same scopes are open, in every environment, and only the innermost scope may have got names from a statement. Assumes that the callbacks of the program around leave scopes alone (tame)."
  },
  {
   "property": "C49",
   "status": "partial",
   "theorems": [
    "C49_return_takes_the_value_partial",
    "C49_return_ends_the_block_partial",
    "C49_return_ends_the_call_partial",
    "C49_no_return_gives_none",
    "C49_returning_a_call_refuted",
    "C49_statements_after_return_refuted"
   ],
   "note": "False for calls and for declarations after the return: C49_returning_a_call_refuted, C49_statements_after_return_refuted. Proved for every return expression that is not itself a call and for every body in which no functions or classes are declared after the return, including returns nested in blocks; and that functions without a return give none."
  },
  {
   "property": "C50",
   "status": "partial",
   "theorems": [
    "C50_use_after_free_refuted",
    "C50_no_use_after_free_partial"
   ],
   "note": "False as stated: a string is read after it was freed when a lambda given to map assigns to its parameter, when a function called on the right of an assignment assigns to the same variable, or when an element shared with a variable is assigned to; a method kept beyond its instance looks names up in a freed scope (C50_use_after_free_refuted and the examples beside it). Proved, for scripts and imported files of any size in which functions, lambdas and classes assign to nothing and import nothing, and in which no element of a vector or map is assigned to: no freed string or function is used and nothing is freed twice. bob.fl and bob's own build script are such scripts. Missing: freed scopes of instances (UFreedScope)."
  },
  {
   "property": "C51",
   "status": "proved",
   "theorems": [
    "C51_operands_in_order",
    "C51_failures_in_order"
   ],
   "note": "For every operator and every use of the value. Success means left, then right, then nothing that prints or changes scopes or variables; failures are attributed in the same order."
  },
  {
   "property": "C52",
   "status": "partial",
   "theorems": [
    "C52_only_operations_of_the_owner_succeed_partial",
    "C52_instances_have_their_flags_partial",
    "C52_operations_are_performed_partial",
    "C52_list_gives_the_listing_partial",
    "C52_other_functions_are_reported_partial",
    "C52_functions_of_no_class_refuted",
    "C52_functions_given_to_variables_refuted",
    "C52_functions_passed_as_arguments_refuted",
    "C52_classes_passed_as_arguments_refuted",
    "C52_classes_of_the_same_name_refuted"
   ],
   "note": "False in full (refuted with witnesses): functions in no class, functions given to a variable or passed as arguments, classes passed as arguments, another class of the same name. Proved: a call that succeeds performs an operation of the instance the function was declared in (or Fs.list) and asks for nothing else; calls of functions that kept their name perform the operation on that instance, for every argument; instances get the flags they were made with; functions of other classes are reported."
  },
  {
   "property": "C53",
   "status": "partial",
   "theorems": [
    "C53_one_object_per_source_partial",
    "C53_nameable",
    "C53_nul_free_nameable",
    "C53_nul_sources_refuted",
    "C53_sources_must_be_strings_partial",
    "C53_flags_must_be_strings"
   ],
   "note": "One object per source, in order, for all vectors of sources whose object Bob can name, which are exactly those with little enough after their first NUL byte (C53_nameable), so all without NUL bytes. False of the others: making up the name reads and writes beyond what was allocated (C53_nul_sources_refuted). A source or flag that is no string fails with its index, and nothing is asked for."
  },
  {
   "property": "C54",
   "status": "partial",
   "theorems": [
    "C54_build_scripts_explain_failures_partial",
    "C54_listing_no_string_is_fatal_refuted",
    "C54_failures_have_messages_partial",
    "C54_failures_have_messages_from_any_state_partial",
    "C54_messages_that_fit_are_reported_partial",
    "C54_unknown_identifiers_are_reported_partial",
    "C54_long_identifiers_are_fatal_refuted",
    "C54_errors_can_be_fatal_refuted"
   ],
   "note": "False in full (refuted with witnesses): a message that does not fit into 256 bytes with the program name is a failed assertion, nested imports lengthen messages, and Fs.list of something that is no string is a failed assertion. Proved: every failing run, with Bob's own functions too, has an error message or a logged one; messages that fit are reported exactly; the exact boundary."
  },
  {
   "property": "C55",
   "status": "partial",
   "theorems": [
    "C55_the_first_directory_wins_partial",
    "C55_otherwise_the_current_directory_partial",
    "C55_a_leading_dot_skips_the_import_path_partial",
    "C55_not_relative_to_the_importing_file_refuted"
   ],
   "note": "False in full (refuted with witnesses): a leading dot is relative to the current directory, and imported files have no import path. Proved: the first import-path directory with the file wins, else the path itself, and what importing a file does."
  },
  {
   "property": "C56",
   "status": "proved",
   "theorems": [
    "C56_script_asks_for_what_it_says",
    "C56_clean_build",
    "C56_some_result",
    "C56_any_schedule",
    "C56_second_build_runs_nothing",
    "C56_rebuild_is_clean_build",
    "C56_install_map",
    "C56_runs"
   ],
   "note": "For the class of scripts of SpecProject (all scripts in the repository are of it). Assumes C20's conditions on names and tools for the products. C56_second_build_runs_nothing and C56_rebuild_is_clean_build carry C18 and C21 over, with their conditions."
  },
  {
   "property": "C57",
   "status": "partial",
   "theorems": [
    "C57_settled_refuted",
    "C57_settled_partial"
   ],
   "note": "False of all scripts: assigning to an element of the source, flag or object vector after the call changes the step (C57_settled_refuted, and examples for each of the three). Proved for every script (and imported files) without an assignment to an element, between any two points at the top level of the script."
  },
  {
   "property": "C58",
   "status": "partial",
   "theorems": [
    "C58_outside_alone_refuted",
    "C58_outside_alone_partial"
   ],
   "note": "False of all scripts: after let obj = Cc([\"-O0\"]).compile([\"a.c\"]), obj[0] = \"a.c\" has the object put over the source (C58_outside_alone_refuted). Proved for scripts and imported files without an assignment to an element, for every schedule and every moment of the build, of files that installation leaves alone. The tools are taken to write nothing but what they are told to make."
  },
  {
   "property": "C59",
   "status": "partial",
   "theorems": [
    "C59_still_there_refuted",
    "C59_still_there_partial"
   ],
   "note": "False: a link whose result is discarded has the name of its program freed before the build begins (C59_still_there_refuted, a script of two statements without assignments). Proved for scripts and imported files whose functions, lambdas and classes assign to nothing and import nothing and that assign to no element, if the result of each link() and archive() is, in the end, in a variable, a vector or a map; results of compile() needn't be kept. Missing: scripts with assignments in functions or to elements."
  },
  {
   "property": "C60",
   "status": "partial",
   "theorems": [
    "C60_list_gives_what_is_there_partial",
    "C60_missing_directory_is_an_error_refuted"
   ],
   "note": "The last part is false: listing a directory that isn't there is only logged and gives the script an empty vector (C60_missing_directory_is_an_error_refuted). The rest is proved of a call of Fs.list in any script over every file system with finitely many directories: what the vector has is exactly the path, what its directories have, and so on, each once, directories first, with or without cycles of links, and errors are logged for exactly what is left out. fts(3) is modelled as documented, over the file system with links of Vfs.v."
  },
  {
   "property": "C61",
   "status": "partial",
   "theorems": [
    "C61_only_functions_are_called",
    "C61_arguments_are_evaluated_in_order",
    "C61_wrong_number_of_arguments_is_reported",
    "C61_calls_come_to_their_expression",
    "C61_calls_run_their_block",
    "C61_parameters_are_the_arguments",
    "C61_functions_see_their_surroundings_partial",
    "C61_lambdas_see_their_surroundings_partial",
    "C61_recursive_calls_see_only_their_surroundings_refuted"
   ],
   "note": "False for recursion: calls push their scopes on the environment of the function itself, so a call of a function from itself sees the variables of the outer call (C61_recursive_calls_see_only_their_surroundings_refuted). Proved for all states: order of evaluation, errors for what is not callable and for wrong numbers of arguments with nothing of the body done, that a call comes to what its body comes to in a scope with the parameters (functions with a block or an expression, on instances or not; class and external calls are C52), and that at every later moment not inside the function itself other names denote what the scopes open at the declaration say."
  },
  {
   "property": "C62",
   "status": "partial",
   "theorems": [
    "C62_print_writes_the_value_partial",
    "C62_nothing_is_printed_otherwise",
    "C62_functions_are_printed_by_name",
    "C62_functions_without_a_name",
    "C62_instances_are_printed_by_class",
    "C62_different_values_are_written_differently",
    "C62_different_values_are_printed_differently_refuted",
    "C62_printing_ends_refuted"
   ],
   "note": "Two parts are false: a string is printed without quotes and quotes in strings are not escaped, so different values can look alike (C62_different_values_are_printed_differently_refuted), and a vector made an element of itself is never done being printed (C62_printing_ends_refuted). Proved of every state and every value of any depth without functions or instances in it: exactly one line, as specified, and nothing else changed; functions, classes and instances by name; and written differently if no string has a double quote."
  },
  {
   "property": "C63",
   "status": "proved",
   "theorems": [
    "C63_true_assertions_do_nothing",
    "C63_execution_goes_on_only_if_true",
    "C63_false_assertions_are_reported",
    "C63_only_booleans_are_asserted",
    "C63_errors_in_tests_are_reported",
    "C63_nothing_is_done_after_a_failure"
   ],
   "note": "For every test and state; the text shown is that of the test (without NUL bytes)."
  },
  {
   "property": "C64",
   "status": "partial",
   "theorems": [
    "C64_names_left",
    "C64_accepted_files_partial",
    "C64_refused_files_partial",
    "C64_acceptance_partial",
    "C64_importing_bob_is_enough",
    "C64_imports_decide_refuted",
    "C64_no_run_vector",
    "C64_run_disabled",
    "C64_run_no_vector",
    "C64_run_no_strings",
    "C64_run_strings",
    "C64_no_install_map",
    "C64_install_nothing",
    "C64_install_no_map",
    "C64_install_no_strings",
    "C64_install_strings"
   ],
   "note": "The first sentence is false: what is checked is a name, so a build file that imports bob in a block is refused and one that declares the name itself is accepted (C64_imports_decide_refuted). Proved for all scripts: the names left at the outermost level are exactly those of its own declarations and of the files it imports, in order; those that leave the name, and only they, are accepted; importing bob outside of blocks leaves it; refusals tell the user why. The part about run and install is proved for every final value."
  },
  {
   "property": "C65",
   "status": "partial",
   "theorems": [
    "C65_member_of_instance",
    "C65_member_of_class",
    "C65_no_member",
    "C65_static_through_instance",
    "C65_no_static_member",
    "C65_no_members_at_all",
    "C65_assigning_changes_one_member",
    "C65_assigning_changes_one_static_member",
    "C65_assigning_static_through_instance",
    "C65_assigning_no_member",
    "C65_declaring_a_class",
    "C65_calling_a_class_partial",
    "C65_members_are_what_the_body_declares",
    "C65_methods_see_static_members_refuted",
    "C65_static_members_are_initialised_once_refuted"
   ],
   "note": "The part about static members is false: the body of a class, static declarations included, is also run for every instance, so they are initialised again each time and methods see the copy of their instance, not what the class has (C65_static_members_are_initialised_once_refuted, C65_methods_see_static_members_refuted). The rest is proved of every state: reading and assigning members of instances and classes with all the errors, what a class declaration makes, and what a call of a class makes, which supposes that the class is not itself overwritten while its body runs."
  },
  {
   "property": "C66",
   "status": "partial",
   "theorems": [
    "C66_tokens_are_pieces_of_the_text_partial",
    "C66_words_are_whole_partial",
    "C66_words_are_found_partial",
    "C66_keywords_are_whole_refuted",
    "C66_comments_end_with_their_line_refuted"
   ],
   "note": "Every token in every state and text: looking ends, tokens and blanks are pieces of the text, spelled by SpecLex; what may come next is found whole. False of the code in two ways, refuted with witnesses: after an expression or a qualifier keywords are cut off the front of longer words ('static letter = 1' declares 'ter'), and a '#' that ends its line makes a comment of the next line. Missing: comments and '##' comments are not covered by 'found'."
  },
  {
   "property": "C67",
   "status": "proved",
   "theorems": [
    "C67_the_tree_is_the_text"
   ],
   "note": "Invariant of the parser's stack over its tables (neighbouring states, spelled tokens, nodes by the rules, text so far); the shipped scripts are shown to be read as the trees that C52-C65 speak about. The text of error trees is not covered: a text with a syntax error has no tree in the model."
  },
  {
   "property": "C68",
   "status": "proved",
   "theorems": [
    "C68_reading_ends",
    "C68_reading_never_branches"
   ],
   "note": "A weight of the stack and the rest of the text shrinks with every turn, so 40 turns per byte are enough; checked over the tables for all states. Error recovery is not modelled: a syntax error is where the tables have no action."
  },
  {
   "property": "C69",
   "status": "proved",
   "theorems": [
    "C69_scripts_are_read_as_written",
    "C69_a_text_is_one_script"
   ],
   "note": "SpecSyntax gives the language's tokens, layout and grammar without the parser; every text of a script in it is read as that script, by running the parser's tables along the derivation. What is no script by SpecSyntax is not covered ('##' comments, comments elsewhere than between statements and in vectors and maps, slices, functions named by operators, error literals, and texts that run words together as C66 refutes)."
  },
  {
   "property": "C70",
   "status": "proved",
   "theorems": [
    "C70_layout_does_not_matter",
    "C70_file_builds_what_it_says",
    "C70_clean_build",
    "C70_second_build_runs_nothing",
    "C70_rebuild_is_clean_build",
    "C70_recipes_can_be_written"
   ],
   "note": "Joins the reader (C69) with the interpreter and the build (C56): texts, not trees, are quantified over. Recipes whose operators are grouped as without parentheses are shown to have texts. The last two theorems carry the conditions of C18 and C21. Build files that are no script by SpecSyntax are not covered."
  },
  {
   "property": "C71",
   "status": "proved",
   "theorems": [
    "C71_does_what_the_build_file_says",
    "C71_runs_what_is_installed",
    "C71_products_are_made",
    "C71_products_are_installed",
    "C71_other_files_are_installed",
    "C71_changes_nothing_else",
    "C71_a_failing_build_file_stops",
    "C71_an_empty_build_file_stops",
    "C71_no_build_file"
   ],
   "note": "Build files that fail after a recipe, are empty or missing stop the command. Otherwise composes C33/C36 (command line and phases), C70 (build file to requests), C20, C30-C32 and C58; the theorems on files carry the conditions of those. The build file must be of the declarative form and sound, the project, the output directory and the prefix must be there: other cases are C26, C33, C36 and C56. What happens between the phases (files changed by others) is left open: the tree when the installation begins is any."
  },
  {
   "property": "C72",
   "status": "partial",
   "theorems": [
    "C72_outputs_are_kept_apart",
    "C72_every_output_is_read",
    "C72_few_descriptors",
    "C72_all_closed",
    "C72_one_logs_at_a_time",
    "C72_nobody_waits_for_ever_partial",
    "C72_nobody_waits_for_ever_refuted"
   ],
   "note": "Invariant over threads, children, descriptors and pipes, for nested uses of cmd_t as in the code. Separate outputs and few descriptors hold without conditions. Refuted as to waiting: a program that leaves something running in the background may leave it with the pipe of another thread's program, whose reader then never sees the end (descriptors are not O_CLOEXEC). Proved for programs that leave nothing running and whose output fits into a pipe (otherwise C24)."
  },
  {
   "property": "C73",
   "status": "proved",
   "theorems": [
    "C73_characters_are_read",
    "C73_only_characters_are_read",
    "C73_ill_formed_bytes",
    "C73_characters_or_bytes",
    "C73_strings_and_comments",
    "C73_mark_ignored",
    "C73_foreign_start"
   ],
   "note": "The lexer with its decoder, and the parser on top of it, equal the ones on bytes that all other properties of scripts are about. The decoder is compared with RFC 3629 in both directions."
  },
  {
   "property": "C74",
   "status": "partial",
   "theorems": [
    "C74_everything_is_shown",
    "C74_errors_are_shown_at_once",
    "C74_shown_before_the_program_partial",
    "C74_shown_before_the_program_refuted",
    "C74_outputs_follow_their_headings_partial",
    "C74_outputs_follow_their_headings_refuted",
    "C74_colours",
    "C74_plain_lines_partial",
    "C74_plain_lines_refuted"
   ],
   "note": "False in three ways, refuted with witnesses: messages still in the buffer of standard output are lost when Bob becomes another program and standard output is no terminal (execv without fflush); sources of different compile() calls have different logging locks, so that headings and outputs can be mixed; messages contain resets even without colours. Proved: everything is shown when Bob exits, errors always, everything on terminals; outputs follow their headings for one compile() call without installing; when colours are used. The streams of the C library are modelled by what it guarantees, buffers being emptied at any time. Outputs that end within a line are left out of the terminal theorem."
  },
  {
   "property": "C75",
   "status": "partial",
   "theorems": [
    "C75_debugging_build_is_right",
    "C75_what_is_made_again",
    "C75_changes_of_sources_are_noticed",
    "C75_products_right_partial",
    "C75_like_a_clean_build_partial",
    "C75_headers_forgotten_refuted",
    "C75_warnings_forgotten_refuted"
   ],
   "note": "False in two ways, refuted with witnesses: after a debugging build the record of the headers is empty, so a later ordinary build misses a change of a header and leaves the old object (C75_headers_forgotten_refuted); and what the compiler said is recorded as nothing, so later builds do not show it (C75_warnings_forgotten_refuted). Proved: a debugging build after ordinary history is exactly right; after any mixture what is not fresh is made once and nothing else is; changes of sources and flags are noticed; links are right; objects are right but for the exception refuted."
  },
  {
   "property": "C76",
   "status": "partial",
   "theorems": [
    "C76_each_success_is_right_partial",
    "C76_like_a_clean_build_partial",
    "C76_taking_turns",
    "C76_turns_cut_short",
    "C76_later_build_is_right_partial",
    "C76_later_build_like_a_clean_one_partial",
    "C76_changed_flags_refuted",
    "C76_unfinished_output_refuted"
   ],
   "note": "False in two ways, refuted with witnesses: a process that finds the flags changed records the new flags before it compiles, and another process then takes the old objects for right ones, compiles nothing and succeeds (C76_changed_flags_refuted); and a process can link an object that the compiler of another one has just opened, which within one second nobody notices (C76_unfinished_output_refuted). Proved: in all other cases, that is if products are there with the asked flags or not at all and a tool's output appears at once, each process that succeeded has right products, like those of a clean build, in every state reached then and later; and after any history with such episodes, cut short anywhere, a single build is right and like a clean one. The model of several processes leaves out nothing a single one can do: any build of C20-C22, whole or interrupted, is one of its courses (C76_taking_turns, C76_turns_cut_short). All processes have the same environment; a request does not differ between processes for one product."
  },
  {
   "property": "C77",
   "status": "partial",
   "theorems": [
    "C77_new_compiler_refuted",
    "C77_new_header_refuted",
    "C77_new_library_refuted",
    "C77_outside_unchanged_partial",
    "C77_same_machine_partial",
    "C77_outside_kept"
   ],
   "note": "False as to changes, refuted with witnesses: another compiler, a header that now takes precedence over a recorded one, and another library all go unnoticed by a build that succeeds. Proved: as long as nothing outside has changed, the guarantees of C18 and C21 hold with tools that do look outside (weaker than the honest tools of those properties: the example's tools are not honest), and builds change nothing outside."
  },
  {
   "property": "C78",
   "status": "partial",
   "theorems": [
    "C78_same_installation",
    "C78_failure_is_told_partial",
    "C78_words",
    "C78_success_is_told",
    "C78_said_is_done",
    "C78_installation_is_told_partial",
    "C78_undefined"
   ],
   "note": "Proved: a failing entry ends with exactly one fatal message, which names the source or place and the reason (C78_failure_is_told_partial, C78_installation_is_told_partial); successes are told once for each entry, in order (C78_success_is_told); what cp says is shown whole if it ends its line (C78_words); the messages belong to the installation of C29-C32 (C78_same_installation); the only undefined cases (C78_undefined). False of the code, with witnesses: a missing source named by a literal makes Bob print beyond the literal; without cp the outcome is undefined; what rm says is lost and '(null)' shown; the last character is lost when cp does not end its line. What is said of an entry is what was done, for installing and for what builds install (C78_said_is_done)."
  },
  {
   "property": "C79",
   "status": "partial",
   "theorems": [
    "C79_again_partial",
    "C79_at_work_partial",
    "C79_killed_copy_refuted",
    "C79_killed_removal_refuted",
    "C79_failed_copy_refuted"
   ],
   "note": "Proved for every point at which the first installation ends but the middle of rm or cp (C79_again_partial), and there too if the one destination being worked at is left older than its source or complete (C79_at_work_partial); under the conditions of C31, and if no links are left under the destinations. False otherwise, with witnesses: a half-written file (C79_killed_copy_refuted, and C79_failed_copy_refuted for a full disk) and a half-removed directory (C79_killed_removal_refuted) are newer than their sources, so the next installation takes them for installed."
  },
  {
   "property": "C80",
   "status": "partial",
   "theorems": [
    "C80_second_changes_nothing_partial",
    "C80_says_so_partial",
    "C80_future_source_refuted"
   ],
   "note": "Proved for all sources not dated later than the first installation, under the conditions of C31 and if no links are left under the destinations: the second installation succeeds with nothing changed, whatever may still be written (C80_second_changes_nothing_partial), runs no program and says so (C80_says_so_partial). A source dated in the future is copied every time (C80_future_source_refuted)."
  },
  {
   "property": "C81",
   "status": "partial",
   "theorems": [
    "C81_order_partial",
    "C81_same_destination_refuted"
   ],
   "note": "Proved under the conditions of C31, which keep the destinations out of one another's trees (C81_order_partial). Two sources with one destination: the first installed wins, with a witness (C81_same_destination_refuted). Not shown: that success in one order entails success in the other."
  }
 ]
}