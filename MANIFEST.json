{
 "claims": [
  {
   "property": "C01",
   "status": "proved",
   "theorems": [
    "C01_at_most_once"
   ],
   "note": ""
  },
  {
   "property": "C02",
   "status": "proved",
   "theorems": [
    "C02_requests_agree",
    "C02_same_target_same_error"
   ],
   "note": "proved at the level of requests per address and of calls Run(ctx,o)"
  },
  {
   "property": "C03",
   "status": "proved",
   "theorems": [
    "C03_return_after_completion",
    "C03_nil_iff_all_nil",
    "C03_unresolved_only_if_unregistered"
   ],
   "note": ""
  },
  {
   "property": "C04",
   "status": "proved",
   "theorems": [
    "C04_no_deadlock",
    "C04_no_deadlock_acyclic",
    "C04_every_execution_ends",
    "C04_run_returns",
    "C04_run_returns_acyclic",
    "C04_fair_run_returns"
   ],
   "note": "No deadlock, no infinite execution and inevitable return of every call for well-founded (in particular acyclic, finitely many) dependencies and finite bodies, under every schedule; and return of every call under weak fairness when clients keep calling forever."
  },
  {
   "property": "C05",
   "status": "partial",
   "theorems": [
    "C05_cycle_never_returns_refuted",
    "C05_calls_not_reaching_a_cycle_return_partial"
   ],
   "note": "REFUTED: a cyclic dependency makes every call that requests it hang forever (no schedule returns). Proved part: under every fair schedule a call that can reach no cycle and no infinite body returns, whatever else hangs."
  },
  {
   "property": "C06",
   "status": "partial",
   "theorems": [
    "C06_named_diamond_runs_once_refuted",
    "C06_once_per_reference_partial"
   ],
   "note": "REFUTED: the ran map is keyed by the address of the deferred reference (runner.go:66,74-93), so two name references to X run X's body twice in one top-level Run. Proved part: a target runs at most once per value (itself or name reference) through which it is requested."
  },
  {
   "property": "C07",
   "status": "proved",
   "theorems": [
    "C07_seq_order",
    "C07_seq_result",
    "C07_nothing_after_end"
   ],
   "note": ""
  },
  {
   "property": "C08",
   "status": "proved",
   "theorems": [
    "C08_deps_order",
    "C08_deps_result"
   ],
   "note": ""
  },
  {
   "property": "C09",
   "status": "proved",
   "theorems": [
    "C09_all_attempts_everything",
    "C09_all_in_parallel"
   ],
   "note": ""
  },
  {
   "property": "C10",
   "status": "proved",
   "theorems": [
    "C10_call_result",
    "C10_target_result",
    "C10_evaluation_unique",
    "C10_evaluation_total",
    "C10_schedules_agree",
    "C10_targets_agree",
    "C10_context_dependent_refuted"
   ],
   "note": "Deterministic bodies: the context makes no difference to them (insensitive) and the environment answers as a function. Registrations come before calls. Addresses injective. C10_context_dependent_refuted shows that with context-dependent bodies (ArgTarget) the result does depend on the schedule."
  },
  {
   "property": "C11",
   "status": "proved",
   "theorems": [
    "C11_depth_counts_open_calls",
    "C11_no_clamp"
   ],
   "note": ""
  },
  {
   "property": "C12",
   "status": "partial",
   "theorems": [
    "C12_arg_target_call",
    "C12_arg_target_args_partial",
    "C12_args_refuted"
   ],
   "note": "REFUTED in general (an earlier request of the target fixes its context); proved when only that ArgTarget requests the target."
  },
  {
   "property": "C13",
   "status": "proved",
   "theorems": [
    "C13_wait_returns_only_when_open",
    "C13_no_lost_wakeup",
    "C13_executions_finite",
    "C13_mutual_exclusion"
   ],
   "note": ""
  },
  {
   "property": "C14",
   "status": "proved",
   "theorems": [
    "C14_skip_only_in_recorded_state"
   ],
   "note": "Stated over histories of any number of interleaved runs, edits, evictions and crashes; hash injectivity is a premise."
  },
  {
   "property": "C15",
   "status": "proved",
   "theorems": [
    "C15_changed_state_rebuilds",
    "C15_one_changed_file_rebuilds"
   ],
   "note": "Contrapositive forms for the whole state and for one file."
  },
  {
   "property": "C16",
   "status": "proved",
   "theorems": [
    "C16_up_to_date_not_rebuilt",
    "C16_same_rule_not_rebuilt",
    "C16_skip_completes",
    "C16_never_stuck"
   ],
   "note": "Holds whenever the description looked up equals the one recorded; C17 is the case where it does not."
  },
  {
   "property": "C17",
   "status": "partial",
   "theorems": [
    "C17_named_subtarget_never_skipped_refuted",
    "C17_resolved_reference_skipped_partial"
   ],
   "note": "REFUTED: a rule whose subtarget is an unresolved name reference is never skipped, whatever the history. Proved part: if the reference was already resolved when the files are hashed, the recorded state is recognised."
  },
  {
   "property": "C18",
   "status": "partial",
   "theorems": [
    "C18_changed_seq_is_skipped_refuted",
    "C18_changed_rule_rebuilds_partial",
    "C18_descriptions_differ_partial"
   ],
   "note": "REFUTED: Seq, Deps and F are described as {}; proved for targets whose encoding shows all fields."
  },
  {
   "property": "C19",
   "status": "proved",
   "theorems": [
    "C19_recorded_only_after_success",
    "C19_failed_subtarget_records_nothing",
    "C19_failed_prerequisite_stops",
    "C19_dry_run_ignores_database",
    "C19_force_always_runs_and_records",
    "C19_no_database_always_runs",
    "C19_success_is_recorded"
   ],
   "note": ""
  },
  {
   "property": "C20",
   "status": "partial",
   "theorems": [
    "C20_edit_during_run_is_missed_refuted",
    "C20_no_edit_during_run_partial"
   ],
   "note": "REFUTED: the recorded hash is taken after the run, so an input edited during the run is recorded with the stale output. Proved part: if no input changes while subtargets run, a skip happens only with the inputs some successful subtarget started with."
  },
  {
   "property": "C21",
   "status": "proved",
   "theorems": [
    "C21_exactly_the_covered_files",
    "C21_terminates",
    "C21_succeeds_iff_readable",
    "C21_order_and_duplicates_irrelevant",
    "C21_overlaps_irrelevant"
   ],
   "note": ""
  },
  {
   "property": "C22",
   "status": "partial",
   "theorems": [
    "C22_stat_error_panics_refuted",
    "C22_no_panic_without_stat_errors_partial",
    "C22_errors_are_about_unreadable_files_partial"
   ],
   "note": "REFUTED: os.Stat errors other than ErrNotExist make fileHashes dereference nil; proved absent such errors."
  },
  {
   "property": "C23",
   "status": "proved",
   "theorems": [
    "C23_prerequisites_succeed_first",
    "C23_first_call_is_prerequisites",
    "C23_prerequisites_first",
    "C23_registry_last_declaration",
    "C23_search_terminates",
    "C23_search_nearest"
   ],
   "note": "Search (termination, nearest enclosing directory, last declaration wins) and ordering, both in the files model and over all runner schedules."
  },
  {
   "property": "C24",
   "status": "partial",
   "theorems": [
    "C24_same_file_in_and_out_never_returns_refuted",
    "C24_chain_cycle_never_returns_refuted",
    "C24_no_chain_cycle_returns_partial"
   ],
   "note": "Refuted: a Files target with the same file in In and Out (or any chaining cycle) requests itself and waits forever; proved for all schedules. Proved part: without a chaining cycle every call returns under every fair schedule."
  },
  {
   "property": "C25",
   "status": "proved",
   "theorems": [
    "C25_contents",
    "C25_one_row_per_hash",
    "C25_has_answer",
    "C25_has_frame",
    "C25_add_then_has",
    "C25_calls_alone"
   ],
   "note": ""
  },
  {
   "property": "C26",
   "status": "partial",
   "theorems": [
    "C26_evicts_only_old",
    "C26_evicts_all_old",
    "C26_add_keeps_others",
    "C26_recently_used_evicted_refuted"
   ],
   "note": "REFUTED when the clock reading that Has writes is delayed past another access (last access moves backwards, a recently used entry is evicted); eviction rule, crash points and keep period proved."
  },
  {
   "property": "C27",
   "status": "proved",
   "theorems": [
    "C27_output",
    "C27_no_spurious_error",
    "C27_chunking_irrelevant"
   ],
   "note": ""
  },
  {
   "property": "C28",
   "status": "proved",
   "theorems": [
    "C28_joinpath_location",
    "C28_joinpath_clean",
    "C28_joinpath_absolute",
    "C28_clean_idempotent_same_place"
   ],
   "note": ""
  },
  {
   "property": "C29",
   "status": "partial",
   "theorems": [
    "C29_reference_key_absolute_top",
    "C29_reference_key_any_top_partial",
    "C29_leaving_relative_top_refuted",
    "C29_relpath_leads_there"
   ],
   "note": "Proved for absolute top directories, and for any top directory when the reference stays inside; REFUTED for a relative top directory when the reference leaves it and comes back."
  },
  {
   "property": "C30",
   "status": "partial",
   "theorems": [
    "C30_terminates",
    "C30_sound_partial",
    "C30_complete_partial",
    "C30_trailing_slash_wrong_answer_refuted",
    "C30_empty_decl_rejected_refuted"
   ],
   "note": "Termination, soundness (for _dir without trailing slash) and completeness proved; REFUTED: a _dir with trailing slash can give a wrong answer, and a true empty _dir is rejected."
  },
  {
   "property": "C31",
   "status": "proved",
   "theorems": [
    "C31_lookup_is_latest",
    "C31_lookup_nothing",
    "C31_names",
    "C31_describe",
    "C31_non_pointer_refused"
   ],
   "note": ""
  },
  {
   "property": "C32",
   "status": "proved",
   "theorems": [
    "C32_flags_for_one_target",
    "C32_list_of_targets"
   ],
   "note": ""
  },
  {
   "property": "C33",
   "status": "partial",
   "theorems": [
    "C33_empty_second_argument_panics_refuted",
    "C33_returns_otherwise_partial"
   ],
   "note": "Refuted: ParseArgs panics exactly when the second argument is the empty string; otherwise it returns."
  },
  {
   "property": "C34",
   "status": "partial",
   "theorems": [
    "C34_listing_partial",
    "C34_second_doc_line_not_indented_refuted"
   ],
   "note": "Names and single-line docs proved, also under concurrent registration; refuted for docs of several lines (the regular expression ^ lacks the m flag)."
  },
  {
   "property": "C35",
   "status": "proved",
   "theorems": [
    "C35_registry_explained",
    "C35_doc",
    "C35_success",
    "C35_mapping_fields",
    "C35_list_field",
    "C35_document_exactly"
   ],
   "note": "Exact for documents without references to other directories; for all documents the registry is explained and on success complete. YAML text parsing and merge keys are not modelled; decoders other than All, Seq, Deps, ArgTarget, Files are leaves."
  },
  {
   "property": "C36",
   "status": "partial",
   "theorems": [
    "C36_terminates_partial",
    "C36_own_file_refuted",
    "C36_two_files_refuted"
   ],
   "note": "Terminates if files can be ranked by references; false in general: own_file and two_files refutations."
  },
  {
   "property": "C37",
   "status": "proved",
   "theorems": [
    "C37_from_nodes_ok",
    "C37_from_nodes_error",
    "C37_elements",
    "C37_node",
    "C37_files",
    "C37_files_from_nodes",
    "C37_file_location",
    "C37_glob"
   ],
   "note": ""
  },
  {
   "property": "C38",
   "status": "partial",
   "theorems": [
    "C38_output_partial",
    "C38_one_place",
    "C38_other_spelling_refuted",
    "C38_disagreement",
    "C38_runs_once",
    "C38_open_failure"
   ],
   "note": "The full statement holds if different names lead to different files (premise one_spelling); two spellings of one file are opened twice and overwrite each other (refuted). Also a field of only >> against an empty field gives a spurious disagreement error (C38_disagreement says exactly when). The process is an oracle of output chunks; failing writes are not modelled."
  },
  {
   "property": "C39",
   "status": "proved",
   "theorems": [
    "C39_dry_run"
   ],
   "note": "Exact."
  },
  {
   "property": "C40",
   "status": "partial",
   "theorems": [
    "C40_result_partial",
    "C40_file_close_refuted"
   ],
   "note": "Proved for process errors, success and closers made by StdoutFn/StderrFn. Refuted for files: the deferred close of StdoutFile assigns to a shadowed err, that of StderrFile ignores it (C40_file_close_refuted holds for every such command)."
  },
  {
   "property": "C41",
   "status": "partial",
   "theorems": [
    "C41_plain_partial",
    "C41_append_refuted",
    "C41_special",
    "C41_writers_distinct",
    "C41_functions_distinct",
    "C41_places"
   ],
   "note": "With an absolute top directory plain names are right; a >> prefix is never honoured: JoinPath puts the directory in front of it (refuted for every top, dir and name)."
  },
  {
   "property": "C42",
   "status": "partial",
   "theorems": [
    "C42_stdin_file_refuted",
    "C42_stdin_of_fab_partial"
   ],
   "note": "Refuted for every !Command: the decoder never sets StdinFile. Proved part: $stdin, and nothing else, gives fab's standard input."
  },
  {
   "property": "C43",
   "status": "proved",
   "theorems": [
    "C43_seq",
    "C43_accumulate",
    "C43_nothing",
    "C43_single"
   ],
   "note": "Exact for an absolute top directory (accumulation also needs that different names lead to different files). The first command truncates. Seq's own order is C07."
  },
  {
   "property": "C44",
   "status": "partial",
   "theorems": [
    "C44_sources_partial",
    "C44_sources_calm_partial",
    "C44_version_partial",
    "C44_version_orderly_partial",
    "C44_crash_revert_refuted",
    "C44_downgrade_refuted",
    "C44_run_ends"
   ],
   "note": "Full statement: the driver that runs was always compiled from the sources and by the fab version in use. Proved: for every history of edits, deletions, runs, forced runs, failures and crashes at any step, sources are right if contents never come back after being replaced, or if no run dies and no edit happens during one; version right if versions never come back, or if no run dies or is forced and nobody deletes the binary. Refuted without these conditions (crash between the rename of the binary and the write of the hash, then reverting the edit; forced run by another version, then going back)."
  },
  {
   "property": "C45",
   "status": "partial",
   "theorems": [
    "C45_again_partial",
    "C45_first_refuted",
    "C45_no_info_refuted"
   ],
   "note": "Proved if a binary existed when the previous unforced run started. Refuted after a first or a forced run (no version file is written, so the next run compiles again), and for binaries without build info."
  },
  {
   "property": "C46",
   "status": "partial",
   "theorems": [
    "C46_flags_partial",
    "C46_end_to_end_partial",
    "C46_terminator_refuted"
   ],
   "note": "Proved for every command line without --. Refuted with it: fab -- -n hands the driver a flag."
  },
  {
   "property": "C47",
   "status": "proved",
   "theorems": [
    "C47_order",
    "C47_detects",
    "C47_as_map",
    "C47_hash_ok"
   ],
   "note": "Premises: SHA-224 and the JSON encoding are injective; base names distinct (files of one package)."
  },
  {
   "property": "C48",
   "status": "partial",
   "theorems": [
    "C48_terminates",
    "C48_accepts_iff_same_structure_partial",
    "C48_identical_accepted",
    "C48_implements_target_partial",
    "C48_literal_for_named_type_refuted"
   ],
   "note": "Termination and 'accepts iff bisimilar' proved for all finite cyclic type graphs; the full claim is refuted: a type literal is accepted for a named type of the same structure and embedding is not compared. Generic types are not modelled."
  },
  {
   "property": "C49",
   "status": "partial",
   "theorems": [
    "C49_terminates",
    "C49_contains_needed",
    "C49_only_imported",
    "C49_sorted_nodup",
    "C49_all_read",
    "C49_error_has_cause",
    "C49_import_lines",
    "C49_proto_target",
    "C49_proto_error",
    "C49_all_import_statements_refuted"
   ],
   "note": "Deps: terminates, contains all transitive imports (first include dir), only existing imported files, sorted, errors characterised, import lines characterised. Refuted for import statements the regular expression misses (indented, weak, single quotes, comments)."
  },
  {
   "property": "C50",
   "status": "partial",
   "theorems": [
    "C50_exactly_needed_partial",
    "C50_shadowed_files_refuted"
   ],
   "note": "Exact when no import is found in two include directories; refuted in general: the second occurrence of an import adds the shadowed file of a later include directory."
  },
  {
   "property": "C51",
   "status": "partial",
   "theorems": [
    "C51_terminates",
    "C51_files_and_matches",
    "C51_exactly_module_files_partial",
    "C51_error_has_cause",
    "C51_panic_only_without_module",
    "C51_exactly_module_files_refuted",
    "C51_no_panic_refuted",
    "C51_binary_target"
   ],
   "note": "Deps = files of packages reached within the module plus the matches of their embed patterns in the working directory; exact when those matches are the package's own files. Refuted: patterns are matched relative to the working directory; a package without module makes it panic."
  },
  {
   "property": "C52",
   "status": "partial",
   "theorems": [
    "C52_nil_removes_listed",
    "C52_error_names_file",
    "C52_missing_ignored",
    "C52_dry_run_removes_nothing",
    "C52_registry",
    "C52_directory_trees_refuted"
   ],
   "note": "Run on a heap of slices and a file system with aliases. Refuted only for the documented deletion of directory trees."
  },
  {
   "property": "C53",
   "status": "partial",
   "theorems": [
    "C53_full_capacity_unchanged_partial",
    "C53_without_autoclean_sorts_partial",
    "C53_files_sorted_in_place_refuted",
    "C53_spare_capacity_refuted"
   ],
   "note": "Refuted: Files is sorted in place, and with Autoclean and spare capacity the shared array is overwritten. Partial: full capacity leaves all arrays unchanged; without Autoclean only the order within Files changes."
  },
  {
   "property": "C54",
   "status": "proved",
   "theorems": [
    "C54_latest_setting_wins",
    "C54_defaults",
    "C54_settings_independent"
   ],
   "note": ""
  },
  {
   "property": "C55",
   "status": "partial",
   "theorems": [
    "C55_registers_exactly",
    "C55_copies_exactly",
    "C55_doc_partial",
    "C55_well_formed_iff_partial",
    "C55_exported_type_refuted",
    "C55_typed_variable_refuted",
    "C55_comment_in_group_refuted",
    "C55_other_package_refuted",
    "C55_only_if_all_succeeds",
    "C55_fab_sources"
   ],
   "note": "Exact registrations, copied files and embedded sources proved for every package. Validity of the generated source is characterised exactly and refuted in general: an exported type implementing Target, or a variable declared with an explicit exported type of the package, leaves the doc argument empty. The comment of one variable in a group is ignored; another package clause in the directory (external test, build-ignored file) makes Compile fail. Simplified: no dot imports; ASCII capitals; non-ASCII bytes of doc comments are taken to be printable."
  },
  {
   "property": "C56",
   "status": "partial",
   "theorems": [
    "C56_own_body_runs_partial",
    "C56_address_collision_refuted"
   ],
   "note": "REFUTED for targets sharing an address (zero-size types, reuse after garbage collection); proved for injective addresses."
  },
  {
   "property": "C57",
   "status": "proved",
   "theorems": [
    "C57_closed_once",
    "C57_yaml_closes_own_files"
   ],
   "note": "Exact."
  },
  {
   "property": "C58",
   "status": "proved",
   "theorems": [
    "C58_incremental_build_is_correct",
    "C58_database_holds_only_right_states",
    "C58_hash_answers",
    "C58_once_is_settled",
    "C58_every_execution_is_a_build",
    "C58_named_rules_are_settled",
    "C58_every_execution_is_a_build_named"
   ],
   "note": "Commands, the files and the answers of the database are parameters of the model; what 'right' means is an arbitrary predicate that depends only on what the hash covers. hashf and H are assumed injective. Files targets may be run several times (they are when referred to by name, C06); 'settled' says what is then required of an execution, and C58_once_is_settled and C58_named_rules_are_settled give conditions for it. C58_every_execution_is_a_build(_named) discharge all conditions on executions from conditions on the targets, for single-command subtargets."
  },
  {
   "property": "C59",
   "status": "proved",
   "theorems": [
    "C59_repeated_build_does_nothing",
    "C59_repeated_build_does_nothing_once"
   ],
   "note": "Commands and other targets are arbitrary, within 'separate'. The database must not forget (see C26 for eviction). Files targets may be run several times in the first build; then all those runs must have ended without error."
  },
  {
   "property": "C60",
   "status": "proved",
   "theorems": [
    "C60_same_as_a_clean_build"
   ],
   "note": "As C58; 'determined' and 'sources_kept' are the extra conditions, named in the statement."
  },
  {
   "property": "C61",
   "status": "partial",
   "theorems": [
    "C61_exit_status",
    "C61_broken_project_file_partial",
    "C61_wrong_project_file_partial",
    "C61_dangling_reference_refuted"
   ],
   "note": "Status and requests are proved for all machines and command lines. That nothing is run if the project file is wrong is proved if it refers to no other directory (or for any error other than fs.ErrNotExist); for dangling references to other directories it is refuted: they truncate the project file silently."
  },
  {
   "property": "C62",
   "status": "partial",
   "theorems": [
    "C62_modes_agree_partial",
    "C62_no_arguments_refuted",
    "C62_list_without_database_refuted",
    "C62_go_tags_refuted"
   ],
   "note": "Proved for calls that name targets, with a database that can be opened, an absolute fab directory, the same decoders, no -- and an outcome of running that does not depend on the working directory; each of the first, second and fourth condition is shown necessary by a _refuted theorem, the third by C66."
  },
  {
   "property": "C63",
   "status": "partial",
   "theorems": [
    "C63_list_runs_nothing_partial",
    "C63_listing_partial",
    "C63_succeeds_partial",
    "C63_terminator_refuted",
    "C63_list_opens_database_refuted"
   ],
   "note": "Proved without -- on the command line, which is necessary; changes nothing is refuted with a driver, which opens the database."
  },
  {
   "property": "C64",
   "status": "partial",
   "theorems": [
    "C64_settings_partial",
    "C64_runs_partial",
    "C64_terminator_refuted"
   ],
   "note": "Proved without -- on the command line, which is necessary."
  },
  {
   "property": "C65",
   "status": "partial",
   "theorems": [
    "C65_origin_partial",
    "C65_no_project_file",
    "C65_whole_file_partial",
    "C65_yaml_wins_partial",
    "C65_project_file_partial",
    "C65_dot_key_refuted",
    "C65_dangling_refuted"
   ],
   "note": "Origin of every name for all projects (no --). The project file wins over Go targets and over other directories' files, and its last definition over the others, for all projects in which every directory referred to has a YAML file, the decoders report no missing files and no other directory's file has a key that is empty, '.' or '..' (C65_project_file_partial); without the first or the last condition it is false (C65_dangling_refuted, C65_dot_key_refuted)."
  },
  {
   "property": "C66",
   "status": "partial",
   "theorems": [
    "C66_at_wd",
    "C66_database_place_partial",
    "C66_relative_fabdir_refuted",
    "C66_relative_topdir_refuted"
   ],
   "note": "Proved for absolute paths, or without a Go package; refuted for relative paths with one."
  },
  {
   "property": "C67",
   "status": "partial",
   "theorems": [
    "C67_decoded",
    "C67_succeeds",
    "C67_default_out",
    "C67_default_out_is_new_file_refuted",
    "C67_default_out_is_new_file_partial",
    "C67_clean_then_fails",
    "C67_function",
    "C67_function_fails",
    "C67_must_panics"
   ],
   "note": "Proved for absolute top directories (the function also for relative paths inside the working directory). That the default output is a new file is refuted for a one-element Dir and proved for longer ones."
  },
  {
   "property": "C68",
   "status": "proved",
   "theorems": [
    "C68_decoded",
    "C68_succeeds",
    "C68_removes"
   ],
   "note": "Decoder and Run together, for every file system and working directory."
  },
  {
   "property": "C69",
   "status": "partial",
   "theorems": [
    "C69_proto_decoded",
    "C69_proto_succeeds",
    "C69_deps_partial",
    "C69_deps_in_yaml_dir_partial",
    "C69_deps_relative_includes_refuted",
    "C69_deps_relative_top_refuted",
    "C69_go_deps_partial",
    "C69_go_deps_exact_partial"
   ],
   "note": "proto.Proto in full; the lists for absolute includes, or in the YAML file's directory; refuted for relative includes and relative top directories. go.Deps: for absolute names in normal form, which package files are."
  },
  {
   "property": "C70",
   "status": "partial",
   "theorems": [
    "C70_decoded",
    "C70_succeeds",
    "C70_run",
    "C70_failure_keeps_output_refuted"
   ],
   "note": "Everything but keeping the old output on failure, which is refuted."
  },
  {
   "property": "C71",
   "status": "proved",
   "theorems": [
    "C71_descriptions_differ",
    "C71_changed_parameters_rebuild",
    "C71_decls",
    "C71_binary"
   ],
   "note": "Premises: hash functions injective, no user type borrows the library's type names (genuine)."
  },
  {
   "property": "C72",
   "status": "proved",
   "theorems": [
    "C72_success_means_done"
   ],
   "note": "End to end. The Target of a !Files is not among what is required (it may be up to date); an input made by several rules requires none of them (which one is chosen depends on the order of declaration)."
  },
  {
   "property": "C73",
   "status": "proved",
   "theorems": [
    "C73_failure_has_a_cause"
   ],
   "note": "Bodies of commands are arbitrary programs that request no targets."
  },
  {
   "property": "C74",
   "status": "proved",
   "theorems": [
    "C74_only_what_is_involved_runs"
   ],
   "note": ""
  },
  {
   "property": "C75",
   "status": "proved",
   "theorems": [
    "C75_seq_parts_start_in_order",
    "C75_deps_before_main_part",
    "C75_seq_asks_in_order",
    "C75_deps_asks_in_order",
    "C75_in_place_is_private",
    "C75_in_place_starts_within",
    "C75_steps_in_order"
   ],
   "note": "Bodies of commands and of other decoders' targets are arbitrary programs that request no targets. Start order is for what is written in place (and for the steps of a multi-line command); a part given by name, or a rule, may legitimately be run earlier for others, for those the order of requests is proved."
  },
  {
   "property": "C76",
   "status": "proved",
   "theorems": [
    "C76_no_cycle_returns",
    "C76_cycle_elsewhere_returns",
    "C76_ranked_returns"
   ],
   "note": "inevitable: under every continuation of the schedule; the second theorem for fair schedules with cycles elsewhere; a rank on names as a sufficient condition."
  },
  {
   "property": "C77",
   "status": "partial",
   "theorems": [
    "C77_steps_at_most_once",
    "C77_in_place_at_most_once",
    "C77_once_per_reference",
    "C77_definition_runs_twice_refuted"
   ],
   "note": "The claim of at most one execution per definition is refuted (files read twice; rules asked for by name and by pointer); proved: at most once per target written in place, and once per reference otherwise."
  },
  {
   "property": "C78",
   "status": "proved",
   "theorems": [
    "C78_success_is_done",
    "C78_success_nothing_failed"
   ],
   "note": "Projects whose targets are defined in YAML (no Go targets). carried_out ties the abstract result of the request in the command model to an execution of the controller model."
  },
  {
   "property": "C79",
   "status": "proved",
   "theorems": [
    "C79_failure_has_cause"
   ],
   "note": "Projects whose targets are defined in YAML (no Go targets). carried_out ties the abstract result of the request in the command model to an execution of the controller model."
  },
  {
   "property": "C80",
   "status": "proved",
   "theorems": [
    "C80_only_what_is_named_runs"
   ],
   "note": "Projects whose targets are defined in YAML (no Go targets). carried_out ties the abstract result of the request in the command model to an execution of the controller model."
  },
  {
   "property": "C81",
   "status": "proved",
   "theorems": [
    "C81_settings_of_command_line"
   ],
   "note": "Projects whose targets are defined in YAML (no Go targets). carried_out ties the abstract result of the request in the command model to an execution of the controller model."
  },
  {
   "property": "C82",
   "status": "proved",
   "theorems": [
    "C82_acyclic_ends"
   ],
   "note": "Projects whose targets are defined in YAML (no Go targets). carried_out ties the abstract result of the request in the command model to an execution of the controller model."
  },
  {
   "property": "C83",
   "status": "proved",
   "theorems": [
    "C83_dry_run_no_effects",
    "C83_force_no_lookup"
   ],
   "note": "Projects whose targets are defined in YAML (no Go targets). carried_out ties the abstract result of the request in the command model to an execution of the controller model."
  },
  {
   "property": "C84",
   "status": "proved",
   "theorems": [
    "C84_files_are_up_to_date",
    "C84_completed_rules_are_right"
   ],
   "note": "Premises on the project: Target of each !Files written in place and no rule itself; each command touches only files of its own rule or of rules needing it, and does its job; injective hash functions; rules referred to by not yet defined names need no -f, single-step commands and distinct descriptions. Concrete project and histories in MakeExample.v."
  },
  {
   "property": "C85",
   "status": "proved",
   "theorems": [
    "C85_database_is_honest"
   ],
   "note": "Premises on the project: Target of each !Files written in place and no rule itself; each command touches only files of its own rule or of rules needing it, and does its job; injective hash functions; rules referred to by not yet defined names need no -f, single-step commands and distinct descriptions. Concrete project and histories in MakeExample.v."
  },
  {
   "property": "C86",
   "status": "proved",
   "theorems": [
    "C86_repetition_runs_nothing",
    "C86_completed_rules_stay"
   ],
   "note": "Premises on the project: Target of each !Files written in place and no rule itself; each command touches only files of its own rule or of rules needing it, and does its job; injective hash functions; rules referred to by not yet defined names need no -f, single-step commands and distinct descriptions. Concrete project and histories in MakeExample.v."
  },
  {
   "property": "C87",
   "status": "proved",
   "theorems": [
    "C87_same_as_a_clean_build"
   ],
   "note": "Premises on the project: Target of each !Files written in place and no rule itself; each command touches only files of its own rule or of rules needing it, and does its job; injective hash functions; rules referred to by not yet defined names need no -f, single-step commands and distinct descriptions. Concrete project and histories in MakeExample.v."
  },
  {
   "property": "C88",
   "status": "proved",
   "theorems": [
    "C88_sqlite_is_such_a_database",
    "C88_incremental_build_is_correct",
    "C88_table_holds_only_right_states",
    "C88_repeated_build_does_nothing",
    "C88_nothing_expires_within_the_keep_period",
    "C88_same_as_a_clean_build",
    "C88_every_build_can_occur",
    "C88_fab_files_are_up_to_date",
    "C88_fab_completed_rules_are_right",
    "C88_fab_table_is_honest",
    "C88_fab_repetition_runs_nothing",
    "C88_fab_same_as_a_clean_build"
   ],
   "note": "Premises as for C58-C60 and C84-C87 (injective hashing, rules with separate outputs, commands doing their job); SQL statements are atomic; hash bytes are numbered injectively."
  },
  {
   "property": "C89",
   "status": "proved",
   "theorems": [
    "C89_no_data_race",
    "C89_result_is_published",
    "C89_every_schedule",
    "C89_accesses_are_shown",
    "C89_sync_is_shown",
    "C89_locks_are_paired"
   ],
   "note": "Data-race freedom for every schedule of RunnerModel (nested and concurrent calls, registrations, Describe/Indentf by running bodies and other clients at any time). C89_every_schedule: every schedule has such an execution. What target bodies do to their own data is not shown."
  },
  {
   "property": "C90",
   "status": "proved",
   "theorems": [
    "C90_success_is_done",
    "C90_failure_has_cause"
   ],
   "note": "any project: Go package, YAML or both; bodies may call Run"
  },
  {
   "property": "C91",
   "status": "proved",
   "theorems": [
    "C91_only_what_is_needed_runs",
    "C91_settings_of_command_line",
    "C91_dry_run_no_effects"
   ],
   "note": "keep_settings (Go functions pass on the settings of their contexts) is a premise of the last two"
  },
  {
   "property": "C92",
   "status": "proved",
   "theorems": [
    "C92_seq_in_order",
    "C92_makers_of_inputs_first"
   ],
   "note": "order of Seq parts and of Files after the makers of their inputs"
  },
  {
   "property": "C93",
   "status": "proved",
   "theorems": [
    "C93_acyclic_ends",
    "C93_cycle_elsewhere_ends"
   ],
   "note": "finite bodies and no cycle in may_need; the second theorem asks only for the named targets, under fairness"
  },
  {
   "property": "C94",
   "status": "partial",
   "theorems": [
    "C94_sources_partial",
    "C94_version_partial",
    "C94_binary_is_whole",
    "C94_driver_exists",
    "C94_never_waits",
    "C94_sources_refuted"
   ],
   "note": "Refuted for edits during overlapping runs (C94_sources_refuted); proved for edits made while no process decides about the driver (C94_sources_partial) and overlapping processes of one version whose versions do not come back (C94_version_partial). The rest is proved for all histories: C94_binary_is_whole, C94_driver_exists, C94_never_waits."
  },
  {
   "property": "C95",
   "status": "partial",
   "theorems": [
    "C95_pieces",
    "C95_in_turn_partial",
    "C95_depth_0_partial",
    "C95_lines_refuted"
   ],
   "note": "Refuted: indentation and text are two writes (C95_lines_refuted: any two messages, any depth above 0). Proved: whole pieces in order for every schedule (C95_pieces), whole lines if no two goroutines print at once, whole lines at depth 0."
  },
  {
   "property": "C96",
   "status": "proved",
   "theorems": [
    "C96_fab_reads",
    "C96_driver_reads",
    "C96_unambiguous",
    "C96_refused",
    "C96_help",
    "C96_driver_refused",
    "C96_driver_exit_codes",
    "C96_exit_codes"
   ],
   "note": "Grammar in CliSpec.v, independent of the walk in the code. Package flag is modelled by its documentation and source (Go 1.22 semantics); exit status 2 is also that of a panic, reached with an empty second argument (C96_exit_codes, see C33)."
  },
  {
   "property": "C97",
   "status": "partial",
   "theorems": [
    "C97_hash_error_stops",
    "C97_lookup_error_stops",
    "C97_failed_record_is_an_error",
    "C97_every_error_has_a_cause",
    "C97_what_cannot_be_hashed",
    "C97_panics_partial",
    "C97_unreachable_input_refuted"
   ],
   "note": "Proved for every history. Refuted: os.Stat errors other than 'not found' panic (C97_unreachable_input_refuted), as does a nil subtarget (C97_panics_partial gives exactly the causes)."
  },
  {
   "property": "C98",
   "status": "partial",
   "theorems": [
    "C98_registries_race_free",
    "C98_no_data_race_partial",
    "C98_plain_programs",
    "C98_every_schedule",
    "C98_clean_twice_refuted",
    "C98_description_refuted"
   ],
   "note": "Two refutations: a Clean target whose list is not sorted, requested through two name references, is run by two goroutines at once, which both sort (write) the same array (clean.go:46); and the JSON description of a Files target reads the Target field of a name reference without its mutex while another goroutine resolves it (files.go:182, yaml.go:100-113). Proved without races: the registries, always; everything when those two cases are excluded; programs without name references whose Clean targets have lists of their own. The bodies of Command and user-defined targets are not covered."
  },
  {
   "property": "C99",
   "status": "proved",
   "theorems": [
    "C99_same_traces",
    "C99_at_most_once",
    "C99_same_error",
    "C99_return_after_completion",
    "C99_mutual_exclusion",
    "C99_depth",
    "C99_calls_can_return",
    "C99_never_stuck"
   ],
   "note": "Same observable traces as RunnerModel (both inclusions), with C01-C03 carried over; mutual exclusion; exact depth; never stuck and always able to finish. Not modelled at this grain: the tickets of sync.Cond (sleepers may wake any time here; C13 has them), runner.go:104's message."
  },
  {
   "property": "C100",
   "status": "partial",
   "theorems": [
    "C100_binary_whole",
    "C100_success",
    "C100_failure_harmless",
    "C100_can_succeed",
    "C100_other_device_refuted",
    "C100_shared_touches",
    "C100_shared_success",
    "C100_many_whole",
    "C100_many_success",
    "C100_many_failure",
    "C100_hectic_touches"
   ],
   "note": "Atomic replacement, success, harmless failure and the exact files built from are proved for every failure and kill; also while others change anything but the temporary directory and the package (C100_shared_*), and for any number of interleaved calls with the same or other binfiles (C100_many_*). If even the package changes meanwhile, binfile is still only ever replaced by the whole output of a successful go build (C100_hectic_touches). Refuted for the last sentence: with the temporary directory on another file system than binfile no call succeeds, because os.Rename cannot cross file systems (C100_other_device_refuted). The temporary directory of a killed process stays."
  }
 ]
}