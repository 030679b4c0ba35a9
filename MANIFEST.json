{
 "claims": [
  {
   "property": "C01",
   "status": "proved",
   "theorems": [
    "C01_accepted_is_well_formed",
    "C01_reads",
    "C01_writes",
    "C01_group_files"
   ],
   "note": ""
  },
  {
   "property": "C02",
   "status": "proved",
   "theorems": [
    "C02_complete_and_total",
    "C02_order_independent"
   ],
   "note": ""
  },
  {
   "property": "C03",
   "status": "proved",
   "theorems": [
    "C03_jobs_have_their_inputs",
    "C03_no_panic",
    "C03_missing_output_refuted"
   ],
   "note": "no panic under the stated assumption that a worker sends all the outputs; without it the scheduler panics (refuted)."
  },
  {
   "property": "C04",
   "status": "partial",
   "theorems": [
    "C04_no_group_lost",
    "C04_exactly_one_place",
    "C04_jobs_belong",
    "C04_double_connect_refuted",
    "C06_multi_refuted"
   ],
   "note": "no group is lost, for all groups; 'exactly one place' proved for groups with an input or with one execution; false for input-less groups of several executions, which are queued once per execution (C06_multi_refuted)."
  },
  {
   "property": "C05",
   "status": "partial",
   "theorems": [
    "C05_skipped_are_doomed",
    "C05_skipped_iff_doomed_partial"
   ],
   "note": "soundness for all DAGs; the converse for DAGs whose groups are queued once and clients that announce only provided files."
  },
  {
   "property": "C06",
   "status": "partial",
   "theorems": [
    "C06_not_run_twice_partial",
    "C06_multi_refuted"
   ],
   "note": "false for input-less groups of several executions (refuted), proved for all the others."
  },
  {
   "property": "C07",
   "status": "proved",
   "theorems": [
    "C07_done_means_done"
   ],
   "note": ""
  },
  {
   "property": "C08",
   "status": "partial",
   "theorems": [
    "C08_completion_notified_partial",
    "C08_all_cached_refuted",
    "C08_other_client_refuted"
   ],
   "note": "proved when the completing message is a file or a result of that client; false for completions found in the cache at submission or while another client is served (refuted)."
  },
  {
   "property": "C09",
   "status": "partial",
   "theorems": [
    "C09_no_idle_partial",
    "C09_no_idle_without_losses",
    "C09_requeue_refuted"
   ],
   "note": "every message but the loss of a worker preserves it; the loss of a worker breaks it (refuted)."
  },
  {
   "property": "C10",
   "status": "proved",
   "theorems": [
    "C10_no_deadlock"
   ],
   "note": ""
  },
  {
   "property": "C100",
   "status": "proved",
   "theorems": [
    "C100_told",
    "C100_told_unique",
    "C100_failed",
    "C100_no_blame",
    "C100_relative",
    "C100_shown",
    "C100_gone"
   ],
   "note": "Proved for all source files, uses, notifications and failures of the interface. The commands of the compilation and the contents of the DAG are in C04/C70 and the models of the languages; which notifications arrive is C05-C09 (executor)."
  },
  {
   "property": "C101",
   "status": "partial",
   "theorems": [
    "C101_knows_its_peers",
    "C101_status_answer",
    "C101_counts_what_is_left",
    "C101_ready_is_the_queue_refuted"
   ],
   "note": "Proved for all reachable states, against folds over the trace of messages. Partial only because the count of ready groups is false of the code for groups with several executions and no input (refuted); the counts are proved for DAGs without such groups, and the rest without this hypothesis. Names and durations in the answer are not modelled."
  },
  {
   "property": "C102",
   "status": "partial",
   "theorems": [
    "C102_measure",
    "C102_protocol",
    "C102_result",
    "C102_worker_starts",
    "C102_kill",
    "C102_kill_refuted",
    "C102_tools_path"
   ],
   "note": "Proved for all configurations, outcomes and times, tabox and JSON being parameters. Partial because a kill request is lost if the process takes more than 0.8 s to be created (refuted)."
  },
  {
   "property": "C103",
   "status": "partial",
   "theorems": [
    "C103_not_asked",
    "C103_missing",
    "C103_file",
    "C103_removed",
    "C103_read_only",
    "C103_outside",
    "C103_link_refuted",
    "C103_left_refuted",
    "C103_example"
   ],
   "note": "Proved for all trees and answers: exactly when the storage is removed and exactly what changes outside. Partial because the code changes the permissions of directories outside through symbolic links, and leaves (with success) what is below a directory that cannot be listed, if it is read-only (both refuted)."
  },
  {
   "property": "C104",
   "status": "partial",
   "theorems": [
    "C104_all_workers",
    "C104_space",
    "C104_window",
    "C104_once",
    "C104_comes_back",
    "C104_rotation",
    "C104_columns",
    "C104_aligned",
    "C104_job_whole",
    "C104_job_cut",
    "C104_compilations",
    "C104_booklets",
    "C104_layout",
    "C104_example",
    "C104_spinner_twice_refuted",
    "C104_bytes_refuted"
   ],
   "note": "Proved for all contents and sizes. Partial because a job that is cut shows the spinner again before its name, and is too long if its name is not ASCII (both refuted). What ratatui chooses when there is no room for one worker is not modelled."
  },
  {
   "property": "C105",
   "status": "partial",
   "theorems": [
    "C105_plain",
    "C105_quoted",
    "C105_no_quotes",
    "C105_cpp",
    "C105_c",
    "C105_rust",
    "C105_fpc_cfg",
    "C105_pascal",
    "C105_panics",
    "C105_example",
    "C105_panic_refuted",
    "C105_empty_refuted"
   ],
   "note": "Proved for all environments. Partial because a CFLAGS or CXXFLAGS with an open quote panics at the first source file of any language (the exact condition is proved), and a variable that is set and empty is the name of the compiler (both refuted). shell_words is a dependency: its reader is modelled from its source."
  },
  {
   "property": "C106",
   "status": "partial",
   "theorems": [
    "C106_words",
    "C106_no_quotes",
    "C106_quoted",
    "C106_simple",
    "C106_characters",
    "C106_lines",
    "C106_arguments",
    "C106_rejected",
    "C106_readable",
    "C106_back",
    "C106_plain",
    "C106_bytes",
    "C106_example",
    "C106_hypotheses_met",
    "C106_hash_refuted",
    "C106_back_refuted"
   ],
   "note": "The words of a text are characterised exactly by a grammar, for all texts; the lines of gen/cases.gen and C87 with that reader, without hypotheses on it. Refuted: a number sign in quotes (or after a backslash) ends the line; in the gen/GEN that is written the arguments have lost their quotes. shell_words is a dependency: modelled from its source."
  },
  {
   "property": "C107",
   "status": "proved",
   "theorems": [
    "C107_no_panic",
    "C107_accepted",
    "C107_samples",
    "C107_task",
    "C107_only",
    "C107_dry_run",
    "C107_unreadable",
    "C107_not_batch",
    "C107_no_official"
   ],
   "note": "Proved for all tasks and samples, on top of the DAG of C67. The pairs of files are those of C79; how a checker's answer becomes a warning is not part of it."
  },
  {
   "property": "C108",
   "status": "partial",
   "theorems": [
    "C108_one_line",
    "C108_identified",
    "C108_history_partial",
    "C108_lines",
    "C108_columns",
    "C108_example",
    "C108_forged_refuted",
    "C108_terry_refuted",
    "C108_booklet_refuted",
    "C108_checker_refuted"
   ],
   "note": "Proved for the executions and the scores of IOI tasks, as printed without colors. Missing: messages with captured output and the tables. Refuted: the message of a checker with a newline forges the line of another score; the names of Terry solutions and of booklets are not quoted; how a checker finished is not printed (only its color)."
  },
  {
   "property": "C11",
   "status": "proved",
   "theorems": [
    "C11_pop_is_most_urgent",
    "C11_assignment_in_priority_order"
   ],
   "note": ""
  },
  {
   "property": "C12",
   "status": "proved",
   "theorems": [
    "C12_cache_insertions"
   ],
   "note": ""
  },
  {
   "property": "C13",
   "status": "proved",
   "theorems": [
    "C13_disconnection",
    "C13_no_message_after"
   ],
   "note": ""
  },
  {
   "property": "C14",
   "status": "proved",
   "theorems": [
    "C14_results"
   ],
   "note": ""
  },
  {
   "property": "C15",
   "status": "proved",
   "theorems": [
    "C15_notifications"
   ],
   "note": ""
  },
  {
   "property": "C16",
   "status": "partial",
   "theorems": [
    "C16_verdict_class",
    "C16_extra_time_refuted",
    "C16_extra_time_success_refuted"
   ],
   "note": "Proved for any history of insertions when all the groups have the same extra time and memory (one configuration of task-maker); the two _refuted theorems show hits with the opposite verdict when the extra time differs."
  },
  {
   "property": "C17",
   "status": "partial",
   "theorems": [
    "C17_compatibility_partial",
    "C17_identical_limits",
    "C17_mount_proc_refuted",
    "C17_readable_dirs_refuted",
    "C17_extra_memory_panic_refuted"
   ],
   "note": "Sound for all the numeric limits and the flags that are compared; mount_proc is not compared, readable directories only when the sets are nested, and the u64 subtraction of the extra memory panics with overflow checks: three findings."
  },
  {
   "property": "C18",
   "status": "partial",
   "theorems": [
    "C18_key_identifies_partial",
    "C18_order_irrelevant",
    "C18_fifo_name_refuted",
    "C18_ignored_fields_refuted"
   ],
   "note": "Exact characterisation when no argument is spelled like tm_fifo_N; refuted without. The redirect paths and copy_env are not part of the key (finding)."
  },
  {
   "property": "C19",
   "status": "proved",
   "theorems": [
    "C19_insert_then_get",
    "C19_insert_replaces",
    "C19_other_keys",
    "C19_one_entry_per_limits"
   ],
   "note": ""
  },
  {
   "property": "C20",
   "status": "proved",
   "theorems": [
    "C20_hit_provides_outputs",
    "C20_scheduler_assumption"
   ],
   "note": ""
  },
  {
   "property": "C21",
   "status": "proved",
   "theorems": [
    "C21_status_classification"
   ],
   "note": ""
  },
  {
   "property": "C22",
   "status": "partial",
   "theorems": [
    "C22_accounting",
    "C22_flush_error_refuted",
    "C22_touch",
    "C22_add"
   ],
   "note": "Proved for all histories of successful operations; when the base directory cannot be resolved during a flush the index is left inconsistent (finding)."
  },
  {
   "property": "C23",
   "status": "proved",
   "theorems": [
    "C23_flush",
    "C23_need_flush"
   ],
   "note": ""
  },
  {
   "property": "C24",
   "status": "partial",
   "theorems": [
    "C24_most_recent_first",
    "C24_lru_refuted"
   ],
   "note": "The property is false of the code (max-heap): refuted; the opposite order is proved."
  },
  {
   "property": "C25",
   "status": "partial",
   "theorems": [
    "C25_store_handles",
    "C25_get_handles_partial",
    "C25_get_refuted"
   ],
   "note": "Proved for store() handles under every interleaving; for get() handles without the race between the existence check and the creation of the handle, which is shown to break the property."
  },
  {
   "property": "C26",
   "status": "proved",
   "theorems": [
    "C26_no_partial_file",
    "C26_content_matches"
   ],
   "note": ""
  },
  {
   "property": "C27",
   "status": "partial",
   "theorems": [
    "C27_disk_usage_partial",
    "C27_bounded_partial",
    "C27_crash_refuted"
   ],
   "note": "Proved for runs without I/O failures and crashes; refuted with a crash between the rename and the update of the index."
  },
  {
   "property": "C28",
   "status": "proved",
   "theorems": [
    "C28_reference_counts"
   ],
   "note": ""
  },
  {
   "property": "C29",
   "status": "partial",
   "theorems": [
    "C29_index_round_trip",
    "C29_cache_round_trip",
    "C29_missing_or_other_version",
    "C29_cache_missing_or_other_version",
    "C29_truncated_index",
    "C29_truncated_cache",
    "C29_crash_safe",
    "C29_index_crash_safe",
    "C29_cache_crash_safe",
    "C29_lossy_never_wrong",
    "C29_cache_not_dirty",
    "C29_cache_session",
    "C29_same_lookups",
    "C29_keys_distinct",
    "C29_lost_flush_refuted",
    "C29_corruption_refuted",
    "C29_short_other_version_refuted"
   ],
   "note": "Round trip, missing/other version, every truncation and every crash point are proved. Refuted: a corrupt (not truncated) file may load as something else, a file of another version shorter than the magic is an error, and a flush failing when the writer is dropped is not noticed and leaves a truncated index that cannot be opened."
  },
  {
   "property": "C30",
   "status": "proved",
   "theorems": [
    "C30_round_trip",
    "C30_file",
    "C30_data",
    "C30_incomplete",
    "C30_readable",
    "C30_read_error_refuted"
   ],
   "note": "Round trip for every content, chunking and following traffic; an incomplete transfer is never taken for a complete one. A read error on the sending side is silently a shorter file (finding, refuted)."
  },
  {
   "property": "C31",
   "status": "proved",
   "theorems": [
    "C31_at_most_once",
    "C31_faithful",
    "C31_first_notification"
   ],
   "note": "For every server behaviour, every failure of callbacks and every outcome."
  },
  {
   "property": "C32",
   "status": "partial",
   "theorems": [
    "C32_chunked",
    "C32_content",
    "C32_destination",
    "C32_dry_run",
    "C32_empty_content_refuted"
   ],
   "note": "Proved for every delivery; the empty content of a file provided from memory reaches the chunked callbacks as two empty chunks (refuted)."
  },
  {
   "property": "C33",
   "status": "partial",
   "theorems": [
    "C33_stop_partial",
    "C33_all_received",
    "C33_ok_without_done_refuted",
    "C33_second_done_refuted"
   ],
   "note": "The normal end is characterised exactly; the function also returns Ok after a server error or a lost connection, and a second Done makes it stop without a file it asked for (refuted)."
  },
  {
   "property": "C34",
   "status": "partial",
   "theorems": [
    "C34_prefix",
    "C34_short_stream",
    "C34_long_stream",
    "C34_bounded_partial",
    "C34_not_asked",
    "C34_at_most_count_refuted"
   ],
   "note": "The captured data is a prefix, complete if shorter than count, and below count + 1024; the documented bound (at most count) is false: refuted."
  },
  {
   "property": "C35",
   "status": "proved",
   "theorems": [
    "C35_asked_once",
    "C35_asked_missing",
    "C35_started_once",
    "C35_started_iff_inputs",
    "C35_no_start_before_work",
    "C35_get_work_idle",
    "C35_get_work_alternates",
    "C35_no_panic"
   ],
   "note": "For every order of messages, reports and failures."
  },
  {
   "property": "C36",
   "status": "partial",
   "theorems": [
    "C36_results_in_order",
    "C36_one_report",
    "C36_one_completion",
    "C36_failure_kills",
    "C36_kills_only_on_failure",
    "C36_outputs",
    "C36_unreadable_output_refuted",
    "C36_sandbox_failed",
    "C36_sandbox_ran",
    "C36_with_status"
   ],
   "note": "Proved for failures of the sandbox, of the program and of the capture of its streams; an execution that fails because its output cannot be read does not kill the others (refuted)."
  },
  {
   "property": "C37",
   "status": "proved",
   "theorems": [
    "C37_stop",
    "C37_only_cause",
    "C37_closed",
    "C37_stop_after_end_refuted",
    "C37_stop_before_start_refuted"
   ],
   "note": "Exact characterisation; two findings: sandboxes that already ended are signalled again, and a stop during the transfer of the inputs is ignored."
  },
  {
   "property": "C38",
   "status": "partial",
   "theorems": [
    "C38_packets_partial",
    "C38_client_thread",
    "C38_binder",
    "C38_worker_thread",
    "C38_manager",
    "C38_client_connection_refuted",
    "C38_worker_connection_refuted",
    "C38_upload_refuted"
   ],
   "note": "Proved if a message and the file that follows it are not interleaved with another writer, and that each writer writes whole packets; nothing in the code keeps them together, and the three connections with two writers are refuted with concrete interleavings."
  },
  {
   "property": "C39",
   "status": "partial",
   "theorems": [
    "C39_scores_partial",
    "C39_when",
    "C39_at_the_last_testcase",
    "C39_any_order",
    "C39_no_panic",
    "C39_nan_refuted",
    "C39_hash_order_refuted",
    "C39_no_subtasks_refuted",
    "C39_info"
   ],
   "note": "Proved over real f64 arithmetic (IEEE binary64) for tasks with at least one subtask and scores that are not NaN. Refuted: NaN panics, the total depends on the iteration order of a hash map in its last bits, no total without subtasks."
  },
  {
   "property": "C40",
   "status": "proved",
   "theorems": [
    "C40_min",
    "C40_sum",
    "C40_empty",
    "C40_bounds",
    "C40_monotone",
    "C40_unchecked_refuted"
   ],
   "note": "Over IEEE binary64; the mean up to (n+2)/2^53; bounds and monotonicity are exact. Scores outside [0,1] are not rejected by the code (C40_unchecked_refuted), which the property assumes away."
  },
  {
   "property": "C41",
   "status": "proved",
   "theorems": [
    "C41_worst",
    "C41_total",
    "C41_meaning",
    "C41_failed_manager",
    "C41_manager_message",
    "C41_extra",
    "C41_bad_manager"
   ],
   "note": "For scores that are not NaN."
  },
  {
   "property": "C42",
   "status": "proved",
   "theorems": [
    "C42_closure",
    "C42_result",
    "C42_order",
    "C42_gen",
    "C42_gen_total",
    "C42_cases",
    "C42_example"
   ],
   "note": "For every graph of dependencies and every order of the passes; C42_gen, C42_cases: what gen/GEN and gen/cases.gen give meets the hypotheses."
  },
  {
   "property": "C43",
   "status": "partial",
   "theorems": [
    "C43_lines",
    "C43_file",
    "C43_accepted",
    "C43_task",
    "C43_unique",
    "C43_names",
    "C43_example",
    "C43_example_rejected",
    "C43_normalized_refuted"
   ],
   "note": "The accepted files are characterised exactly, from characters to subtasks; refuted corner: a dependency on a name that normalization changes is not found. The Unicode tables are parameters."
  },
  {
   "property": "C44",
   "status": "partial",
   "theorems": [
    "C44_chain",
    "C44_parse",
    "C44_enforced",
    "C44_satisfied",
    "C44_no_blanks_refuted",
    "C44_late_refuted"
   ],
   "note": "In an accepted file no constraint in force where a testcase is written is violated by it, and it is satisfied if it can be evaluated. Refuted: an operator without blanks becomes part of the name of the variable; a constraint after a testcase of its subtask does not apply to it."
  },
  {
   "property": "C45",
   "status": "partial",
   "theorems": [
    "C45_lines",
    "C45_file",
    "C45_accepted",
    "C45_task",
    "C45_unique",
    "C45_names",
    "C45_example",
    "C45_example_rejected",
    "C45_blank_line_refuted",
    "C45_copy_comment_refuted"
   ],
   "note": "The accepted files are characterised exactly, from characters to subtasks; refuted corners: a line of blanks is a testcase; the blanks before a comment are part of a path. shell_words::split is a parameter; it is modelled in C106."
  },
  {
   "property": "C46",
   "status": "partial",
   "theorems": [
    "C46_load",
    "C46_dry_run",
    "C46_clean",
    "C46_static_inputs_kept",
    "C46_static_outputs_kept_partial",
    "C46_static_outputs_refuted",
    "C46_failed_load_writes"
   ],
   "note": "Cleaning a task with static inputs and static outputs deletes the outputs (refuted); kept if the input is generated."
  },
  {
   "property": "C47",
   "status": "proved",
   "theorems": [
    "C47_check",
    "C47_documented"
   ],
   "note": "With no outcomes only the check accepted holds; also equal to the documented meaning of each check."
  },
  {
   "property": "C48",
   "status": "proved",
   "theorems": [
    "C48_total",
    "C48_holds",
    "C48_first",
    "C48_order"
   ],
   "note": "For every list of outcomes, the empty one included."
  },
  {
   "property": "C49",
   "status": "partial",
   "theorems": [
    "C49_round_trip",
    "C49_only_names",
    "C49_checks",
    "C49_warned",
    "C49_lines",
    "C49_recognised_partial",
    "C49_wall_time_refuted"
   ],
   "note": "Proved for all names but wall-time-limit-exceeded, which the tool prints but the parser of sources does not recognise (refuted)."
  },
  {
   "property": "C50",
   "status": "proved",
   "theorems": [
    "C50_status",
    "C50_zero",
    "C50_odd"
   ],
   "note": "Over IEEE binary64, with the maximum 1.0 used for testcases (any maximum above 0.002); the threshold is the f64 literal 0.001."
  },
  {
   "property": "C51",
   "status": "proved",
   "theorems": [
    "C51_warned",
    "C51_message",
    "C51_client",
    "C51_example",
    "C51_client_example"
   ],
   "note": "For all contents, cuts and interleavings of the files; C51_client: with the deliveries of the client model."
  },
  {
   "property": "C52",
   "status": "partial",
   "theorems": [
    "C52_lines",
    "C52_write",
    "C52_shebang_refuted",
    "C52_carriage_refuted",
    "C52_empty_rule_refuted"
   ],
   "note": "Proved for every file; refuted corners: a file with only a shebang line that has a check panics, carriage returns are lost, rules without subtasks are not removed."
  },
  {
   "property": "C53",
   "status": "partial",
   "theorems": [
    "C53_list",
    "C53_mode",
    "C53_never_from_cache",
    "C53_not_looked_up",
    "C53_other_executions_refuted",
    "C53_empty_list_rejected",
    "C53_example"
   ],
   "note": "Refuted part: in a group only the tag of the first execution counts."
  },
  {
   "property": "C54",
   "status": "partial",
   "theorems": [
    "C54_cpu_exact",
    "C54_wall_exact",
    "C54_cpu_covers_partial",
    "C54_wall_covers_partial",
    "C54_allowance_refuted",
    "C54_infinite",
    "C54_no_limit",
    "C54_memory",
    "C54_memory_reported",
    "C54_stack",
    "C54_memory_overflow_refuted",
    "C54_wall_kill_reported",
    "C54_cpu_kill_reported",
    "C54_kill_reported_refuted",
    "C54_example"
   ],
   "note": "Exact for times on a binary grid; for all times the request is covered and the allowance up to the f64 error (refuted exactly: a tiny allowance vanishes). Memory exact unless the u64 product wraps (refuted). A process killed for its system time when only the user time is limited is reported as killed by a signal (refuted)."
  },
  {
   "property": "C55",
   "status": "partial",
   "theorems": [
    "C55_no_panic",
    "C55_local",
    "C55_local_generation",
    "C55_batch",
    "C55_outcome_unique",
    "C55_final",
    "C55_accepted",
    "C55_communication",
    "C55_communication_failed",
    "C55_generation",
    "C55_generation_failed",
    "C55_generation_solved",
    "C55_checks",
    "C55_checks_total",
    "C55_subtask_score",
    "C55_task_score",
    "C55_compilation",
    "C55_solutions",
    "C55_booklet",
    "C55_booklet_step",
    "C55_communication_outcome_refuted",
    "C55_communication_check_refuted",
    "C55_any_order_refuted",
    "C55_other_validator_refuted",
    "C55_generation_skip_refuted"
   ],
   "note": "Proved for every interleaving of the messages of an evaluation (batch tasks in full, generation, checks); refuted: in communication tasks the outcome shown is that of the process heard last (the score is right), so a check on the time limit can fail although a process exceeded it; the state itself accepts messages in an order that turns a failure into a success."
  },
  {
   "property": "C56",
   "status": "partial",
   "theorems": [
    "C56_errors_are_real_partial",
    "C56_cycle_error_without_cycle_refuted"
   ],
   "note": "every error names an actual defect, but CycleDetected may be reported for a group that only depends on a missing file further up (refuted)."
  },
  {
   "property": "C57",
   "status": "partial",
   "theorems": [
    "C57_isolated",
    "C57_unknown",
    "C57_in_order",
    "C57_first_done",
    "C57_done_once",
    "C57_second_done_refuted"
   ],
   "note": "Proved for all message sequences; a second Done (the scheduler can send it, C13) lists only the files since the first."
  },
  {
   "property": "C58",
   "status": "partial",
   "theorems": [
    "C58_validated",
    "C58_file_ready",
    "C58_provided",
    "C58_invalid",
    "C58_told_left",
    "C58_nothing_after_left",
    "C58_local_exit",
    "C58_lost_client_refuted",
    "C58_stop_refuted"
   ],
   "note": "Proved for every run; the departure is told whenever the thread ends without an error. Refuted when a send to the client fails or a file arrives after Stop: the scheduler or the executor are not told."
  },
  {
   "property": "C59",
   "status": "partial",
   "theorems": [
    "C59_result",
    "C59_waits",
    "C59_end",
    "C59_no_result_lost",
    "C59_upload",
    "C59_lost_worker_refuted"
   ],
   "note": "Proved for every run; a worker lost during the upload of the outputs is never reported (refuted)."
  },
  {
   "property": "C60",
   "status": "partial",
   "theorems": [
    "C60_right_worker",
    "C60_forwarded",
    "C60_runs",
    "C60_broken_connection_refuted"
   ],
   "note": "Proved for working connections; one broken connection makes the manager fail for all workers (refuted)."
  },
  {
   "property": "C61",
   "status": "partial",
   "theorems": [
    "C61_once",
    "C61_white_diff",
    "C61_custom_refuted",
    "C61_diff_refuted"
   ],
   "note": "Proved for the built-in checker when diff ends with 0 or 1; refuted for failing custom checkers and for a killed diff."
  },
  {
   "property": "C62",
   "status": "partial",
   "theorems": [
    "C62_read_back_partial",
    "C62_idempotent",
    "C62_left_alone",
    "C62_wall_time_refuted"
   ],
   "note": "Proved for subtask names without white space and @, and if no subtask gets the check for the wall time limit, which is written but not read back (refuted)."
  },
  {
   "property": "C63",
   "status": "partial",
   "theorems": [
    "C63_not_dropped_partial",
    "C63_dropped",
    "C63_two_rules_refuted"
   ],
   "note": "Exactly the sources in which a rule is followed by another mark on the same line are dropped (refuted)."
  },
  {
   "property": "C64",
   "status": "proved",
   "theorems": [
    "C64_static"
   ],
   "note": ""
  },
  {
   "property": "C65",
   "status": "partial",
   "theorems": [
    "C65_mounts",
    "C65_writable",
    "C65_once",
    "C65_refused",
    "C65_settings",
    "C65_environment",
    "C65_streams",
    "C65_redirect",
    "C65_redirect_refuted",
    "C65_captured_refuted",
    "C65_example"
   ],
   "note": "Refuted part: the captured output of an execution whose output is redirected to a pipe is looked for elsewhere; a redirection to a relative path that is not a pipe goes to /box of the machine, outside of the sandbox."
  },
  {
   "property": "C66",
   "status": "partial",
   "theorems": [
    "C66_inside",
    "C66_inside_refuted",
    "C66_inputs",
    "C66_stdin",
    "C66_outputs",
    "C66_fails",
    "C66_no_clash",
    "C66_mode",
    "C66_mode_refuted",
    "C66_read_only",
    "C66_example"
   ],
   "note": "Refuted parts: an absolute name escapes from the directory; hard links share the mode, so another sandbox can make a program not executable."
  },
  {
   "property": "C67",
   "status": "partial",
   "theorems": [
    "C67_no_panic",
    "C67_total",
    "C67_accepted",
    "C67_roles",
    "C67_compile_once",
    "C67_testcase",
    "C67_other",
    "C67_dry_run",
    "C67_memory_refuted",
    "C67_missing_testcase_refuted",
    "C67_new_limits",
    "C67_change_limits",
    "C67_config",
    "C67_join",
    "C67_fifos"
   ],
   "note": "For all tasks; what each execution is is spelled out in BuildSpec.testcase_ok. Refuted parts: the memory limit in KiB wraps around (2^54 MiB is no memory); a subtask with an unknown testcase is a panic. Left out: booklets and sanity checks, rounding of 1.5 times a limit, the contents of the languages (parameters)."
  },
  {
   "property": "C68",
   "status": "partial",
   "theorems": [
    "C68_terminates",
    "C68_once",
    "C68_cpp_sound",
    "C68_python_sound",
    "C68_cpp_closed",
    "C68_python_closed",
    "C68_cpp_flat",
    "C68_python_flat",
    "C68_includes",
    "C68_no_include",
    "C68_lines",
    "C68_import_line",
    "C68_from_line",
    "C68_no_import",
    "C68_subdirectory_refuted",
    "C68_same_text_refuted",
    "C68_relative_refuted",
    "C68_text_refuted",
    "C68_join"
   ],
   "note": "Refuted parts: an include of a header of a subdirectory is put where the compiler does not look for it, or dropped when the text of the include was already used; includes of a source given by a relative path are not found; '# include', 'import a as b' and comments hide a dependency. ASCII only."
  },
  {
   "property": "C69",
   "status": "partial",
   "theorems": [
    "C69_detect",
    "C69_one_language",
    "C69_name",
    "C69_compilation",
    "C69_grader",
    "C69_run_partial",
    "C69_run_refuted",
    "C69_libm_refuted"
   ],
   "note": "Refuted parts: in JavaScript and C# the arguments come before the program; -lm comes before the sources in C. ASCII only."
  },
  {
   "property": "C70",
   "status": "proved",
   "theorems": [
    "C70_no_panic",
    "C70_total",
    "C70_accepted",
    "C70_roles",
    "C70_compile_once",
    "C70_solution",
    "C70_official_name",
    "C70_dry_run"
   ],
   "note": "For all tasks whose source files have handles of their own; what each execution is is spelled out in TerrySpec.terry_solution_ok. Left out: the FuzzChecker sanity check (it adds executions), the contents of the languages (parameters)."
  },
  {
   "property": "C71",
   "status": "partial",
   "theorems": [
    "C71_no_panic",
    "C71_solutions",
    "C71_local",
    "C71_solution",
    "C71_status_unique",
    "C71_failed",
    "C71_done",
    "C71_summary",
    "C71_summary_order",
    "C71_floor",
    "C71_marks",
    "C71_checker_failed_refuted",
    "C71_status_refuted",
    "C71_cases_refuted"
   ],
   "note": "Refuted parts: a checker that fails after it printed a score is shown with that score; the status (not the summary) of a solution that does not compile depends on the schedule; cases without feedback are dropped and a score just below the maximum is green. The JSON parser is a parameter."
  },
  {
   "property": "C72",
   "status": "partial",
   "theorems": [
    "C72_solutions",
    "C72_grader_not_solution",
    "C72_terry_solutions",
    "C72_named_solutions",
    "C72_listing_order",
    "C72_programs",
    "C72_terry_managers",
    "C72_executable_not_source",
    "C72_clean",
    "C72_clean_managers",
    "C72_second_grader_refuted",
    "C72_filter_panic_refuted",
    "C72_special_directory_refuted",
    "C72_named_refuted",
    "C72_executable_refuted",
    "C72_clean_refuted",
    "C72_clean_panic_refuted"
   ],
   "note": "Proved for all directories whose path has none of the characters of a pattern. Refuted parts: with two graders for a language one is evaluated; the path of the task is read as a glob pattern (a panic, or the files of another task); a filter such as '..' is a panic; a missing solution named by the user is dropped silently; checker.py.cpp is compiled to checker.py and then refused; clean removes managers/checker.test.py and hidden files. The crate glob is modelled from its documentation. ASCII only."
  },
  {
   "property": "C73",
   "status": "partial",
   "theorems": [
    "C73_batch",
    "C73_template",
    "C73_batches_disjoint",
    "C73_files",
    "C73_outputs",
    "C73_destinations",
    "C73_executions",
    "C73_accepted",
    "C73_communication_refuted",
    "C73_same_seed_refuted"
   ],
   "note": "Proved for IOI tasks, while the numbers of the testcases fit in 32 bits. Refuted parts: a communication task with a number of processes other than one is always refused; two testcases with the same random seed share their files. The names that the executions get are computed from the messages they are bound to."
  },
  {
   "property": "C74",
   "status": "partial",
   "theorems": [
    "C74_numbered",
    "C74_found",
    "C74_errored",
    "C74_last_batch",
    "C74_prompt",
    "C74_stop",
    "C74_told",
    "C74_reason",
    "C74_progress",
    "C74_ends",
    "C74_shown",
    "C74_shown_batches",
    "C74_copied",
    "C74_printed",
    "C74_late_refuted",
    "C74_late_panic_refuted",
    "C74_early_refuted",
    "C74_empty_refuted",
    "C74_printed_refuted"
   ],
   "note": "Refuted parts: if the UI thread is late a bad case of an earlier batch is lost ('No bad case found') and a failed generator of an earlier batch is a panic; a ctrl-c before an evaluation starts does not stop that evaluation; with batches of size 0 the search does not end; a file with a multi-byte character across byte 256 makes the report panic. If the UI is never late the property is proved (C74_prompt)."
  },
  {
   "property": "C75",
   "status": "partial",
   "theorems": [
    "C75_missing_names",
    "C75_invalid_names",
    "C75_deprecated",
    "C75_no_checks",
    "C75_max_score_partial",
    "C75_max_score_order_refuted",
    "C75_same",
    "C75_same_meaning",
    "C75_same_complete_partial",
    "C75_order",
    "C75_iteration_order",
    "C75_same_complete_refuted",
    "C75_same_group_refuted",
    "C75_same_set_refuted"
   ],
   "note": "The total is proved for integer scores; with decimal scores it is refuted (the verdict depends on the iteration order). The groups are proved complete if every solution has a check about every subtask; otherwise refuted: two subtasks that no solution tells apart may be in no group, and a group may contain two subtasks that a solution tells apart."
  },
  {
   "property": "C76",
   "status": "partial",
   "theorems": [
    "C76_killed",
    "C76_warned",
    "C76_client",
    "C76_never_killed_refuted"
   ],
   "note": "Proved if the hash has no collisions on the outputs of the task. Refuted part: if all the outputs of a subtask with two testcases are empty the check panics."
  },
  {
   "property": "C77",
   "status": "partial",
   "theorems": [
    "C77_no_endless",
    "C77_end_partial",
    "C77_calm",
    "C77_ctrl_c",
    "C77_ui",
    "C77_threads",
    "C77_failure",
    "C77_failed_refuted",
    "C77_panic_refuted",
    "C77_callback_refuted",
    "C77_early_ctrl_c_refuted",
    "C77_files_ctrl_c_refuted",
    "C77_error_refuted"
   ],
   "note": "Proved for all schedules of the main thread, the poller, the client manager, the scheduler, the scheduler binder, the worker manager, the workers and the UI, for any number of workers, jobs and files, that nothing loops and that a run in which no thread can move has ended, except in the four cases of C77_end_partial. The case of the scheduler that does not assign is excluded by C10, in another model. Refuted parts: a local run whose evaluation fails never ends (the ctrl-c handler keeps a sender of the channel that the client manager waits for); ctrl-c before the evaluation is sent, or while the input files are sent, makes the client manager panic and the run never ends; a DAG refused by the server gives success, error or panic depending on the schedule. The scheduler and the sandbox are abstract: any messages, jobs that end."
  },
  {
   "property": "C78",
   "status": "proved",
   "theorems": [
    "C78_skip",
    "C78_names",
    "C78_one_word",
    "C78_bad_case",
    "C78_help",
    "C78_run",
    "C78_run_error",
    "C78_reports",
    "C78_case_refuted"
   ],
   "note": "For any order of the inventory of registered checks. The words of -W are compared with case (C78_case_refuted shows that another case skips nothing). What each check does is in C69-C76, C79, C80."
  },
  {
   "property": "C79",
   "status": "partial",
   "theorems": [
    "C79_pairs",
    "C79_reported",
    "C79_clean",
    "C79_links",
    "C79_missing",
    "C79_linked",
    "C79_unnumbered_refuted",
    "C79_itself_refuted",
    "C79_renamed_refuted"
   ],
   "note": "Proved for every tree and every iteration order of the hash maps. Refuted parts: a sample without a number (or with a number over 32 bits) is silently not checked; a file named input_output3.txt is its own output; a sample whose link leads to a file of the task not called input is reported as missing. The executions that AttSampleFilesValid adds are not modelled."
  },
  {
   "property": "C80",
   "status": "partial",
   "theorems": [
    "C80_graders",
    "C80_templates",
    "C80_template_links",
    "C80_no_check",
    "C80_new_line",
    "C80_new_line_fails",
    "C80_directories",
    "C80_broken",
    "C80_bits",
    "C80_bits_refuted",
    "C80_grader_ext_refuted",
    "C80_binary_refuted",
    "C80_binary_chunks_refuted",
    "C80_hidden_refuted",
    "C80_cwd_refuted"
   ],
   "note": "Proved exactly (both directions) for each check. Refuted parts: grader.cc is not seen as a C++ grader by the check although the task uses it; a binary attachment is reported unless its last byte is NUL; a directory in att/ makes AttEndWithNewLine fail, a broken link makes AttNoDirectory fail, and the other findings are lost; bits/stdc++.h is looked for at paths relative to the current directory; an include that is on two lines makes that check, and with it the evaluation, fail. The walk of the directory (list_files with **) is a parameter."
  },
  {
   "property": "C81",
   "status": "partial",
   "theorems": [
    "C81_task",
    "C81_task_fails",
    "C81_task_dests",
    "C81_contest",
    "C81_contest_fails",
    "C81_once",
    "C81_twice_refuted",
    "C81_summary_refuted",
    "C81_parent",
    "C81_file_name"
   ],
   "note": "Proved for every tree, task list and hash-map order. Refuted parts: a task with the same language in statement/ and testo/ is twice in the booklet of the contest; the summary is shown only for the exact word True. serde_yaml is not modelled."
  },
  {
   "property": "C82",
   "status": "partial",
   "theorems": [
    "C82_statement",
    "C82_no_load",
    "C82_unchanged",
    "C82_packages",
    "C82_booklet",
    "C82_order",
    "C82_comment_refuted",
    "C82_escape_refuted",
    "C82_order_refuted",
    "C82_multiline_refuted",
    "C82_intro_refuted",
    "C82_texts"
   ],
   "note": "Proved for every text. Refuted parts: a package that the author has commented out is loaded; after a backslash the inserted percent sign does not comment; the packages are sorted, not in the author's order; a command over more lines is cut; the introduction is looked for in the current directory and silently dropped when it cannot be read. ASCII only."
  },
  {
   "property": "C83",
   "status": "partial",
   "theorems": [
    "C83_deps",
    "C83_deps_fails",
    "C83_figure",
    "C83_figure_fails",
    "C83_sandbox",
    "C83_exact",
    "C83_template",
    "C83_statement",
    "C83_shadow_refuted",
    "C83_gen_refuted",
    "C83_name_refuted",
    "C83_link_refuted",
    "C83_asy_refuted",
    "C83_show",
    "C83_relative",
    "C83_extension"
   ],
   "note": "Proved for every tree. Refuted parts: two files at the same path of the sandbox replace each other (a source called statement.tex is used raw in the place of the generated one; gen/GEN replaces statement/GEN; tasks with the same name; tm-compilation.asy); a broken link next to a used figure makes the booklet fail. The recursive glob is a parameter."
  },
  {
   "property": "C84",
   "status": "partial",
   "theorems": [
    "C84_sound",
    "C84_complete",
    "C84_sorted",
    "C84_warning",
    "C84_number",
    "C84_note",
    "C84_hidden_refuted",
    "C84_last_refuted"
   ],
   "note": "Soundness for every output; completeness when each error has its place before the next error. Refuted without that: an error without a place hides the next one and takes its place; a last error without a place is not reported. The regex is modelled as an automaton on the lines, ASCII only."
  },
  {
   "property": "C85",
   "status": "proved",
   "theorems": [
    "C85_new",
    "C85_ois",
    "C85_oii",
    "C85_ois_unique",
    "C85_oii_unique",
    "C85_extract",
    "C85_silent",
    "C85_reported",
    "C85_at_most_two",
    "C85_points",
    "C85_numbering",
    "C85_hook"
   ],
   "note": "For every text: the three regular expressions are run by a backtracking matcher (RegexModel) and proved to pick, line by line, the last well formed occurrence; then the comparison is characterised by iff. For the first format the text of each \\phantom must be closed in its line (the expression can otherwise take more lines: C85_ex_phantom). A subtask in a comment counts and two \\subtask in a line count once (C85_ex_new): the property says lines. ASCII text; numbers below 2^32 - 1."
  },
  {
   "property": "C86",
   "status": "proved",
   "theorems": [
    "C86_valid",
    "C86_missing",
    "C86_help",
    "C86_invalid",
    "C86_broken",
    "C86_one",
    "C86_compiled",
    "C86_git",
    "C86_no_git"
   ],
   "note": "Each hook is characterised by iff over the disk as seen by exists, read_link, open, canonicalize and the output of git ls-files -z. When the file exists but cannot be opened the hook fails and nothing is reported."
  },
  {
   "property": "C87",
   "status": "partial",
   "theorems": [
    "C87_written",
    "C87_readable",
    "C87_back",
    "C87_plain",
    "C87_hypotheses_met",
    "C87_example",
    "C87_same_task_refuted",
    "C87_always_readable_refuted",
    "C87_arguments_refuted"
   ],
   "note": "Proved for all files: when the written gen/GEN can be read (iff) and what is read. Refuted as a full round trip: dependencies and validators are not written, the name of the generator becomes its first argument, a score like 12.5 or a path with a blank makes a file that cannot be read, an argument with a blank is read as two."
  },
  {
   "property": "C88",
   "status": "partial",
   "theorems": [
    "C88_replies",
    "C88_handed",
    "C88_order",
    "C88_reply_first",
    "C88_ending",
    "C88_session",
    "C88_no_reply",
    "C88_silent_refuted",
    "C88_worker_id_refuted",
    "C88_address",
    "C88_password",
    "C88_path",
    "C88_bare",
    "C88_host_port_refuted",
    "C88_attempts"
   ],
   "note": "Everything that is stated is proved for all connections and addresses; partial because four clauses of the English property are false of the code: a silent connection blocks the later ones, the id of a worker is not sent, a password with other characters is used percent-encoded, host:port without tcp:// is refused for hosts that look like a scheme. The url crate is modelled from its documentation."
  },
  {
   "property": "C89",
   "status": "partial",
   "theorems": [
    "C89_no_panic",
    "C89_gap_refuted",
    "C89_generations",
    "C89_summary",
    "C89_letters",
    "C89_lines",
    "C89_messages",
    "C89_checks",
    "C89_cache_refuted",
    "C89_example"
   ],
   "note": "Everything that is stated is proved for all sequences of messages; partial because two clauses of the English property are false of the code: a testcase that has never been executed is said to come from the cache, and if all the subtasks have a name but their numbers have a gap the program panics before the summary. Compilations, booklets, diagnostics, the information about the task and the widths of the scores are not modelled."
  },
  {
   "property": "C90",
   "status": "partial",
   "theorems": [
    "C90_corpus",
    "C90_empty_output_refuted",
    "C90_failures",
    "C90_stale_refuted",
    "C90_short_refuted",
    "C90_readme_refuted",
    "C90_count",
    "C90_shared_refuted",
    "C90_hypotheses_met"
   ],
   "note": "Corpus and failures proved for all contents, names and orders. Partial because clauses of the English property are false of the code: with an empty output the checker is not called, the failures of an earlier run stay if none is found, an artifact of less than four bytes makes the tool fail, the README names a file that is there only for crashes, and a testcase that is in two subtasks is counted twice, which makes the tool fail. Patching, sanity checks and compilation are not modelled."
  },
  {
   "property": "C91",
   "status": "partial",
   "theorems": [
    "C91_found",
    "C91_ambiguous",
    "C91_none",
    "C91_depth_refuted",
    "C91_depth_example",
    "C91_dotdot_refuted",
    "C91_broken_refuted"
   ],
   "note": "The result is proved for all file systems, depths and starting directories without .. (the three cases cover everything). Partial because clauses of the English property are false of the code: the last of the parents is not looked at, from a path that ends with .. the search looks in the current directory instead of above, and a directory whose task cannot be read is skipped for a task above it."
  },
  {
   "property": "C92",
   "status": "partial",
   "theorems": [
    "C92_made",
    "C92_where",
    "C92_text",
    "C92_shown",
    "C92_aligned",
    "C92_aligned_refuted",
    "C92_example"
   ],
   "note": "Proved for all contents, offsets and lengths: when a span can be made, its line, number and text (asking for the text panics exactly when the span is not made of whole characters). Partial because the clause on the carets is false of the code for lines with characters of more than one byte before the end of the span (bytes are counted): proved for the other lines. Sums of offsets do not overflow."
  },
  {
   "property": "C93",
   "status": "partial",
   "theorems": [
    "C93_lines",
    "C93_printed",
    "C93_empty_note_refuted",
    "C93_example"
   ],
   "note": "Proved for all diagnostics whose message and help are one line and whose note is not empty. Partial because with an empty note the next part is printed on the line of the note. Colors are not modelled; the attachment is taken after the lossy decoding."
  },
  {
   "property": "C94",
   "status": "partial",
   "theorems": [
    "C94_recognised",
    "C94_others",
    "C94_validated",
    "C94_short_refuted",
    "C94_universal_refuted",
    "C94_example"
   ],
   "note": "Which files are recognised, and as what, proved for all contents (both directions). Partial because clauses of the English property are false of the code: a file of less than five bytes without a header is an error of reading instead of not being an executable, and the universal binaries of macOS are not recognised (the table has their header with the bytes in the wrong order)."
  },
  {
   "property": "C95",
   "status": "partial",
   "theorems": [
    "C95_tried",
    "C95_four",
    "C95_reported",
    "C95_faithful",
    "C95_any_order",
    "C95_same_verdict_refuted",
    "C95_bad_output",
    "C95_bad_total",
    "C95_once_refuted"
   ],
   "note": "Proved for all tasks, results and orders. Partial because one clause is false of the code: the testcase on which the checker is tried is the first of a hash map, so two runs of the same task with a deterministic checker may differ (one error or none). A Terry checker that crashes before printing is reported twice. The parsers are parameters."
  },
  {
   "property": "C96",
   "status": "partial",
   "theorems": [
    "C96_yaml",
    "C96_orig",
    "C96_task",
    "C96_written",
    "C96_reload",
    "C96_unknown",
    "C96_aliases",
    "C96_code",
    "C96_codes",
    "C96_listed",
    "C96_parameters",
    "C96_syntax_example",
    "C96_dependencies_refuted",
    "C96_same_content_refuted",
    "C96_name_refuted",
    "C96_dotdot_refuted"
   ],
   "note": "Reading characterised key by key (both directions) for all documents, and the round trip through the generated task.yaml proved for all tasks without dependencies between subtasks. Partial because clauses of the English property are false of the code: a task with dependencies cannot be loaded from the task.yaml generated for it, the default of infile and outfile differs between the two files (the doc comment says it is empty for both), the name written in task.yaml.orig is ignored, and with a task.yaml.orig in a directory named .. the program panics. The syntax of numbers in YAML is a parameter."
  },
  {
   "property": "C97",
   "status": "partial",
   "theorems": [
    "C97_panic",
    "C97_graph",
    "C97_two_fields",
    "C97_sorted",
    "C97_backslash_refuted",
    "C97_label_refuted"
   ],
   "note": "Proved by reading the rendered text with an independent DOT reader, for all DAGs with unique identifiers and no backslash in the texts. Partial because the escaping forgets the backslash: with it the file is malformed, or shows another text."
  },
  {
   "property": "C98",
   "status": "partial",
   "theorems": [
    "C98_subtasks",
    "C98_max_score_partial",
    "C98_statements",
    "C98_statements_count",
    "C98_attachments",
    "C98_no_attachments",
    "C98_copy",
    "C98_each",
    "C98_copy_works",
    "C98_run",
    "C98_max_score_refuted",
    "C98_directory_refuted",
    "C98_renamed_refuted",
    "C98_base_name_refuted",
    "C98_stale_refuted"
   ],
   "note": "Proved for all tasks, file systems and orders. Partial because clauses of the English property are false of the code (see the _refuted theorems); the sum of the scores is proved for integer scores. JSON output, mime types and the loading and evaluation of the tasks are parameters."
  },
  {
   "property": "C99",
   "status": "partial",
   "theorems": [
    "C99_run",
    "C99_config",
    "C99_exclusive",
    "C99_clean",
    "C99_rejected",
    "C99_where",
    "C99_dry_run_partial",
    "C99_dry_run_refuted",
    "C99_dry_run_clean_refuted",
    "C99_extra_time_refuted",
    "C99_store_size_refuted",
    "C99_no_worker_refuted",
    "C99_ui_names",
    "C99_verbose",
    "C99_exit"
   ],
   "note": "Proved for all options, machines and outcomes. Partial because clauses are false of the code (see the _refuted theorems). The parsing of the command line (clap) is not modelled; what the evaluation itself writes under --dry-run is C32_dry_run, C46_dry_run, C67_dry_run and C70_dry_run."
  }
 ]
}