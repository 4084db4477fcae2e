{
 "claims": [
  {
   "property": "C01",
   "status": "proved",
   "theorems": [
    "C01_at_most_once",
    "C01_node_lookup",
    "C01_of_task_set",
    "C01_recorded_once"
   ],
   "note": ""
  },
  {
   "property": "C02",
   "status": "proved",
   "theorems": [
    "C02_of_task_set",
    "C02_run_after_order",
    "C02_transitive_order"
   ],
   "note": ""
  },
  {
   "property": "C03",
   "status": "proved",
   "theorems": [
    "C03_of_task_set",
    "C03_resource_exclusion",
    "C03_running_meaning"
   ],
   "note": ""
  },
  {
   "property": "C04",
   "status": "proved",
   "theorems": [
    "C04_concurrency_bound",
    "C04_deferred_inside_tick"
   ],
   "note": ""
  },
  {
   "property": "C05",
   "status": "proved",
   "theorems": [
    "C05_failed_blocks_dependants",
    "C05_of_task_set"
   ],
   "note": ""
  },
  {
   "property": "C06",
   "status": "proved",
   "theorems": [
    "C06_ended",
    "C06_status_decision"
   ],
   "note": ""
  },
  {
   "property": "C07",
   "status": "proved",
   "theorems": [
    "C07_executed_iff_status",
    "C07_not_executed_when_blocked"
   ],
   "note": ""
  },
  {
   "property": "C08",
   "status": "proved",
   "theorems": [
    "C08_invalidation_flags",
    "C08_invalidation_observed"
   ],
   "note": ""
  },
  {
   "property": "C09",
   "status": "proved",
   "theorems": [
    "C09_all_asked",
    "C09_answer_follows",
    "C09_answer_reported",
    "C09_asked_before_jobs",
    "C09_asked_once",
    "C09_throw_last",
    "C09_throw_no_job",
    "C09_throw_result"
   ],
   "note": ""
  },
  {
   "property": "C10",
   "status": "proved",
   "theorems": [
    "C10_cycle_detected_iff",
    "C10_cycle_thrown",
    "C10_of_task_set"
   ],
   "note": ""
  },
  {
   "property": "C11",
   "status": "proved",
   "theorems": [
    "C11_cycle_asks_nobody",
    "C11_cycle_never_runs",
    "C11_cycle_report",
    "C11_cycle_result_reported"
   ],
   "note": ""
  },
  {
   "property": "C12",
   "status": "proved",
   "theorems": [
    "C12_no_assertion_fails",
    "C12_no_deadlock",
    "C12_no_null_job_needed"
   ],
   "note": ""
  },
  {
   "property": "C13",
   "status": "proved",
   "theorems": [
    "C13_enough_ticks",
    "C13_moves_bounded",
    "C13_no_infinite_execution",
    "C13_one_thread",
    "C13_ticks_bounded",
    "C13_ticks_sharp"
   ],
   "note": ""
  },
  {
   "property": "C14",
   "status": "proved",
   "theorems": [
    "C14_result_accounts",
    "C14_shown_record_accounts"
   ],
   "note": ""
  },
  {
   "property": "C15",
   "status": "proved",
   "theorems": [
    "C15_record_order"
   ],
   "note": ""
  },
  {
   "property": "C16",
   "status": "proved",
   "theorems": [
    "C16_same_outcome"
   ],
   "note": ""
  },
  {
   "property": "C17",
   "status": "proved",
   "theorems": [
    "C17_defined",
    "C17_exec_undefined",
    "C17_selects_exactly",
    "C17_undefined",
    "C17_well_formed"
   ],
   "note": ""
  },
  {
   "property": "C18",
   "status": "proved",
   "theorems": [
    "C18_edges_declared",
    "C18_requires_inval_by",
    "C18_requires_runs_after"
   ],
   "note": ""
  },
  {
   "property": "C19",
   "status": "proved",
   "theorems": [
    "C19_names_distinct",
    "C19_slash_ambiguous",
    "C19_visit_order"
   ],
   "note": ""
  },
  {
   "property": "C20",
   "status": "proved",
   "theorems": [
    "C20_add_dep_to_each",
    "C20_calls",
    "C20_for_each_add_dep",
    "C20_invalidated_by_all_of",
    "C20_run_after_all_of",
    "C20_run_each_after"
   ],
   "note": ""
  },
  {
   "property": "C21",
   "status": "partial",
   "theorems": [
    "C21_after_run_node_partial",
    "C21_alone_partial",
    "C21_exact",
    "C21_given_node_started",
    "C21_never_later",
    "C21_refuted",
    "C21_same_tick"
   ],
   "note": "Refuted for thread_count >= 2 (C21_refuted: run_coro's move assignment swaps only the coroutine handle, so after_run gets the node of another task). Proved for thread_count <= 1. For any thread count the cases are characterised exactly: the node is right iff no task begun before this one was recorded in a tick from the one it was begun in up to the last one before its own record (C21_exact); a task begun and recorded in one tick gets the right node (C21_same_tick); a wrong node always is one begun earlier (C21_never_later)."
  },
  {
   "property": "C22",
   "status": "proved",
   "theorems": [
    "C22_after_execution_last",
    "C22_finished_after_execution",
    "C22_protocol_complete",
    "C22_protocol_order"
   ],
   "note": ""
  },
  {
   "property": "C23",
   "status": "proved",
   "theorems": [
    "C23_exec_lazy",
    "C23_only_in_tick"
   ],
   "note": ""
  },
  {
   "property": "C24",
   "status": "partial",
   "theorems": [
    "C24_refuted",
    "C24_tick_after_end_undefined"
   ],
   "note": "Refuted: tick() after the end resumes a coroutine suspended at its final suspend point, undefined behaviour (C24_refuted, C24_tick_after_end_undefined: in every such state)."
  },
  {
   "property": "C25",
   "status": "proved",
   "theorems": [
    "C25_done_iff_result",
    "C25_result_stable",
    "C25_run_can_return",
    "C25_run_returns_result"
   ],
   "note": ""
  },
  {
   "property": "C26",
   "status": "proved",
   "theorems": [
    "C26_aborted_waits",
    "C26_destroyed_waits",
    "C26_no_new_work_after_destroy"
   ],
   "note": ""
  },
  {
   "property": "C27",
   "status": "partial",
   "theorems": [
    "C27_callable_throw",
    "C27_exactly",
    "C27_refuted",
    "C27_throwing_job_fails_partial"
   ],
   "note": "Proved for jobs whose run() throws. Refuted for callables that throw a std::exception: job_traits::run returns a run_result with an uninitialised retcode (C27_refuted). C27_exactly: such a task is recorded FAIL exactly if the value the uninitialised return code happens to have is not 0."
  },
  {
   "property": "C28",
   "status": "partial",
   "theorems": [
    "C28_check_partial",
    "C28_exactly",
    "C28_no_input",
    "C28_refuted"
   ],
   "note": "The exact rule of the check is C28_exactly (all files, all processes). The property's rule is proved when there is an input unless there is no output, inputs exist, and times are after the epoch if an output is missing (regular). Refuted in general: with outputs but no input the answer is inverted (C28_no_input, C28_refuted)."
  },
  {
   "property": "C29",
   "status": "partial",
   "theorems": [
    "C29_exactly",
    "C29_late_input_partial",
    "C29_missing_output_partial",
    "C29_refuted"
   ],
   "note": "Proved when there is an input and the existing outputs have times after the file clock's epoch, or one input is missing or dated at the epoch or later. Refuted for times before the epoch (all real times with libstdc++) and for processes without input (C29_refuted). C29_exactly says exactly when a missing output goes unnoticed."
  },
  {
   "property": "C30",
   "status": "proved",
   "theorems": [
    "C30_always_int",
    "C30_read",
    "C30_read_nothing",
    "C30_round_trip",
    "C30_unreadable"
   ],
   "note": ""
  },
  {
   "property": "C31",
   "status": "partial",
   "theorems": [
    "C31_refuted",
    "C31_retried_partial"
   ],
   "note": "Exact: a failed run is retried iff the program was started and waited for and the old retcode file could be removed, or the check notices the files the program left. Refuted as stated: when starting, draining, waiting or removing the old file fails the old file keeps its 0 (C31_refuted)."
  },
  {
   "property": "C32",
   "status": "proved",
   "theorems": [
    "C32_callable_recorded",
    "C32_process_result",
    "C32_recorded",
    "C32_returns",
    "C32_written"
   ],
   "note": ""
  },
  {
   "property": "C33",
   "status": "proved",
   "theorems": [
    "C33_completed",
    "C33_derive"
   ],
   "note": ""
  },
  {
   "property": "C34",
   "status": "partial",
   "theorems": [
    "C34_refuted",
    "C34_unambiguous_partial",
    "C34_unique_iff"
   ],
   "note": "Proved for commands without an argument ending in a backslash; refuted otherwise (C34_refuted). C34_unique_iff says exactly which commands are told from all others."
  },
  {
   "property": "C35",
   "status": "proved",
   "theorems": [
    "C35_runtime_sum"
   ],
   "note": ""
  },
  {
   "property": "C36",
   "status": "partial",
   "theorems": [
    "C36_defined_partial",
    "C36_refuted"
   ],
   "note": "Refuted: whenever no task is selected, both runtime_sum (dereferences end()) and the counter width (log10 of 0) are undefined (C36_refuted holds for every such execution). Proved: defined for every execution of at least one node."
  },
  {
   "property": "C37",
   "status": "partial",
   "theorems": [
    "C37_junit_counts_partial",
    "C37_numbers",
    "C37_refuted"
   ],
   "note": "Proved for records with at least one run and names, suite and times without quote, <, & and control characters (see C36, C38). Refuted in general: a name with quotes adds a testcase (C37_refuted)."
  },
  {
   "property": "C38",
   "status": "partial",
   "theorems": [
    "C38_names_iff",
    "C38_parses_partial",
    "C38_refuted"
   ],
   "note": "Refuted: attribute values are not escaped (C38_refuted: a quote breaks the document, &lt; is read back as <). C38_names_iff: the names come back exactly if they are plain text."
  },
  {
   "property": "C39",
   "status": "proved",
   "theorems": [
    "C39_nested"
   ],
   "note": ""
  },
  {
   "property": "C40",
   "status": "proved",
   "theorems": [
    "C40_name_column"
   ],
   "note": ""
  },
  {
   "property": "C41",
   "status": "proved",
   "theorems": [
    "C41_counter"
   ],
   "note": ""
  },
  {
   "property": "C42",
   "status": "proved",
   "theorems": [
    "C42_counters"
   ],
   "note": ""
  },
  {
   "property": "C43",
   "status": "partial",
   "theorems": [
    "C43_exactly",
    "C43_lists_all_edges",
    "C43_printed",
    "C43_refuted",
    "C43_runs_after_partial",
    "C43_task_sets"
   ],
   "note": "Refuted: the line lists the targets of all out edges, of every kind, so a dependency three times and a task that only invalidates as well (C43_refuted). Proved: exactly what is listed, and as a set for graphs where each edge has an AFTER edge beside it. C43_exactly: a line is right iff the node has no edges of another kind; C43_task_sets: so it is wrong for every task that depends on something."
  },
  {
   "property": "C44",
   "status": "proved",
   "theorems": [
    "C44_equality",
    "C44_match",
    "C44_null",
    "C44_roundtrip",
    "C44_words"
   ],
   "note": ""
  },
  {
   "property": "C45",
   "status": "proved",
   "theorems": [
    "C45_sequences"
   ],
   "note": ""
  },
  {
   "property": "C46",
   "status": "proved",
   "theorems": [
    "C46_clear_if",
    "C46_programs"
   ],
   "note": ""
  },
  {
   "property": "C47",
   "status": "proved",
   "theorems": [
    "C47_destroy",
    "C47_nothing_left"
   ],
   "note": ""
  },
  {
   "property": "C48",
   "status": "partial",
   "theorems": [
    "C48_moved_partial",
    "C48_refuted"
   ],
   "note": "Proved for move construction and for move assignment to an empty list. Refuted for assignment over a non-empty list (C48_refuted: its elements are neither freed nor in any list afterwards; C48_leak: they outlive both lists)."
  },
  {
   "property": "C49",
   "status": "partial",
   "theorems": [
    "C49_refuted"
   ],
   "note": "Refuted: back() dereferences the end iterator, which is null, for every list (C49_refuted)."
  },
  {
   "property": "C50",
   "status": "proved",
   "theorems": [
    "C50_hidden"
   ],
   "note": ""
  },
  {
   "property": "C51",
   "status": "partial",
   "theorems": [
    "C51_in_progress_exact",
    "C51_in_progress_partial",
    "C51_no_dangling_partial",
    "C51_refuted"
   ],
   "note": "Refuted with two threads (wrong node erased, see C21) and after an abandoned execution (dangling pointer dereferenced). Proved for thread_count <= 1, and for successive executions that all end; for any thread count the set is exactly the nodes given to before_run and not yet to after_run (C51_in_progress_exact)."
  },
  {
   "property": "C52",
   "status": "partial",
   "theorems": [
    "C52_exact",
    "C52_launch_requirements_partial",
    "C52_ordered_partial",
    "C52_refuted",
    "C52_unordered_refuted"
   ],
   "note": "Refuted for a requires edge without a run-after edge: C52_refuted, and C52_unordered_refuted for every graph in which nothing keeps the two tasks apart. C52_exact says for all graphs what is recorded of a task, by what was recorded when its before_run was called. The property is proved when the requirement is ordered, however indirectly (C52_ordered_partial)."
  },
  {
   "property": "C53",
   "status": "proved",
   "theorems": [
    "C53_running_between",
    "C53_time_stamps"
   ],
   "note": ""
  },
  {
   "property": "C54",
   "status": "partial",
   "theorems": [
    "C54_closed_defined_partial",
    "C54_closed_set_partial",
    "C54_exact",
    "C54_exact_execution",
    "C54_insertions_while_iterating",
    "C54_refuted",
    "C54_rehash_refuted",
    "C54_same_execution",
    "C54_same_graph"
   ],
   "note": "Refuted in general (C54_refuted, C54_rehash_refuted): insert_set inserts keys into the unordered_map it is iterating over, as many as there are selected tasks outside the set; beyond the capacity of the map that is undefined behaviour. C54_exact says exactly when the graph is built, C54_same_graph that it is then the graph of the model without growth; sets closed under depends_on are always fine."
  },
  {
   "property": "C55",
   "status": "proved",
   "theorems": [
    "C55_of_task_set",
    "C55_skip_closed",
    "C55_skip_closed_inval"
   ],
   "note": ""
  },
  {
   "property": "C56",
   "status": "proved",
   "theorems": [
    "C56_finishes",
    "C56_nothing_to_do"
   ],
   "note": ""
  },
  {
   "property": "C57",
   "status": "proved",
   "theorems": [
    "C57_free_at_end",
    "C57_resources_in_use",
    "C57_work_conserving"
   ],
   "note": ""
  },
  {
   "property": "C58",
   "status": "proved",
   "theorems": [
    "C58_deferred_ticks",
    "C58_descent_order",
    "C58_sequential_order"
   ],
   "note": ""
  },
  {
   "property": "C59",
   "status": "proved",
   "theorems": [
    "C59_all_destroyed",
    "C59_owned_once",
    "C59_queries"
   ],
   "note": ""
  },
  {
   "property": "C60",
   "status": "proved",
   "theorems": [
    "C60_add_dep_keeps_acyclic",
    "C60_add_dep_makes_cycle",
    "C60_calls"
   ],
   "note": ""
  },
  {
   "property": "C61",
   "status": "proved",
   "theorems": [
    "C61_json_chunk",
    "C61_json_exec",
    "C61_json_run",
    "C61_recoverable"
   ],
   "note": ""
  },
  {
   "property": "C62",
   "status": "partial",
   "theorems": [
    "C62_answers_decide",
    "C62_incremental_partial",
    "C62_refuted"
   ],
   "note": "Proved for processes and file states that are regular (see C28, whose rule is inverted for processes with outputs and no input: C62_refuted). For all files and processes C62_answers_decide says which tasks run."
  },
  {
   "property": "C63",
   "status": "proved",
   "theorems": [
    "C63_built_in_memory"
   ],
   "note": ""
  },
  {
   "property": "C64",
   "status": "proved",
   "theorems": [
    "C64_control_thread_in_job",
    "C64_tick_bounded",
    "C64_tick_never_waits",
    "C64_who_begins"
   ],
   "note": ""
  },
  {
   "property": "C65",
   "status": "proved",
   "theorems": [
    "C65_callables_run"
   ],
   "note": ""
  },
  {
   "property": "C66",
   "status": "proved",
   "theorems": [
    "C66_nothing_failed",
    "C66_root_cause"
   ],
   "note": ""
  },
  {
   "property": "C67",
   "status": "proved",
   "theorems": [
    "C67_all_made",
    "C67_second_run_idle",
    "C67_successful_run"
   ],
   "note": ""
  },
  {
   "property": "C68",
   "status": "proved",
   "theorems": [
    "C68_answers",
    "C68_never_guesses",
    "C68_nothing_runs",
    "C68_throws_only"
   ],
   "note": ""
  },
  {
   "property": "C69",
   "status": "proved",
   "theorems": [
    "C69_failed_again",
    "C69_failed_run",
    "C69_needs_retcode_file"
   ],
   "note": ""
  },
  {
   "property": "C70",
   "status": "proved",
   "theorems": [
    "C70_needs_files",
    "C70_resumed",
    "C70_successful_run"
   ],
   "note": ""
  },
  {
   "property": "C71",
   "status": "proved",
   "theorems": [
    "C71_edit",
    "C71_edit_during_run"
   ],
   "note": ""
  },
  {
   "property": "C72",
   "status": "proved",
   "theorems": [
    "C72_collects_ended_jobs",
    "C72_starts_at_most_one",
    "C72_starts_what_could_run"
   ],
   "note": ""
  },
  {
   "property": "C73",
   "status": "proved",
   "theorems": [
    "C73_cause_reported",
    "C73_once_per_edge"
   ],
   "note": ""
  },
  {
   "property": "C74",
   "status": "partial",
   "theorems": [
    "C74_answers",
    "C74_fixed_files",
    "C74_inputs_edited",
    "C74_outputs_changed",
    "C74_some_moment_refuted"
   ],
   "note": "Proved if only inputs are edited during the check (C74_inputs_edited), and for \"up to date\" one output is guaranteed in any case (C74_outputs_changed). Refuted if outputs are rewritten during the check: the oldest output is chosen first and its time is read again later, so an output older than the inputs all the time can be missed (C74_some_moment_refuted)."
  },
  {
   "property": "C75",
   "status": "proved",
   "theorems": [
    "C75_aligned",
    "C75_end_line",
    "C75_start_line",
    "C75_summary"
   ],
   "note": ""
  },
  {
   "property": "C76",
   "status": "proved",
   "theorems": [
    "C76_cycle_check",
    "C76_cycle_deep",
    "C76_cycle_depth",
    "C76_insert_depth",
    "C76_insert_set",
    "C76_propagation",
    "C76_search",
    "C76_search_deep",
    "C76_search_depth"
   ],
   "note": ""
  },
  {
   "property": "C77",
   "status": "proved",
   "theorems": [
    "C77_called_iff",
    "C77_count",
    "C77_once_per_tick"
   ],
   "note": ""
  },
  {
   "property": "C78",
   "status": "proved",
   "theorems": [
    "C78_finished",
    "C78_of_graph",
    "C78_used_once"
   ],
   "note": ""
  },
  {
   "property": "C79",
   "status": "partial",
   "theorems": [
    "C79_failed_within",
    "C79_graph",
    "C79_order_within",
    "C79_records",
    "C79_refuted",
    "C79_used_once_partial"
   ],
   "note": "Refuted (C79_refuted): each call makes its own nodes, so a dependency shared by two filters of one set is executed twice, even by two threads at the same time, and run_after between tasks of different calls is ignored. Proved: exactly which nodes and edges there are, one record per call that selects the task, order and failures respected within a call, and every job used once if no task is selected by two calls."
  },
  {
   "property": "C80",
   "status": "partial",
   "theorems": [
    "C80_alone_partial",
    "C80_independent",
    "C80_no_threads_partial",
    "C80_refuted",
    "C80_resource_partial"
   ],
   "note": "Refuted (C80_refuted): used_resources is local to an execution, so two executions in progress run tasks with a common resource, and even the same job, at the same time. Proved: each execution does what it does alone; exclusion across executions if none is ticked while another is in progress, or if all have thread_count 0 and one thread ticks them."
  },
  {
   "property": "C81",
   "status": "proved",
   "theorems": [
    "C81_no_job",
    "C81_notes",
    "C81_reasons",
    "C81_run_logs",
    "C81_stderr_cycle",
    "C81_stderr_finished",
    "C81_stderr_true"
   ],
   "note": ""
  },
  {
   "property": "C82",
   "status": "proved",
   "theorems": [
    "C82_check",
    "C82_read",
    "C82_shown"
   ],
   "note": ""
  },
  {
   "property": "C83",
   "status": "proved",
   "theorems": [
    "C83_cause",
    "C83_made",
    "C83_needs_contained",
    "C83_once"
   ],
   "note": ""
  },
  {
   "property": "C84",
   "status": "proved",
   "theorems": [
    "C84_edge_cycle",
    "C84_failure_kept",
    "C84_graph",
    "C84_insert_set",
    "C84_order_kept",
    "C84_removed",
    "C84_through_removed"
   ],
   "note": ""
  },
  {
   "property": "C85",
   "status": "proved",
   "theorems": [
    "C85_final",
    "C85_quiet",
    "C85_remains",
    "C85_verbose"
   ],
   "note": ""
  },
  {
   "property": "C86",
   "status": "proved",
   "theorems": [
    "C86_failed",
    "C86_invalidated_ignored",
    "C86_marked"
   ],
   "note": ""
  },
  {
   "property": "C87",
   "status": "proved",
   "theorems": [
    "C87_limits",
    "C87_shared",
    "C87_status"
   ],
   "note": ""
  },
  {
   "property": "C88",
   "status": "partial",
   "theorems": [
    "C88_at_least",
    "C88_at_most",
    "C88_not_before_partial",
    "C88_one_thread",
    "C88_punctual",
    "C88_rate",
    "C88_refuted",
    "C88_returns"
   ],
   "note": "Refuted: the first sentence (C88_refuted). run() adds the period to the scheduled time, not to the time of the last tick, so after a tick that took longer than the period (a job with thread_count 0, a slow visitor) it ticks without a pause until it has caught up. The rest is proved."
  },
  {
   "property": "C89",
   "status": "proved",
   "theorems": [
    "C89_determined",
    "C89_failed_run",
    "C89_needs_dates",
    "C89_needs_end",
    "C89_needs_wait",
    "C89_run",
    "C89_same",
    "C89_wanted"
   ],
   "note": ""
  },
  {
   "property": "C90",
   "status": "proved",
   "theorems": [
    "C90_bound",
    "C90_needs_resources",
    "C90_ticks"
   ],
   "note": ""
  },
  {
   "property": "C91",
   "status": "proved",
   "theorems": [
    "C91_of_task_set",
    "C91_visible"
   ],
   "note": ""
  },
  {
   "property": "C92",
   "status": "proved",
   "theorems": [
    "C92_of_task_set",
    "C92_ordered"
   ],
   "note": ""
  },
  {
   "property": "C93",
   "status": "proved",
   "theorems": [
    "C93_after_job",
    "C93_before_run",
    "C93_checks_first"
   ],
   "note": ""
  },
  {
   "property": "C94",
   "status": "proved",
   "theorems": [
    "C94_after_run_argument",
    "C94_job_objects",
    "C94_needs_discipline",
    "C94_needs_one_node",
    "C94_no_data_race",
    "C94_of_task_set"
   ],
   "note": ""
  },
  {
   "property": "C95",
   "status": "proved",
   "theorems": [
    "C95_content",
    "C95_example",
    "C95_example_set",
    "C95_executable",
    "C95_needs_tasks",
    "C95_places",
    "C95_put",
    "C95_readme",
    "C95_readme_set",
    "C95_sets",
    "C95_stays"
   ],
   "note": ""
  },
  {
   "property": "C96",
   "status": "proved",
   "theorems": [
    "C96_needs_one_at_a_time",
    "C96_no_data_race",
    "C96_ordered"
   ],
   "note": ""
  },
  {
   "property": "C97",
   "status": "proved",
   "theorems": [
    "C97_inside",
    "C97_needs_waiting",
    "C97_no_data_race",
    "C97_visible"
   ],
   "note": ""
  },
  {
   "property": "C98",
   "status": "proved",
   "theorems": [
    "C98_needs_own_resources",
    "C98_needs_resources_kept",
    "C98_unaffected"
   ],
   "note": ""
  },
  {
   "property": "C99",
   "status": "proved",
   "theorems": [
    "C99_exactly_the_machine",
    "C99_needs_plenty",
    "C99_of_task_set",
    "C99_only_the_machine"
   ],
   "note": ""
  },
  {
   "property": "C100",
   "status": "proved",
   "theorems": [
    "C100_all_at_once",
    "C100_needs_indirect"
   ],
   "note": ""
  },
  {
   "property": "C101",
   "status": "proved",
   "theorems": [
    "C101_cause",
    "C101_for_good",
    "C101_otherwise_never",
    "C101_unlaunched"
   ],
   "note": ""
  },
  {
   "property": "C102",
   "status": "proved",
   "theorems": [
    "C102_filter",
    "C102_graphs",
    "C102_needs_dependency",
    "C102_sets"
   ],
   "note": ""
  },
  {
   "property": "C103",
   "status": "proved",
   "theorems": [
    "C103_everything",
    "C103_inseparable",
    "C103_longer_is_narrower",
    "C103_nothing",
    "C103_subset",
    "C103_task"
   ],
   "note": ""
  },
  {
   "property": "C104",
   "status": "proved",
   "theorems": [
    "C104_calls_any_order",
    "C104_declare_again",
    "C104_edge",
    "C104_helpers_again",
    "C104_lists",
    "C104_needs_plenty",
    "C104_same_fate",
    "C104_same_jobs",
    "C104_task_sets"
   ],
   "note": ""
  },
  {
   "property": "C105",
   "status": "proved",
   "theorems": [
    "C105_needs_plenty",
    "C105_one_less",
    "C105_only_restrict",
    "C105_placement",
    "C105_same_fate",
    "C105_task_sets",
    "C105_threads"
   ],
   "note": ""
  },
  {
   "property": "C106",
   "status": "proved",
   "theorems": [
    "C106_at_most_once",
    "C106_cause",
    "C106_exclusion",
    "C106_for_good",
    "C106_nothing_new",
    "C106_order",
    "C106_otherwise_the_same",
    "C106_returns",
    "C106_waits"
   ],
   "note": ""
  },
  {
   "property": "C107",
   "status": "proved",
   "theorems": [
    "C107_all_tasks",
    "C107_groups",
    "C107_needs_width",
    "C107_same_execution",
    "C107_spare_threads"
   ],
   "note": ""
  },
  {
   "property": "C108",
   "status": "proved",
   "theorems": [
    "C108_freed",
    "C108_left",
    "C108_not_to_be_executed"
   ],
   "note": ""
  },
  {
   "property": "C109",
   "status": "proved",
   "theorems": [
    "C109_names_only",
    "C109_no_filter",
    "C109_regrouped",
    "C109_same_cycles",
    "C109_same_fate"
   ],
   "note": ""
  },
  {
   "property": "C110",
   "status": "proved",
   "theorems": [
    "C110_graphs",
    "C110_same_json",
    "C110_same_junit",
    "C110_same_record"
   ],
   "note": ""
  },
  {
   "property": "C111",
   "status": "proved",
   "theorems": [
    "C111_demands",
    "C111_repair",
    "C111_uncovers",
    "C111_why"
   ],
   "note": ""
  },
  {
   "property": "C112",
   "status": "proved",
   "theorems": [
    "C112_order",
    "C112_overlap",
    "C112_path",
    "C112_reported",
    "C112_resources",
    "C112_work"
   ],
   "note": ""
  },
  {
   "property": "C113",
   "status": "proved",
   "theorems": [
    "C113_again",
    "C113_complete",
    "C113_cycle",
    "C113_enough",
    "C113_executions",
    "C113_for_each",
    "C113_left"
   ],
   "note": ""
  },
  {
   "property": "C114",
   "status": "proved",
   "theorems": [
    "C114_at_least",
    "C114_factor",
    "C114_more_threads_slower",
    "C114_one_thread_slowest",
    "C114_one_thread_task_sets",
    "C114_task_sets"
   ],
   "note": ""
  },
  {
   "property": "C115",
   "status": "proved",
   "theorems": [
    "C115_at_most_once",
    "C115_one_tick",
    "C115_polls",
    "C115_tick_cost"
   ],
   "note": ""
  }
 ]
}