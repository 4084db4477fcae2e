{"id": "C01", "title": "Each selected task runs at most once and is recorded exactly once", "statement": "In one execution no task's job is started twice, no job of a task outside the graph is started, and when the execution finishes the record holds exactly one run record per graph node.", "quantifier": "every graph, thread count, interleaving of control thread and job threads, and every job outcome", "why_tests_cant": "a test samples a few interleavings of a few graphs; double dispatch would show only for particular completion orders", "anchors": ["src/exec.cpp:exec", "src/exec.cpp:find_candidate", "src/exec.cpp:cleanup_coros", "src/exec.cpp:run"]}
{"id": "C02", "title": "Run-after ordering", "statement": "If A must run after B (depends_on or run_after), then A's job begins only after B's job, if it ran at all, has ended and B's run record has been produced; B's job never begins after A's has begun.", "quantifier": "every graph, edge, thread count and interleaving", "why_tests_cant": "ordering violations are schedule dependent", "anchors": ["src/exec.cpp:find_candidate", "src/exec.cpp:all_done", "src/exec.cpp:run"]}
{"id": "C03", "title": "Resource mutual exclusion", "statement": "At no instant are two jobs whose tasks share a resource both executing.", "quantifier": "every graph, resource assignment (including a task listing a resource twice), thread count, interleaving", "why_tests_cant": "a race that needs one particular interleaving of acquire/release with dispatch", "anchors": ["src/exec.cpp:any_resource_used", "src/exec.cpp:run", "include/joque/task.hpp:resource"]}
{"id": "C04", "title": "Concurrency bound", "statement": "With thread_count k>0 at most k jobs execute at any instant; with thread_count 0 at most one job executes at any instant and only while the control thread is inside a tick.", "quantifier": "every graph, k, interleaving", "why_tests_cant": "needs every interleaving", "anchors": ["src/exec.cpp:exec"]}
{"id": "C05", "title": "Failed dependency blocks dependants", "statement": "In an execution built from a task set, if a task ends FAIL or DEPF then every task that depends on it (transitively) ends DEPF and its job is never started.", "quantifier": "every task set, filter, schedule and job outcome", "why_tests_cant": "the outcome must hold for every failure point in every graph", "anchors": ["src/exec.cpp:any_dep_failed", "src/exec.cpp:run"]}
{"id": "C06", "title": "Status decision rule", "statement": "In a finished execution (requires implies run-after) a task is DEPF iff one of its required tasks is FAIL or DEPF; otherwise SKIP iff it is not invalidated; otherwise FAIL with the job's return code iff that code is non-zero; otherwise OK. DEPF and SKIP records carry return code 0 and no output.", "quantifier": "every graph, schedule, job outcome", "why_tests_cant": "complete decision table over unbounded graphs", "anchors": ["src/exec.cpp:run"]}
{"id": "C07", "title": "Skipped and blocked tasks never execute; the rest do", "statement": "A task's job is started iff its final status is OK or FAIL.", "quantifier": "every graph, schedule, job outcome", "why_tests_cant": "absence of an effect on all schedules", "anchors": ["src/exec.cpp:run"]}
{"id": "C08", "title": "Invalidation closure", "statement": "After the start-up phase a node is invalidated iff its own job reports invalidated or some node reachable from it over invalidated-by edges has a job that does; this also holds for cyclic invalidated-by graphs.", "quantifier": "every graph, every answer of the jobs, every address order of the nodes", "why_tests_cant": "reachability over arbitrary, possibly cyclic, graphs", "anchors": ["src/exec.cpp:propagate_invalidation"]}
{"id": "C09", "title": "Invalidation is asked once and before any job", "statement": "Each job's is_invalidated is called exactly once per node and before any job of the execution starts; if one throws, no job runs and the exception is what result() rethrows.", "quantifier": "every graph, schedule", "why_tests_cant": "ordering over all traces", "anchors": ["src/exec.cpp:propagate_invalidation", "src/exec.cpp:exec"]}
{"id": "C10", "title": "Cycle detection is sound and complete", "statement": "The execution aborts with 'Cycle detected' iff the run-after relation among the nodes has a cycle (self loops included); cycles consisting only of invalidated-by or requires edges do not abort.", "quantifier": "every graph", "why_tests_cant": "needs all graphs", "anchors": ["src/exec.cpp:check_for_cycle", "src/exec.cpp:has_cycle"]}
{"id": "C11", "title": "The reported cycle is genuine", "statement": "When a cycle is reported, on_detected_cycle is called exactly once, with a non-empty duplicate-free list of nodes in which each node runs after the next and the last after the first; no job is ever started; without a cycle it is never called.", "quantifier": "every graph and schedule", "why_tests_cant": "needs all graphs", "anchors": ["src/exec.cpp:get_cycle", "src/exec.cpp:check_for_cycle"]}
{"id": "C12", "title": "No scheduler deadlock and no assertion failure", "statement": "With every task having a job, no reachable state fails an assertion, and while the execution is unfinished either the control thread can proceed or some launched job has not ended yet.", "quantifier": "every graph, thread count, schedule", "why_tests_cant": "deadlock freedom is a statement over all reachable states", "anchors": ["src/exec.cpp:exec (assert)", "src/exec.cpp:find_candidate"]}
{"id": "C13", "title": "Bounded number of ticks", "statement": "The number of tick() calls needed is at most |nodes|+2 (1 if there are none) plus the number of polls that found a job still running; a client that has called tick() that often, and was not disturbed by an exception, has a record. With at most one thread a completed execution takes exactly that many. So if every job ends, the execution ends.", "quantifier": "every graph, thread count, schedule", "why_tests_cant": "liveness; no bound on graph size", "anchors": ["src/exec.cpp:exec", "src/exec_coro.cpp:run"]}
{"id": "C14", "title": "Record accounting", "statement": "In every exec_record seen by a visitor or returned, each stats entry equals the number of run records of that status, the run records number at most total_count, and total_count is the number of nodes; in the returned record the four stats sum to total_count.", "quantifier": "every graph, schedule, point in time", "why_tests_cant": "invariant over all histories", "anchors": ["src/exec.cpp:push", "include/joque/records.hpp:exec_record"]}
{"id": "C15", "title": "Records are in dependency order", "statement": "In the returned record, if A runs after B, B's record precedes A's.", "quantifier": "every graph, schedule", "why_tests_cant": "order over all schedules", "anchors": ["src/exec.cpp:cleanup_coros"]}
{"id": "C16", "title": "The outcome does not depend on schedule or thread count", "statement": "Two finished executions of the same graph (requires implies run-after) in which jobs give the same answers produce the same status, return code and output for each node, whatever the thread counts, schedules, clocks.", "quantifier": "every pair of executions", "why_tests_cant": "a two-run property over all schedules", "anchors": ["src/exec.cpp:exec", "src/exec.cpp:run"]}
{"id": "C17", "title": "Filter selects exactly the matching tasks and their dependencies", "statement": "The graph built from a task set holds exactly one node for each task that is reachable over depends_on from a task whose full name contains the filter string, and no others; run_after and invalidated_by never pull tasks in.", "quantifier": "every task set, filter, hash-map iteration order, depends_on cycle", "why_tests_cant": "unbounded graphs and every iteration order of an unordered_map", "anchors": ["src/dag.cpp:insert_set", "src/dag.cpp:dfs"]}
{"id": "C18", "title": "Edges mirror the declared relations", "statement": "In the graph built from a task set: each depends_on entry gives one run-after, one requires and one invalidated-by edge; each run_after (invalidated_by) entry whose target is selected gives one run-after (invalidated-by) edge; there are no others. In particular requires implies run-after and implies invalidated-by.", "quantifier": "every task set, filter, iteration order", "why_tests_cant": "as above", "anchors": ["src/dag.cpp:insert_set", "src/dag.cpp:dfs", "include/joque/dag.hpp:add_edge"]}
{"id": "C19", "title": "Full task names", "statement": "Every task of the set is visited exactly once, with the name '/' followed by '/c' for each path component c, tasks of a set before its subsets, each in key order. Distinct tasks get distinct names (as long as no component contains '/').", "quantifier": "every task-set tree, any depth and width", "why_tests_cant": "unbounded trees; injectivity", "anchors": ["include/joque/task.hpp:for_each_task_impl"]}
{"id": "C20", "title": "Bulk dependency helpers", "statement": "for_each_add_dep, add_dep_to_each, run_each_after, run_after_all_of and invalidated_by_all_of append exactly the documented entries, once per task of the set, never a self reference, and change nothing else. After any sequence of calls a task depends on, runs after and is invalidated by exactly what it was before and what some call said.", "quantifier": "every task set and task, whether or not the task is in the set", "why_tests_cant": "frame property over all tasks", "anchors": ["src/task.cpp"]}
{"id": "C21", "title": "after_run is given the node of the record", "statement": "Each after_run callback receives the node whose run record it receives.", "quantifier": "every graph, thread count, schedule", "why_tests_cant": "shows only when jobs finish out of order", "anchors": ["src/exec.cpp:cleanup_coros", "src/run_coro.hpp:operator="]}
{"id": "C22", "title": "Visitor protocol", "statement": "For every node the callbacks come in the order after_node_enque, after_job_is_inval, before_run, (on_run_log iff the job ran), after_run for its record, each exactly once in a finished execution; after_execution is called exactly once and last.", "quantifier": "every graph, schedule", "why_tests_cant": "trace property", "anchors": ["src/exec.cpp:exec", "src/exec.cpp:run", "src/exec.cpp:cleanup_coros", "include/joque/exec_visitor.hpp"]}
{"id": "C23", "title": "exec is lazy", "statement": "Creating an execution calls no visitor, asks no job and starts nothing; that happens only in tick()/run().", "quantifier": "every graph and every history without a tick", "why_tests_cant": "absence of effects", "anchors": ["src/exec_coro.cpp:initial_suspend", "README.md example"]}
{"id": "C24", "title": "tick after completion does nothing", "statement": "tick() on an execution that has finished has no effect.", "quantifier": "every finished execution", "why_tests_cant": "undefined behaviour is not observable by a test", "anchors": ["include/joque/exec_coro.hpp:tick", "src/exec_coro.cpp:tick"]}
{"id": "C25", "title": "result and done", "statement": "result() is empty until the execution finishes, then is the complete record and stays so; if the execution aborted it rethrows that exception; done() holds exactly in those two cases; run() returns what result() does and never ticks a finished execution; from wherever run() is called it can return, however the jobs end, and then with a record unless the execution failed already or must fail at its start.", "quantifier": "every history", "why_tests_cant": "state machine property over all histories", "anchors": ["src/exec_coro.cpp:result", "src/exec_coro.cpp:run", "src/exec_coro.cpp:done"]}
{"id": "C26", "title": "Destroying an unfinished execution waits for its jobs", "statement": "Destroying the exec_coro at any suspension point (or aborting by exception) completes only when every started job has ended, and no job begins afterwards; jobs not yet dispatched never run.", "quantifier": "every graph, schedule, destruction point", "why_tests_cant": "crash-point style property", "anchors": ["src/exec_coro.cpp:~exec_coro", "src/run_coro.hpp:~run_coro", "src/exec.cpp:run (std::future)"]}
{"id": "C27", "title": "Throwing jobs are recorded as failures", "statement": "A task whose job throws is recorded FAIL with a non-zero return code.", "quantifier": "every job outcome", "why_tests_cant": "the return code is indeterminate: a test may pass by luck", "anchors": ["include/joque/traits.hpp:run", "include/joque/run_result.hpp:run_result", "src/exec.cpp:run"]}
{"id": "C28", "title": "Process invalidation rule", "statement": "A process without usable retcode information is invalidated iff it has no outputs, or an output is missing, or some output is not strictly newer than some input.", "quantifier": "every file-time assignment, any number of files", "why_tests_cant": "unbounded combinations of files and times", "anchors": ["src/process.cpp:is_invalidated"]}
{"id": "C29", "title": "A missing output invalidates", "statement": "A process one of whose declared outputs does not exist is invalidated.", "quantifier": "every process and file system state, every representation of file times", "why_tests_cant": "depends on the clock epoch of the platform and on there being inputs", "anchors": ["src/process.cpp:is_invalidated", "src/process.cpp:path_to_write_time"]}
{"id": "C30", "title": "Return code file round trip", "statement": "After a process with a retcode file has run to completion with code r, the file reads back as r; hence after a non-zero r the process is invalidated at the next check, whatever the other files.", "quantifier": "every int r, every previous content", "why_tests_cant": "all 2^32 codes and parser behaviour", "anchors": ["src/process.cpp:run", "src/process.cpp:is_invalidated"]}
{"id": "C31", "title": "A failed process run is retried", "statement": "If a run of a process with a retcode file failed, the next check reports the process invalidated.", "quantifier": "every failure mode of starting, draining, waiting", "why_tests_cant": "failure modes of the OS layer", "anchors": ["src/process.cpp:run"]}
{"id": "C32", "title": "Process result", "statement": "The result of a process run has return code 0 iff it was started, drained, and exited with 0; the captured chunks appear in order with their stream; on a non-zero exit the command line is prepended, and nothing else is altered.", "quantifier": "every behaviour of the subprocess", "why_tests_cant": "all OS outcomes", "anchors": ["src/process.cpp:run"]}
{"id": "C33", "title": "process::derive classification", "statement": "derive puts every argument into cmd in order, path arguments into input and out() arguments into output, in order, and nothing else.", "quantifier": "every argument list", "why_tests_cant": "all lists", "anchors": ["include/joque/process.hpp:derive", "include/joque/out.hpp"]}
{"id": "C34", "title": "Logged command lines are unambiguous", "statement": "Different commands are logged as different command lines.", "quantifier": "every pair of commands", "why_tests_cant": "injectivity", "anchors": ["src/process.cpp:format_cmd"]}
{"id": "C35", "title": "Total run time", "statement": "runtime_sum of a record with at least one run is the least whole number of seconds not below (latest end - earliest start).", "quantifier": "every record", "why_tests_cant": "extrema over unbounded lists, rounding for negative and positive values", "anchors": ["src/records.cpp:runtime_sum"]}
{"id": "C36", "title": "Reporting an execution that ran nothing is defined", "statement": "Finishing an execution with no selected task, with the default visitor, and generating a JUnit report of its record, are well defined.", "quantifier": "every empty execution (empty set or filter matching nothing)", "why_tests_cant": "undefined behaviour", "anchors": ["src/records.cpp:runtime_sum", "src/format.cpp:counter_width", "src/print_exec_visitor.cpp:after_execution"]}
{"id": "C37", "title": "JUnit report counts", "statement": "For a record returned by an execution, the report has one testcase per run record, in order, its 'tests' attribute is their number, its 'failures' attribute is the number of testcases with a failure element, and a testcase has a failure element iff the task's status is FAIL.", "quantifier": "every execution record", "why_tests_cant": "unbounded records", "anchors": ["src/junit.cpp:generate_junit_xml"]}
{"id": "C38", "title": "JUnit report is well-formed XML", "statement": "The report parses as XML back to the suite name and task names given.", "quantifier": "every suite name and set of task names", "why_tests_cant": "all strings", "anchors": ["src/junit.cpp:attr", "src/junit.cpp:xml_node"]}
{"id": "C39", "title": "Nested output formatting", "statement": "format_nested writes, for each line of the concatenated output, the indent, the line and a newline; it depends only on the concatenation, not on the chunking; for empty output it writes nothing.", "quantifier": "every indent and chunk list", "why_tests_cant": "all chunkings", "anchors": ["src/format.cpp:format_nested"]}
{"id": "C40", "title": "Task name column", "statement": "Removing the colour codes from the printed name column gives the first 60 characters of the name padded with blanks to exactly 60.", "quantifier": "every name (single-width characters, no escape bytes)", "why_tests_cant": "all strings; loop termination", "anchors": ["src/format.cpp:fmt_text"]}
{"id": "C41", "title": "Counter column", "statement": "For 1 <= count <= total, the counter is printed with exactly as many digits as total has, and its value is count.", "quantifier": "every count, total", "why_tests_cant": "digit boundaries", "anchors": ["src/format.cpp:fmt_counter", "src/format.cpp:counter_width"]}
{"id": "C42", "title": "The printed counter stays within the total", "statement": "Every 'count/total' printed for a task start or end has 1 <= count <= total.", "quantifier": "every execution and schedule", "why_tests_cant": "invariant over all histories", "anchors": ["src/format.cpp:format_status", "src/format.cpp:format_run_end"]}
{"id": "C43", "title": "format_dag lists what each node runs after", "statement": "The 'runs after' line of a node lists exactly the nodes it runs after.", "quantifier": "every graph", "why_tests_cant": "all graphs", "anchors": ["src/format_dag.cpp"]}
{"id": "C44", "title": "Tagged pointers", "statement": "A list pointer built from a node or header pointer (aligned, non-null) reports that type, gives back that pointer and only under that type; two pointers compare equal iff same kind and address; a null pointer is null and gives nothing.", "quantifier": "every aligned address", "why_tests_cant": "all addresses", "anchors": ["include/joque/bits/list_ptr.hpp"]}
{"id": "C45", "title": "Intrusive list behaves as a sequence", "statement": "Starting from an empty list, any sequence of emplace_front, link_front, deletion of members and clear_if keeps forward iteration equal to the sequence these operations denote, and every link to be consistent in both directions.", "quantifier": "every operation sequence", "why_tests_cant": "pointer structure invariant over all histories", "anchors": ["include/joque/bits/list.hpp"]}
{"id": "C46", "title": "Deleting a node removes exactly its edges", "statement": "Deleting nodes from a graph (clear_if) frees those nodes and exactly the edges with an endpoint among them, each once, and leaves the edge lists of the remaining nodes otherwise unchanged, with no dangling link.", "quantifier": "every graph (self loops, parallel edges) and predicate", "why_tests_cant": "memory safety over all graphs", "anchors": ["include/joque/bits/dag.hpp:gnode", "include/joque/bits/list.hpp:~list", "include/joque/bits/list.hpp:~list_header"]}
{"id": "C47", "title": "Destroying a graph frees everything once", "statement": "Destroying a graph frees every node and every edge exactly once.", "quantifier": "every graph built by emplace/add_edge", "why_tests_cant": "leaks and double frees over all graphs", "anchors": ["include/joque/bits/dag.hpp:graph"]}
{"id": "C48", "title": "Moving a list or graph", "statement": "Move construction transfers the whole content and leaves the source empty; move assignment does the same and does not lose the previous content of the target.", "quantifier": "every list", "why_tests_cant": "pointer structure", "anchors": ["include/joque/bits/list.hpp:list_header::operator="]}
{"id": "C49", "title": "list::back", "statement": "back() of a non-empty list is its last element.", "quantifier": "every non-empty list", "why_tests_cant": "undefined behaviour", "anchors": ["include/joque/bits/list.hpp:back"]}
{"id": "C50", "title": "Hidden tasks are not shown", "statement": "Unless verbose is set, the default visitor prints no start line, invalidation message, run log or output of a hidden task, and an end line or output only if it failed; it prints exactly one end line for each other task.", "quantifier": "every execution", "why_tests_cant": "all schedules", "anchors": ["src/print_exec_visitor.cpp"]}
{"id": "C51", "title": "The default visitor's in-progress set is exact", "statement": "After each callback the default visitor's notion of tasks in progress is the set of (shown) tasks with before_run and no after_run yet; it never refers to nodes of an execution that no longer exists.", "quantifier": "every sequence of executions, including abandoned ones", "why_tests_cant": "all histories", "anchors": ["src/print_exec_visitor.cpp:queued"]}
{"id": "C52", "title": "Requires edges in hand-built graphs", "statement": "In a hand-built graph a node with a requires edge to a node that fails is not executed.", "quantifier": "every hand-built graph", "why_tests_cant": "depends on missing run-after edges and the schedule", "anchors": ["src/exec.cpp:any_dep_failed", "include/joque/exec.hpp"]}
{"id": "C53", "title": "Time stamps", "statement": "With a clock that does not go backwards, every run record has start <= end, if A runs after B then B's end <= A's start, and the job of a recorded task runs only at times between its recorded start and end.", "quantifier": "every execution, schedule, clock history", "why_tests_cant": "all schedules", "anchors": ["src/exec.cpp:run", "include/joque/records.hpp:run_record"]}
{"id": "C54", "title": "Dependencies outside the task set", "statement": "Building the graph of a task set whose tasks depend on tasks outside the set is well defined.", "quantifier": "every task set", "why_tests_cant": "iterator invalidation depends on hash-table growth", "anchors": ["src/dag.cpp:dfs (tmp[&t])", "src/dag.cpp:insert_set"]}
{"id": "C55", "title": "Skipped tasks have skipped dependencies", "statement": "In an execution built from a task set, if a task ends SKIP then so do all tasks it (transitively) depends on and is invalidated by.", "quantifier": "every task set, schedule", "why_tests_cant": "all graphs", "anchors": ["src/exec.cpp:run", "src/exec.cpp:propagate_invalidation"]}
{"id": "C56", "title": "Nothing to do", "statement": "If no job reports invalidated, the execution finishes, after |nodes|+2 ticks at the latest, with every task SKIP and starts no job.", "quantifier": "every acyclic graph, schedule", "why_tests_cant": "all graphs", "anchors": ["src/exec.cpp:exec"]}
{"id": "C57", "title": "Resources are free at the end and never leak", "statement": "A resource counts as in use exactly while a dispatched, unfinished task holds it; in particular a task blocked only by a resource becomes runnable once the holder finishes.", "quantifier": "every graph, schedule", "why_tests_cant": "invariant over histories", "anchors": ["src/exec.cpp:run"]}
{"id": "C58", "title": "Deferred execution is deterministic", "statement": "With thread_count 0, an acyclic non-empty execution finishes after exactly |nodes|+2 ticks, one job at a time, in an order fixed by the graph and node order: the next task finished is found from the first unfinished node by going on to its first unfinished predecessor until there is none.", "quantifier": "every graph", "why_tests_cant": "all graphs", "anchors": ["src/exec.cpp:exec"]}
{"id": "C59", "title": "Move semantics of exec_coro", "statement": "Under any sequence of moves and destructions of exec_coro objects each execution is destroyed exactly once and owned by at most one object.", "quantifier": "every sequence of operations", "why_tests_cant": "ownership over all histories", "anchors": ["src/exec_coro.cpp:exec_coro(exec_coro&&)", "src/exec_coro.cpp:operator="]}
{"id": "C60", "title": "Adding a common dependency keeps the set executable", "statement": "If the run-after relation (depends_on and run_after) of the tasks is acyclic and dep does not transitively run after any other task of the set, then it is still acyclic after for_each_add_dep(ts, dep); if dep does run after another task of the set, it becomes cyclic. After any sequence of calls of the helpers the tasks are cyclic exactly if what was declared before and what the calls say make a cycle.", "quantifier": "every task set", "why_tests_cant": "all graphs", "anchors": ["src/task.cpp:for_each_add_dep"]}
{"id": "C61", "title": "JSON export is faithful", "statement": "The JSON object of a record contains, for each status, its count, total_count and the run records in order with name, status, retcode, times and output; the record (without task references) can be recovered from it.", "quantifier": "every record", "why_tests_cant": "all records", "anchors": ["src/json.cpp", "include/joque/records.hpp:map"]}
{"id": "C62", "title": "End-to-end incremental build", "statement": "For a task set of process tasks, exec runs exactly the tasks that have a stale process among themselves and the tasks they (transitively) depend on or are invalidated by, as long as nothing fails.", "quantifier": "every task set, file state, schedule", "why_tests_cant": "combination of reachability, file times, and schedules", "anchors": ["src/exec.cpp", "src/process.cpp", "src/dag.cpp"]}
{"id": "C63", "title": "The graph in memory is the graph that was built", "statement": "The graph object that building from a task set leaves in memory shows, through iteration over its nodes and over their in and out edges, exactly the nodes and edges that the building denotes, each edge in both lists; no other node or edge exists; destroying the graph frees all of them.", "quantifier": "every task set, filter and hash order", "why_tests_cant": "pointer structure for all task sets", "anchors": ["src/dag.cpp:insert_set", "include/joque/bits/dag.hpp", "include/joque/bits/list.hpp"]}
{"id": "C64", "title": "Which thread does what, and tick never waits", "statement": "With a thread count of one or more, jobs are executed by job threads and never by the thread that calls tick; with thread count zero every job is executed by the thread that calls tick. A call of tick never waits for a job that runs on another thread: whatever the other threads do, it returns after a number of its own steps that is bounded by the thread count.", "quantifier": "every graph, thread count, schedule and state", "why_tests_cant": "that a call returns without the cooperation of other threads is a claim about all schedules", "anchors": ["src/exec.cpp:run_coro,tick", "include/joque/exec_coro.hpp"]}
{"id": "C65", "title": "Plain callables are executed every time", "statement": "A task whose job is a callable without job traits of its own, and every task that transitively depends on or is invalidated by one, is never skipped; the only thing that keeps it from being executed is a failed task it transitively depends on.", "quantifier": "every task set, with any mix of callable and process jobs, every file state, schedule and thread count", "why_tests_cant": "propagation over all graphs and all executions", "anchors": ["include/joque/traits.hpp:job_traits", "include/joque/job.hpp:job", "src/exec.cpp"]}
{"id": "C66", "title": "Blocked tasks have a failed cause", "statement": "Every task recorded as blocked by a dependency transitively requires a task that was executed, returned a non-zero code and is recorded as failed; so if every job that ended returned zero, every task is OK or SKIP.", "quantifier": "every graph, also with cyclic or missing requires edges, every schedule and thread count, at every time of the execution", "why_tests_cant": "absence of spurious blocking for all graphs and schedules", "anchors": ["src/exec.cpp:run_coro"]}
{"id": "C67", "title": "A build is done after one execution", "statement": "For process tasks that declare their files (no two write the same file, each transitively depends on the tasks writing its inputs, the other inputs exist), whose staleness the check can notice (a task with outputs has an input, and if only some outputs are missing the others have times after the clock's epoch, cf. C28, C29) and do their work (a run that returns zero leaves its outputs newer than its inputs), an execution that ends without failure leaves everything up to date, and a second execution of the same tasks executes nothing but tasks without outputs and what depends on them.", "quantifier": "every task set, file state, pair of executions, schedule and thread count; files may change at any time while a job that writes them is running", "why_tests_cant": "combines file times, ordering under concurrency and reachability, over two executions", "anchors": ["src/exec.cpp", "src/process.cpp:is_invalidated", "src/process.cpp:run", "src/dag.cpp"]}
{"id": "C68", "title": "A failing file query never leads to a guess", "statement": "If std::filesystem::exists or last_write_time reports an error while a process task is checked, the check either answers as it would with the true answers or throws; it throws only if a query about one of the files it may look at fails; and an exception of a check aborts the start of the execution before any job is executed.", "quantifier": "every process, file state, set of failing queries, task set and schedule", "why_tests_cant": "I/O errors at every possible query, for all processes, are not produced in tests", "anchors": ["src/process.cpp:is_invalidated", "src/exec.cpp:exec"]}
{"id": "C69", "title": "A failed task is executed again by the next execution", "statement": "If the job of a process task with a retcode file ended with a nonzero code (and no two tasks write the same file), then in the next execution of the same tasks neither that task nor any task that depends on or is invalidated by it is skipped, and each of them is executed unless a task it transitively depends on fails. Without a retcode file this does not hold.", "quantifier": "every task set, file state, pair of executions (the first one finished or not), schedule and thread count", "why_tests_cant": "combines file states and the scheduling of two executions", "anchors": ["src/process.cpp:run", "src/process.cpp:is_invalidated", "src/exec.cpp", "src/dag.cpp"]}
{"id": "C70", "title": "An interrupted execution can be resumed", "statement": "Take process tasks that declare their files (no two write the same file, each transitively depends on the tasks writing its inputs and reads an output of each task it depends on or is invalidated by), whose failing runs are recorded in a retcode file, whose successful runs write all their files anew and whose staleness the check can notice. Whatever state an execution is left in with no job being executed (finished, destroyed, not ticked any more), every task that it had to execute has either been executed with success or is executed by the next execution, unless a task it transitively depends on fails there. A task that depends on another without reading its outputs may be left out.", "quantifier": "every task set, file state, schedule, thread count and point of interruption", "why_tests_cant": "every point of interruption of every schedule", "anchors": ["src/process.cpp", "src/exec.cpp", "src/exec_coro.cpp:~exec_coro", "src/dag.cpp"]}
{"id": "C71", "title": "An edit rebuilds what depends on it, and nothing else", "statement": "After an execution of process tasks that ended without failure (tasks as in C67, all with outputs), if files that no task writes are edited or created, with times not before those of the existing files, then a second execution without failures executes exactly the tasks that read an edited file and those that transitively depend on or are invalidated by them. An edit made while a job that reads the file is being executed may be lost.", "quantifier": "every task set, file state, set of edits, pair of executions, schedule and thread count", "why_tests_cant": "combines file times, ordering under concurrency and reachability, over two executions", "anchors": ["src/exec.cpp", "src/process.cpp:is_invalidated", "src/process.cpp:run", "src/dag.cpp"]}
{"id": "C72", "title": "What one tick does", "statement": "One call of tick() starts at most one task, and only a task that could already run when tick() was called: not started before, everything it runs after recorded, none of its resources held by a task whose job is under way. Every job that had ended when tick() was called has its record handed to after_run by the time tick() returns, unless the tick ends with an exception.", "quantifier": "every graph, thread count, job behaviour, reachable state in which tick() is called, and interleaving of jobs during the call", "why_tests_cant": "quantifies over all states and all interleavings of job threads with the call", "anchors": ["include/joque/exec_coro.hpp:exec_coro::tick", "src/exec.cpp:exec", "src/exec.cpp:cleanup_coros", "src/exec.cpp:find_candidate"]}
{"id": "C73", "title": "Inherited invalidation names a cause", "statement": "after_dep_inval(n, m) is called only if n is invalidated by m in the graph, n's own job has been asked and said it is valid, and m has already been reported invalidated, by its own job's answer or by an earlier after_dep_inval(m, ...). All these calls come after every job has been asked and before the first on_tick. It is called at most once per invalidated-by edge.", "quantifier": "every graph (cyclic and parallel invalidated-by edges included), every answer of the jobs, every schedule and throwing visitor", "why_tests_cant": "order and multiplicity of reports over all graphs", "anchors": ["src/exec.cpp:propagate_invalidation", "include/joque/exec_visitor.hpp:after_dep_inval"]}
{"id": "C74", "title": "A check that races with changes of the files", "statement": "If files change while is_invalidated of a process looks at them, its answer is the right one for some moment of the check; edits of the inputs during the check lead to \"up to date\" only if the process was up to date when the check began, and to \"invalidated\" only if it is when the check ends. The check throws only if a query fails or a file disappears between two queries about it. (The answer does not always fit a moment if outputs are rewritten during the check.)", "quantifier": "every process, every sequence of file states seen by the successive queries, either order of evaluating the two sides of a comparison", "why_tests_cant": "races with other programs cannot be scheduled in a test", "anchors": ["src/process.cpp:job_traits<process>::is_invalidated", "src/process.cpp:path_to_write_time"]}
{"id": "C75", "title": "What the printed lines say", "statement": "With the default visitor, without colour codes: the line of a finished task consists of the time, the number of tasks finished so far and the number of tasks with equally many digits, the status in 4 columns, the name cut or filled to 60 columns and, if the task was executed, its duration in whole milliseconds in 8 columns. The line of a started task ends in a carriage return, so the next line overwrites it. The last line shows the number of tasks, how many were executed, how many ended with each status and the seconds, rounded up, from the first start to the last end; its duration ends in the same column as those of the tasks.", "quantifier": "every execution with at least one node and every schedule, every time of day and every name without escape characters (for the alignment: fewer than 100000 tasks, durations that fit into their columns)", "why_tests_cant": "all names, counts, durations and schedules", "anchors": ["src/format.cpp:format_line", "src/format.cpp:format_run_end", "src/format.cpp:format_exec_end", "src/format.cpp:end_text", "src/print_exec_visitor.cpp"]}
{"id": "C76", "title": "The searches take linear work and as much stack as the longest path", "statement": "Looking for a cycle, and in each tick looking for a task to start, calls the recursive search at most once per node and once per run-after edge, nested no deeper than there are nodes, plus one. Propagating invalidation takes up each node and looks at each invalidated-by edge at most once. Making the graph visits each task of the set and each dependency at most once, with the same bound on the nesting. How deep the calls nest is exactly the number of nodes on some path of run-after edges (of dependencies, when the graph is made), and a row of tasks that each run after the next one only is descended to its end when its head is looked at first, so the stack an execution needs grows with its longest path and with nothing else.", "quantifier": "every graph (also with cycles), every state of the nodes and resources, every task set, filter and iteration order", "why_tests_cant": "a bound for all graphs; tests can only time a few", "anchors": ["src/exec.cpp:check_for_cycle", "src/exec.cpp:find_candidate", "src/exec.cpp:propagate_invalidation", "src/dag.cpp:dfs", "src/dag.cpp:insert_set"]}
{"id": "C77", "title": "When on_tick is called", "statement": "A call of tick() that ends without an exception calls the visitor's on_tick exactly if it returns while some task has not been begun (before_run not called for it). It calls on_tick at most once, and before anything else unless it is the first tick. A finished execution has called on_tick at least once per task, and exactly once per task with thread_count 0.", "quantifier": "every graph, thread count, schedule, reachable state and tick", "why_tests_cant": "depends on how many tasks can be picked and on the interleaving with the jobs in every tick", "anchors": ["src/exec.cpp:exec", "include/joque/exec_visitor.hpp:on_tick"]}
{"id": "C78", "title": "A job object is used once, by one thread at a time", "statement": "In an execution of a task set the job of a task is used in this order and each at most once: is_invalidated is called, run is entered, run is left; jobs of tasks that are not selected are not touched. When the execution has finished, all three have happened if the record of the task is OK or FAIL, and only the first if it is SKIP or DEPF. So a job needs no synchronisation for its own members.", "quantifier": "every task set, filter, graph in which the task has one node, thread count, schedule and reachable state", "why_tests_cant": "a claim about all interleavings of the job threads with the thread that ticks", "anchors": ["src/exec.cpp:exec", "src/exec.cpp:run_coro", "include/joque/job.hpp:job_iface"]}
{"id": "C79", "title": "Graphs filled by several calls of insert_set", "statement": "A graph on which insert_set is called several times (with other sets, or other filters of one set) is executed like one set that unites what the calls select: each selected task is executed at most once and recorded once, and everything the tasks declare is respected, also between tasks selected by different calls.", "quantifier": "every store of tasks, sequence of calls, iteration order and address assignment, thread count, schedule and reachable state", "why_tests_cant": "a claim about all ways to select overlapping parts of a task graph and all interleavings", "anchors": ["include/joque/dag.hpp:insert_set", "src/dag.cpp:insert_set", "src/exec.cpp:exec"]}
{"id": "C80", "title": "Resources in a program with several executions", "statement": "Out of all tasks that reference one resource only one is executed at any point in time, also when the tasks belong to several executions of one program. An execution does not influence another one otherwise.", "quantifier": "every family of executions, each with its own graph and thread count, every interleaving of their ticks, jobs and destructors", "why_tests_cant": "a claim about all interleavings of several executions", "anchors": ["include/joque/task.hpp:resource", "src/exec.cpp:exec", "src/exec_coro.cpp:exec_coro"]}
{"id": "C81", "title": "Messages of the default visitor", "statement": "Whatever print_exec_visitor writes to stderr is true: it names a task that has no job, or lists a cycle of the graph. An execution that finishes has written nothing to stderr, one that fails because of a cycle has named every task without a job and the cycle. Notes on stdout are written only when verbose, and then once for each job that said it is invalidated, each inherited invalidation and the log of each executed job.", "quantifier": "every graph, thread count, outcome of jobs, schedule and reachable state", "why_tests_cant": "a claim about everything that is ever written, over all graphs and interleavings", "anchors": ["src/print_exec_visitor.cpp:print_exec_visitor", "src/exec.cpp:exec"]}
{"id": "C82", "title": "The reasons of process checks are true", "statement": "The text with which the check of a process explains its answer states something true of the file system (which output is missing, that the retcode file is missing or holds a failure, which oldest output and latest input were compared and their times), and the answer is the one that follows from it. What a visitor is told about a task of an execution is such a reason.", "quantifier": "every file system, process, task set, schedule and reachable state", "why_tests_cant": "a claim about all combinations of existing, missing and dated files", "anchors": ["src/process.cpp:is_invalidated", "src/exec.cpp:exec", "src/print_exec_visitor.cpp:after_job_inval"]}
{"id": "C83", "title": "Building in parts", "statement": "Processes of one task tree may be built in parts: executions of different sets and filters, one after another and none with a failure. Afterwards everything that was in any part is up to date, provided each part contains the tasks producing the files its tasks read. No task is executed again after the first part it was in. Work done in a second part always has a cause: a task that was not in the first part, or one without outputs.", "quantifier": "every task tree, every number of executions with any sets, filters, thread counts and schedules, every initial file system whose files belong to the declaring tasks", "why_tests_cant": "a claim about all sequences of partial executions and all schedules of each", "anchors": ["src/exec.cpp:exec", "src/dag.cpp:insert_set", "src/process.cpp:is_invalidated", "include/joque/task.hpp:task_set"]}
{"id": "C84", "title": "Customised graphs", "statement": "A graph made or changed by hand with emplace, add_edge, clear_if and insert_set, in any order, can be executed: the guarantees about executions apply to it, and its memory is handled without undefined behaviour or leaks. Nodes removed with clear_if are never enqueued, asked or run; every other node is recorded once; run-after and requires relations between two remaining nodes still hold, those that went through a removed node do not. Removing never makes a cycle; adding an edge makes one exactly if it is a run-after edge whose target already runs, directly or not, after its source.", "quantifier": "every sequence of edits of every length, every graph, every execution of it", "why_tests_cant": "a claim about all edit sequences and all executions of the resulting graphs", "anchors": ["include/joque/exec.hpp:exec(dag, ...)", "include/joque/bits/dag.hpp:graph", "include/joque/dag.hpp:add_edge", "src/exec.cpp:exec"]}
{"id": "C85", "title": "The screen of the default visitor", "statement": "On a terminal wide enough the default visitor leaves exactly its end lines, the outputs of failed tasks (of all executed tasks when verbose) and the summary, in order, each with the same columns and colours: grey time, total, slashes and durations, the status in its colour, counts of zero in grey. Lines that announce a start are overwritten completely by the next line; only the last one is visible, and only until something follows. After everything printed the colour is the usual one and the cursor is visible, at the start of its line; after the execution that line is empty. Messages of the verbose mode take lines of their own but may be followed there by remains of a start line.", "quantifier": "every execution at any time, every schedule, all names, outputs and messages of printable characters, all times of six characters, whatever the screen showed before", "why_tests_cant": "a claim about all interleavings of start and end lines and all lengths of names, counters and durations", "anchors": ["src/print_exec_visitor.cpp:print_exec_visitor", "src/format.cpp:format_line", "src/format.cpp:fmt_text", "src/format.cpp:end_text", "src/format.cpp:format_nested"]}
{"id": "C86", "title": "Flags set beforehand", "statement": "The flags of a graph's nodes are public; an execution takes the graph with whatever its owner has set. The `invalidated` flag may be anything: what happens and what is returned does not depend on it. A node marked as started or as done is never announced or executed, and the execution never returns a record. A node marked as failed stays marked, even if its own task is executed and succeeds: nothing that requires it is executed, and the records of such nodes have status DEPF.", "quantifier": "every graph, every setting of the flags, every number of threads, every schedule and outcome", "why_tests_cant": "a claim about all settings of the flags of all graphs and all executions", "anchors": ["include/joque/dag.hpp:node_content", "src/exec.cpp:exec(dag, ...)", "src/exec.cpp:find_candidate", "src/exec.cpp:any_dep_failed"]}
{"id": "C87", "title": "Executions that share the default visitor", "statement": "The default visitor is one global object, so executions that are ticked in turn share it. If the program ticks them from one thread, and destroys each only after it has reported its end (or if it began no task), then the visitor never reads a node that was deleted, and what it prints for each execution is what it would print if that execution had a visitor of its own, except for the status lines: these show the execution's own counter, within its total, and the name of a task that some execution began, possibly another one.", "quantifier": "any number of executions of any graphs, every way to tick them in turn, every schedule and outcome, verbose or not", "why_tests_cant": "a claim about all interleavings of all executions", "anchors": ["include/joque/print_exec_visitor.hpp:PRINT_VISITOR", "src/print_exec_visitor.cpp:print_exec_visitor::after_run", "src/print_exec_visitor.cpp:print_exec_visitor::after_execution", "include/joque/exec.hpp:exec"]}
{"id": "C88", "title": "The period of run()", "statement": "In a call run(period) at least the period passes between the beginnings of two ticks. The i-th tick (from 0) does not begin before i periods have passed since the call, nor before the previous tick has returned, so k ticks begun within a time d need more than k-1 periods; with exact sleeps and ticks no longer than the period, the ticks begin exactly one period apart, without drift. Every call could have been made with exact sleeps, with the same effects and ticks of the same durations, and then no tick begins later. Running n > 0 tasks to their record takes at least n+2 ticks (exactly n+2 with thread_count 0) and therefore at least n+1 periods however short the jobs are, and at most n+2 ticks plus one per poll that found a job running. With at most one thread it takes exactly that many ticks.", "quantifier": "every graph, thread count, period, schedule of the jobs, duration of the ticks and lateness of the sleeps", "why_tests_cant": "timings differ from run to run; the bounds hold for all of them and all graphs", "anchors": ["src/exec_coro.cpp:exec_coro::run", "include/joque/exec_coro.hpp:run", "src/exec.cpp:exec"]}
{"id": "C89", "title": "An incremental build makes what a build from scratch makes", "statement": "Let each process task declare its inputs and outputs, no two tasks write the same file and a task transitively depend on those that write its inputs. Let nothing be built at first, and then let there be any number of edits of sources (dated not before the other files), removals of outputs and executions of any sets and filters, with failures or given up while no job was running. When a further execution has then ended without failure, the content of every output of its tasks is what the programs make of the present sources, through all steps; so it is the same as after a build of the same sources from scratch. This is not so if an execution was cut off while a job was running (even with a retcode file), or if an edited source has an old date.", "quantifier": "every task store, project, deterministic programs, sequence of edits and executions (sets, filters, thread counts, schedules, outcomes), and every time at which the jobs read and write", "why_tests_cant": "the claim is about the contents after all histories of edits and executions", "anchors": ["src/process.cpp:is_invalidated", "src/process.cpp:run", "src/exec.cpp", "src/dag.cpp"]}
{"id": "C90", "title": "Threads are made use of: a bound on the number of ticks", "statement": "A completed execution needs at most one tick() per task, two more, one for each poll of the jobs on some chain of distinct tasks each of which was held up by the next (it, or a task it transitively runs after, runs after the next one or shares a resource with it, and the next one was begun first), and B ticks at which all threads were taken; the number of threads times B is at most the number of polls of all jobs, and B is 0 if there are at least as many threads as tasks. So if no two tasks share a resource, no more than L tasks run one after the other and each job is found running by at most d polls, then N tasks on k threads need at most N + 2 + L(d+1) + N(d+1)/k ticks. If tasks share resources the last bound does not hold.", "quantifier": "every dag, resources, thread count, answers of jobs, and every completed execution with its schedule, job durations and outcomes", "why_tests_cant": "a test measures one schedule of one graph; the bound is about the worst of all schedules and graphs", "anchors": ["src/exec.cpp:exec", "src/exec.cpp:find_candidate", "src/exec.cpp:cleanup_coros", "src/exec_coro.cpp:tick"]}
{"id": "C91", "title": "A job sees what the jobs it runs after did", "statement": "If task A is to run after task B (depends_on or run_after, transitively) and both jobs are executed, then the end of B's job happens before the beginning of A's job in the sense of the C++ memory model, with no synchronization in the jobs: whatever B's job wrote to memory is visible to A's.", "quantifier": "every graph, resources, thread count, job outcomes and every history (interleaving, visitor exceptions, early destruction) in which the client's calls are made by one thread or synchronized", "why_tests_cant": "visibility between threads depends on the memory model and the schedule; a test that passes, even under a sanitizer, shows one interleaving on one machine", "anchors": ["src/exec.cpp: run, find_candidate, cleanup_coros", "src/dag.cpp: insert_set"]}
{"id": "C92", "title": "Jobs that share a resource are ordered", "statement": "If the jobs of two tasks that name a common resource are both executed, then when the second begins the first has ended, and its end happens before the beginning of the second; so a resource may stand for memory that these jobs read and write without locks.", "quantifier": "every graph, resources, thread count, job outcomes and every history (interleaving, visitor exceptions, early destruction) in which the client's calls are made by one thread or synchronized", "why_tests_cant": "visibility between threads depends on the memory model and the schedule; a test that passes, even under a sanitizer, shows one interleaving on one machine", "anchors": ["src/exec.cpp: run, find_candidate, cleanup_coros"]}
{"id": "C93", "title": "Order between jobs and the visitor and client", "statement": "Every call of is_invalidated (of any job) and the before_run of a task happen before its job begins. The end of its job happens before the on_run_log and after_run calls with its result, before after_execution, and before the destructor of the execution returns. So the visitor may prepare data for a job and read what it left without locks.", "quantifier": "every graph, resources, thread count, job outcomes and every history (interleaving, visitor exceptions, early destruction) in which the client's calls are made by one thread or synchronized", "why_tests_cant": "visibility between threads depends on the memory model and the schedule; a test that passes, even under a sanitizer, shows one interleaving on one machine", "anchors": ["src/exec.cpp: exec, run, cleanup_coros, propagate_invalidation", "src/exec_coro.cpp: exec_coro::~exec_coro"]}
{"id": "C94", "title": "No data races in a disciplined program", "statement": "Let the job of each task and the visitor, when called with before_run, on_run_log or after_run about it, use any memory, such that every two tasks that use one location, one of them writing, are ordered by depends_on or run_after (transitively) or name a common resource; let is_invalidated, the other callbacks of the start, after_execution and whoever destroys the execution use anything. Then no execution has a data race on that memory. In an execution of a task set the calls on one job object are never unordered. The discipline is needed; a graph filled by two insert_set calls that pick one task can run its job object on two threads unordered; and the node given to after_run can be that of a job still running.", "quantifier": "every graph, resources, thread count, job outcomes and every history (interleaving, visitor exceptions, early destruction) in which the client's calls are made by one thread or synchronized; every assignment of memory to tasks", "why_tests_cant": "visibility between threads depends on the memory model and the schedule; a test that passes, even under a sanitizer, shows one interleaving on one machine", "anchors": ["src/exec.cpp: exec, run, cleanup_coros", "src/run_coro.hpp: run_coro::operator=", "include/joque/job.hpp: job"]}
{"id": "C95", "title": "Task sets, however they are assembled", "statement": "Let a program put task sets together by any sequence of assignments to tasks[name] and sets[name], moves of sets (also out of functions), erasures, free-standing tasks, changes of tasks through references, and the bulk dependency helpers. Then every set lists its tasks in key order, no task is in two places and every task in a set exists; after each operation exactly the expected paths hold the expected tasks. A reference to a task stays good and means the same task when its set is moved; an assignment to a name in use keeps the task's address, so that references now mean the new content. A program that destroys no task and names existing tasks in depends_on can execute any of its sets with any filter, without undefined behaviour; replacing a set on whose tasks others depend breaks this. The program of example.cpp, with any number of tasks in place of 20, records exactly //a/task_i and //b/task_i, all OK. The program of README.md ends with the exception for a cycle.", "quantifier": "every finite sequence of operations on any number of task_set variables, all names, paths, addresses given out by the allocator, filters and thread counts; every number of tasks of the example", "why_tests_cant": "address stability and lifetime of referenced tasks hold or fail for whole programs; dangling references often go unnoticed at run time", "anchors": ["include/joque/task.hpp: task, task_set, for_each_task", "src/task.cpp: for_each_task, add_dep_to_each, run_each_after", "example.cpp: gen_tasks, main", "README.md: Example", "src/exec.cpp: exec"]}
{"id": "C96", "title": "An execution sees what the executions before it did", "statement": "Let a program make any number of executions, one at a time: the client begins an execution only when none is in progress, but may leave finished, failed or destroyed ones behind. Then whatever happens in one execution (calls of jobs, questions whether they are invalidated, calls of the visitor) happens before, in the sense of the C++ memory model, whatever happens later in another, whichever threads it is on and however the earlier one ended: by finishing, by an exception or by being destroyed while jobs were running. Hence jobs of different executions may share memory and job objects, and the program has no data race if each execution by itself is disciplined (C94). Two executions of one set in progress at the same time do race, on the job object if on nothing else.", "quantifier": "every number of executions, every graph, thread count, interleaving and outcome of each; any assignment of memory locations to jobs and visitor calls", "why_tests_cant": "a missing synchronization shows up only on some schedules and memory orders", "anchors": ["src/exec.cpp: run_task, exec_coro", "include/joque/exec.hpp: exec", "include/joque/exec_coro.hpp: exec_coro"]}
{"id": "C97", "title": "Jobs may execute task sets themselves", "statement": "The job of a task may itself build, tick and destroy executions of further task sets, on the thread it is called on and to any depth, as long as it does so during the call, one execution after the other, and does not return while one of them is in progress. Then everything that happens in such an inner execution (its jobs, on however many threads, its questions and its visitor) happens, in the sense of the C++ memory model, after the outer job began and before it ended. So the tasks that run after the task of the outer job, and whatever is executed inside them, see all of it. The whole program has no data race if what is used inside a job counts as used by that job and each execution by itself is disciplined (C94). A job that returns while an execution it made is in progress gives no such guarantee.", "quantifier": "every nesting of executions, every graph, thread count, interleaving and outcome of each; any assignment of memory locations to jobs and visitor calls", "why_tests_cant": "a missing synchronization shows up only on some schedules and memory orders; the nestings are unbounded", "anchors": ["src/exec.cpp: run_task, exec_coro", "include/joque/exec.hpp: exec", "include/joque/exec_coro.hpp: exec_coro", "include/joque/job.hpp: job"]}
{"id": "C98", "title": "Changing tasks while an execution exists", "statement": "An execution works on the graph made when exec was called. Meanwhile the program may change or destroy tasks that are not in the graph or are recorded already, add tasks to the set, change the relations (depends_on, run_after, invalidated_by) and the hidden flag of any task, let jobs change their answer to is_invalidated once the first tick was made, and do anything after the execution is over: the execution can take exactly the same steps with the same effects as if nothing had been changed. Changing the resources of a task that is not recorded yet is not safe: a task that gains a resource while its job is executed lets two other jobs that share it be executed at the same time, and one that loses a resource makes an assertion fail.", "quantifier": "every graph, thread count, interleaving, outcome, and every history of changes between the steps", "why_tests_cant": "a change that matters only on some schedules, and a read of a dead object that happens to work, pass every test", "anchors": ["include/joque/dag.hpp: node_content", "include/joque/records.hpp: run_record", "src/exec.cpp: find_candidate, run, propagate_invalidation"]}
{"id": "C99", "title": "The executor is exactly a simple machine", "statement": "Whatever is done with an execution, the jobs begin and end only as the following machine allows. A job begins at most once, only if the set can be executed (no cycle, a job for every task, no throwing is_invalidated), if its task is invalidated, if nothing it requires counts as failed, if everything it is to run after, however indirectly, is settled (job ended, not invalidated, or a requirement failed), if no running job has one of its resources, and if fewer jobs than threads (one without threads) run. A running job may end at any time with any outcome. Conversely, with a thread for every task and no shared resources, every sequence of begins and ends this machine allows can happen. With fewer threads that is not so: which task begins first is then decided by addresses as well.", "quantifier": "every graph, thread count, interleaving, outcome, client and visitor behaviour; for the converse every sequence of steps of the machine", "why_tests_cant": "no set of runs shows that nothing else can happen, nor that everything allowed can", "anchors": ["src/exec.cpp: exec, run, find_candidate, any_resource_used", "include/joque/exec.hpp: exec"]}
{"id": "C100", "title": "Nothing but what was declared keeps tasks apart", "statement": "Take tasks of a set that can be executed, no more than there are threads, all invalidated, such that no one of them is held up by another: neither it nor anything it is to run after, however indirectly, runs after another one of them or shares a resource with another one. Then there is an execution in which all of them run at the same time, beginning in any given order and ending in any given order with any outcomes. It is not enough that the tasks themselves neither share a resource nor run after each other: a task that one of them runs after can be kept from running by another one.", "quantifier": "every graph, set of tasks, order of begins and order of ends, outcome of each job", "why_tests_cant": "whether tasks can run at once depends on the whole graph, and the moment is never hit in a test", "anchors": ["src/exec.cpp: exec, find_candidate, run"]}
{"id": "C101", "title": "An execution fails for one of four reasons, at once and for good", "statement": "If result() throws, then one call of tick() made the execution fail, and the exception tells why: the first tick found a cycle, which the visitor was just told about; the first tick asked a job whether it is invalidated and that threw; no thread could be started for an invalidated task the visitor was just told about by before_run; or a callback of the visitor threw. That event is the last thing the control thread did: afterwards only jobs under way begin or end. The task no thread could be started for is never executed and gets no record. After a failed thread start or a throwing callback there is never a record and no further callback. Without those reasons no execution fails, whatever its jobs return or throw.", "quantifier": "every graph, thread count, interleaving, outcome of the jobs and answers of is_invalidated, every moment at which a thread start or a callback fails", "why_tests_cant": "thread starts do not fail in tests and a callback can throw at any of unboundedly many moments", "anchors": ["src/exec.cpp: exec, run", "src/exec_coro.cpp: exec_coro::result, exec_coro::tick", "src/run_coro.hpp: run_coro::promise_type"]}
{"id": "C102", "title": "What happens to a task depends only on what is behind it", "statement": "Call behind a task the tasks it depends on or is invalidated by, the ones those depend on or are invalidated by, and so on. If two executions - of different task sets, with different filters, thread counts, places of the tasks in the sets, resources, run_after lists and schedules - select the same of the tasks behind a task, and the jobs of these tasks report themselves invalidated alike and end alike, the task gets the same status, return code and output in both. In particular, executing a task set with a filter does to the selected tasks what executing the whole set does to them, provided tasks are only invalidated by tasks they depend on; without that proviso a filter can leave out the task that would have caused an execution, and the task is skipped.", "quantifier": "every pair of executions of task sets over the same tasks, all filters, thread counts, placements, interleavings, outcomes and answers; every pair of graphs that look alike from two nodes on", "why_tests_cant": "it relates two executions, for all pairs of task sets and all schedules of each; a test runs one pair", "anchors": ["src/dag.cpp: insert_set", "src/exec.cpp: exec, run", "include/joque/task.hpp: task"]}
{"id": "C103", "title": "What filters select", "statement": "In terms of the tasks recorded by a finished execution of a task set: a longer filter selects no more tasks than one it contains; the empty filter selects every task of the set and what those depend on; a filter no full name contains selects nothing. If the names of tasks and subsets are not empty and contain no slash, the full name of a subset followed by a slash selects exactly the tasks in that subset and below it, with what they depend on, and the full name of a task selects exactly that task and the tasks whose name at that place continues its name, with what they depend on. So no filter can be used to execute a task without those whose full names contain its full name.", "quantifier": "every task set, filter, graph address assignment, thread count, interleaving and outcome", "why_tests_cant": "it is about all task sets, names and filters; a test fixes a few strings", "anchors": ["src/dag.cpp: insert_set", "include/joque/task.hpp: for_each_task", "src/exec.cpp: exec"]}
{"id": "C104", "title": "Redundant declarations change nothing", "statement": "Listing a dependency, a run_after or an invalidated_by twice, in another order, or listing one that already follows from the others, and calling the bulk helpers in another order or repeatedly, changes nothing: two executions in which the jobs end alike record the same status, return code and output for every task, and with a thread for every task and no shared resources exactly the same sequences of jobs beginning and ending can happen. With fewer threads only the order in which tasks are picked can change.", "quantifier": "every pair of graphs or task sets with the same tasks whose declarations have the same transitive closures, every interleaving, outcome and number of threads", "why_tests_cant": "it compares all executions of two programs, for all graphs", "anchors": ["src/dag.cpp: insert_set", "src/exec.cpp: exec", "src/exec.cpp: find_candidate", "include/joque/task.hpp: task", "src/task.cpp: for_each_add_dep"]}
{"id": "C105", "title": "Constraints only restrict, and memory layout does not matter", "statement": "Adding a run_after or a resource, or taking threads away, never makes a new sequence of jobs beginning and ending possible: whatever the jobs can do then, they can also do without, when there is a thread for every task and no shared resource. It also never changes how a task is recorded: if the jobs end alike, every task has the same status, return code and output. Where the nodes are in memory and in which order the hash maps are iterated changes neither what is recorded nor, with enough threads and no shared resources, what sequences can happen. With fewer threads taking a constraint away can make a sequence impossible, because the first candidate is picked.", "quantifier": "every pair of graphs or task sets with the same jobs, dependencies and invalidations in which one has fewer run_after constraints and resources and no fewer threads, every placement in memory, hash order, interleaving and outcome", "why_tests_cant": "it compares all executions of two programs, for all graphs, memory layouts and interleavings", "anchors": ["src/exec.cpp: exec", "src/exec.cpp: find_candidate", "src/dag.cpp: insert_set", "include/joque/task.hpp: task::run_after", "include/joque/task.hpp: task::resources"]}
{"id": "C106", "title": "Running out of memory", "statement": "If an allocation of the library fails anywhere inside a call of tick(), the execution fails with that exception and nothing else goes wrong: what had happened is the beginning of something that could have happened anyway, so jobs begin at most once, in order and never beside one they share a resource with; the call returns as soon as the jobs under way have ended; result() throws only after every started job has ended; afterwards there is never a record, no callback and no further job. That exception is thrown only if an allocation did fail.", "quantifier": "every graph, thread count (deferred execution included), interleaving, outcome and every point of every tick at which an allocation can fail", "why_tests_cant": "an allocation failure can hit any statement in any interleaving; tests cannot make each of them fail", "anchors": ["src/exec.cpp: exec", "src/exec.cpp: run", "src/exec.cpp: cleanup_coros", "src/exec.cpp: propagate_invalidation", "src/exec.cpp: has_cycle", "src/exec_coro.cpp: exec_coro::result", "src/run_coro.hpp: run_coro::promise_type::unhandled_exception"]}
{"id": "C107", "title": "Spare threads make no difference", "statement": "If no more tasks are independent of each other (neither runs after the other, however indirectly, nor do they share a resource) than there are threads, another such number of threads changes nothing: exactly the same executions are possible, step by step, with the same callbacks, records and results. The same holds for a single execution in which, whenever a task could begin, a thread was free. Tasks that can be put into k groups, within each of which every two are ordered or share a resource, need no more than k threads.", "quantifier": "every graph, every two positive thread counts, every interleaving, outcome, throwing visitor and failing thread creation", "why_tests_cant": "equality of all executions for two thread counts quantifies over all interleavings; running a test twice compares two of them", "anchors": ["src/exec.cpp: exec", "src/exec.cpp: find_candidate", "src/exec.cpp: cleanup_coros", "include/joque/exec.hpp: exec"]}
{"id": "C108", "title": "Running out of memory while a graph is built", "statement": "If std::bad_alloc is thrown while insert_set fills a graph, the graph is left in order: everything it held before is still there, the nodes and edges made so far are nodes and edges of the graph that would have been built, every edge joins two of its nodes, and no node or edge is half linked. How many are there is how many could be allocated; with memory for all of them the call is not affected. exec on a task set, which builds a graph of its own, frees every node and edge of it. The graph left is not one to execute: edges between its nodes may be missing, so that a task can begin before the task it depends on.", "quantifier": "every task set, filter and graph it is inserted into, every order of iteration over the hash maps, and every allocation that may be the first to fail", "why_tests_cant": "a test makes one chosen allocation of one graph fail; the claim is about every allocation of every graph, and about memory that is no longer reachable", "anchors": ["src/dag.cpp: insert_set", "src/dag.cpp: dfs", "include/joque/dag.hpp: add_edge", "include/joque/bits/list.hpp: list_emplace_next", "src/exec.cpp: exec"]}
{"id": "C109", "title": "What tasks are called, and how they are grouped, does not matter", "statement": "Renaming tasks or moving them to other groups changes nothing but the names in the records: if the same tasks are picked (without a filter: if the sets hold the same tasks), whatever can happen when one set is executed can happen when the other one is, step by step, with the same callbacks, jobs and results, except for the names. Any two executions in which the jobs end alike record the same status, return code and output for each task, and either both sets are refused because of a cycle or neither is.", "quantifier": "every pair of task sets over the same tasks with filters that pick the same ones, every thread count, placement, hash order, interleaving, outcome, throwing visitor and failing thread creation", "why_tests_cant": "a test renames one set and runs it once; the claim compares all executions of all pairs of sets", "anchors": ["src/dag.cpp: insert_set", "src/exec.cpp: exec", "src/exec.cpp: run", "include/joque/task.hpp: for_each_task"]}
{"id": "C110", "title": "Two executions of the same tasks whose jobs do the same report the same", "statement": "Execute a task set twice with the same filter, each time with any number of threads, any placement in memory and any interleaving. If the jobs make the same demands and end alike, the two returned records have the same totals and list the same tasks with the same names, statuses, return codes and outputs; only the order of the runs and their times may differ. The same holds of the JUnit reports (names without XML special characters, at least one task) and of the JSON values made from the records.", "quantifier": "every store, task set, filter, pair of thread counts, placements, hash orders, interleavings and outcomes; every format of times", "why_tests_cant": "a test compares the reports of a few runs of one set; the claim is about every pair of executions of every set", "anchors": ["src/exec.cpp: exec", "src/exec.cpp: run", "src/junit.cpp: generate_junit_xml", "src/json.cpp: to_json"]}
{"id": "C111", "title": "Repairing jobs, or demanding more, harms nothing", "statement": "Execute the same tasks twice (any threads, placement and interleaving). If every job that succeeded the first time also succeeds the second time, a task that was OK or SKIP keeps its status, a task that had FAIL has FAIL or OK, and only tasks that were DEPF may get another one; a task whose status changes has, among itself and the tasks it transitively depends on, one that had FAIL and is now OK. (The number of failed tasks may rise, since tasks that were blocked are now executed.) If instead at least the same jobs demand to be executed and no job fails, everything executed the first time is executed, and OK, the second time.", "quantifier": "every store, task set, filter, pair of thread counts, placements, interleavings and outcomes; also executions that have not finished", "why_tests_cant": "a test repairs one job of one set; the claim compares all pairs of executions of all sets", "anchors": ["src/exec.cpp: run", "src/exec.cpp: any_dep_failed", "src/exec.cpp: propagate_invalidation", "src/dag.cpp: insert_set"]}
{"id": "C112", "title": "The times in a report fit together", "statement": "If the clock does not go backwards during an execution: at every instant at most as many runs are going on (by their recorded start and end) as the execution has threads (one if it has none); the runs are listed in the order of their ends; two executed tasks that need a common resource do not overlap; the durations of all runs together are at most the thread count times the length of the execution, and the durations along any chain of tasks in which each depends on, or runs after, the previous one are together at most that length. Both hold for the total time, in seconds, that the report shows.", "quantifier": "every store, task set, filter, thread count, placement, interleaving, outcome and clock that never goes backwards; all but the last part also for executions that have not finished or were destroyed", "why_tests_cant": "start and end are read by different code at different times under arbitrary interleavings; a test sees the times of one run on one machine", "anchors": ["src/exec.cpp: run", "src/exec.cpp: cleanup_coros", "src/exec.cpp: exec", "src/records.cpp: runtime_sum", "include/joque/records.hpp: run_record"]}
{"id": "C113", "title": "A task set is in order after an exception", "statement": "for_each_task calls the function for the tasks in the usual order, and the first exception (of the function, or std::bad_alloc) ends the visit at once, with exactly the tasks before it visited. If memory runs out in for_each_add_dep, add_dep_to_each, run_each_after, run_after_all_of or invalidated_by_all_of, every task keeps its job, resources and all it listed, and only entries the call was to append have been appended. Calling it again until it succeeds leaves the declarations of a single call (some listed more than once), so executions mean the same; a call that threw makes no cycle that the complete one would not make. A call that returns was never refused memory.", "quantifier": "every task set, task, function and program state, every allocation that may fail, and every number of attempts", "why_tests_cant": "a test makes one allocation of one call fail; the claim is about every point of failure in every tree and any sequence of attempts", "anchors": ["include/joque/task.hpp: for_each_task", "include/joque/task.hpp: for_each_task_impl", "src/task.cpp: for_each_add_dep", "src/task.cpp: add_dep_to_each", "src/task.cpp: run_each_after", "src/task.cpp: run_after_all_of", "src/task.cpp: invalidated_by_all_of"]}
{"id": "C114", "title": "What other threads, places or constraints cost", "statement": "A completed execution of at least one task takes at least two ticks more than there were polls (the last ones included) of the jobs of any tasks that run one after the other, and the polls of all jobs are shared among the threads. So compare two completed executions whose jobs are found running equally often, the first one without shared resources, with not fewer threads, and with no task or run-after constraint that the second one does not have, wherever the nodes are in memory: the first one takes at most three times as many ticks (in general, for k and k' threads, k ticks of it for at most 2k + k' of the other); at most twice as many with a thread for each task. But it can take more: there are five jobs that take 9 ticks with two threads and 10 with three. Nothing takes longer than one thread: an execution with at most one thread, of the same tasks or more, takes at least as many ticks as any other whose jobs are found running as often or less, whatever the constraints of either.", "quantifier": "every two task sets (or graphs) as described, all filters, node addresses, thread counts, and every pair of completed executions (any interleaving of jobs, polls and ticks)", "why_tests_cant": "a test compares two runs of one graph; the factor holds for all graphs, job lengths and thread counts", "anchors": ["src/exec.cpp:exec", "src/exec.cpp:find_candidate", "src/exec.cpp:cleanup_coros", "src/exec_coro.cpp:tick", "src/dag.cpp:insert_set"]}
{"id": "C115", "title": "Each call of tick() polls every job under way exactly once", "statement": "A call of tick() that ends without exception polls (asks, without waiting, and finds still running) exactly those tasks that have begun and not ended when it returns - whether it began them itself or an earlier call did - and each of them once. These are not more than there are threads (one, if jobs are executed in tick()). However it ends, it polls no task twice. Over a whole execution that returns a record, a task is therefore polled as often as tick() is called between its before_run and its after_run.", "quantifier": "every graph, every thread count, every reachable state, every task, every interleaving with jobs that begin and end during the call", "why_tests_cant": "a test observes one schedule; a job skipped or polled twice while the list of running jobs is compacted shows only for particular orders of ends", "anchors": ["src/exec.cpp:cleanup_coros", "src/exec.cpp:run", "src/exec.cpp:exec", "src/exec_coro.cpp:tick"]}
