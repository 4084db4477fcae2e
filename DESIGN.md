# Formal model of koniarik/joque in Coq 8.16

`properties.jsonl` lists the properties (C01...).  `MANIFEST.json` says which theorems prove which.
`seeded/LOG.jsonl` records the attempts to break the theorems with wrong programs.  Entries with
`"kind": "automatic"` come from single-token edits made by a script: there only the first failing proof was
observed, the list of theorems is everything that rests on it, and which claim became false was not judged
edit by edit.  A failing proof alone does not show that a statement became false; the other entries were written
for a claim.

## Layout of `rocq/theories`

| directory | contents |
|---|---|
| `Model/` | the code as definitions, no proofs; each definition cites the lines of /repo it models and says what it simplifies |
| `Spec/` | the vocabulary of the statements: graphs, histories, files, XML, sequences, ownership.  Independent of the algorithms in `Model/` |
| `Proofs/` | lemmas |
| `Properties/` | the theorems named after the properties, each one line `exact lemma`, `Print Assumptions` beneath, and a concrete case (`Cnn_case...`) that meets its hypotheses |
| `Validation/` | the unit tests of /repo (`test/*.cpp`) replayed in the model: checks of the model against expectations that hold for the code, not proofs |

Where to look: `Properties/Ordering.v`, `Status.v`, `Startup.v`, `Progress.v`, `Enough.v`, `Protocol.v`, `Quiet.v` (executions of
arbitrary graphs), `TaskSets.v` (graphs built from task sets, executions of task sets), `HashLoop.v` (building a graph over a map that grows), `Machine.v` (the executor as a machine of beginning and ending jobs, tasks that can run at once), `Failure.v` (why an execution fails), `NoMemory.v` (failing allocations in `tick`), `BuildAlloc.v` (failing allocations while a graph is built), `Places.v` (which node after_run is given), `Spare.v` (threads that nothing waits for), `Throwing.v` (callables that throw), `Locality.v` (what the fate of a task depends on), `Filters.v` (what filters select), `Redundant.v` (declarations that say the same), `Constraints.v` (fewer constraints, other places in memory), `Names.v` (names and groups), `SameReport.v` (reports of two executions of the same), `Better.v` (repaired jobs and further demands), `Times.v` (the times in a report, C112), `CallThrow.v` (exceptions in for_each_task and the helpers, C113), `Anomaly.v` (what other threads, places or constraints cost), `Polls.v` (when a job is polled), `OneThread.v` (executions with at most one thread), `Calls.v` (any number of calls of the bulk helpers), `HandBuilt.v` (requires edges in graphs made by hand), `Assembly.v` (programs that put task sets together), `Successive.v` (happens-before across executions), `Nested.v` (jobs that execute task sets), `Changes.v` (tasks that change during an execution), `Processes.v`,
`Rebuilds.v`, `FileErrors.v`, `MovingFiles.v`, `Builds.v` (process jobs, files, failing file queries, files changing during a check, repeated builds), `Parts.v` (builds in several parts), `Contents.v` (contents of the files after any history of builds), `Edits.v` (graphs changed by hand), `Presets.v` (graphs whose flags were set before), `Reasons.v`, `Messages.v` (what checks and the default visitor say), `Reports.v` (text, JUnit, JSON, default visitor), `Screens.v` (the default visitor on a terminal), `Shared.v` (one visitor for several executions), `Timing.v` (times of `run()`),
`Memory.v` (intrusive lists, graphs in memory, ownership of coroutine frames), `Cost.v` (work of the searches).

## What is modelled

| part of /repo | model file | how |
|---|---|---|
| `include/joque/task.hpp`, `src/task.cpp` | `Model/TaskSet.v` | task-set tree of task addresses + a store address -> task; visiting order and names; the five helpers as folds over the visit |
| programs that fill `task_set` variables; `example.cpp`, the program in `README.md` | `Model/Assemble.v` | `std::map` as a sorted list whose elements keep their addresses; assignment, move, erasure, references, helpers; creating an object at a used address is impossible |
| `include/joque/dag.hpp`, `src/dag.cpp` | `Model/Dag.v` | nodes and edges as front-first sequences; `dfs`/`insert_set` (into any graph) as fuelled recursion; iteration orders of the two `unordered_map`s and the addresses of new nodes are parameters; keys inserted into the map being iterated are counted (`Model/HashLoop.v`: the loop over the growing map, with a rehash as undefined behaviour); following a dangling reference is undefined behaviour; `Model/Cost.v` repeats the searches of `dag.cpp` and `exec.cpp` with counters |
| `src/exec.cpp` (search, cycle check, invalidation) | `Model/Sched.v` | `find_candidate`, `check_for_cycle`, `get_cycle`, `has_cycle`, `propagate_invalidation` as fuelled functions |
| `src/exec.cpp` (`exec` on a graph, `run`, `cleanup_coros`), `src/run_coro.hpp`, `src/exec_coro.cpp` (`tick`, `done`, `result`, `run`) | `Model/Exec.v` | labelled transition function: client calls (`tick`, destruction), control-thread micro steps (one coroutine resumption at a time), job-thread steps (begin, end with any outcome), clock steps, failing thread creation, throwing visitors.  Every observable event is appended to a log |
| `src/exec_coro.cpp` (`run` with its sleeps) | `Model/RunLoop.v` | the loop over `Exec.v` with the times at which ticks begin and return on a steady clock; a sleep may end late |
| failing allocations inside `tick` | `Model/Alloc.v` | one more label over `Exec.v`: the step in which something is allocated stops after any of its events and exec's body is unwound |
| failing allocations inside `insert_set` | `Model/BuildAlloc.v` | the functions of `Dag.v` with a count of the nodes and edges that can still be allocated and `std::bad_alloc` as an outcome; the maps and names allocate in between without touching the graph |
| failing allocations, and throwing functions, inside `for_each_task` and the helpers of `src/task.cpp` | `Model/CallThrow.v` | the recursion of `TaskSet.v` over an arbitrary program state with an outcome `Threw`; making a name may fail, `emplace_back` fails without effect |
| the global `PRINT_VISITOR` given to several executions | `Model/SharedVisitor.v` | the callbacks of `Model/Visitor.v` in the order of a history of `Model/World.v`; which nodes exist follows from which executions were destroyed; callbacks of two executions never overlap (one client thread) |
| `node_content`'s public flags before an execution | `Model/Preset.v` | initial state of `Exec.v` with arbitrary flags; everywhere else nobody has set them |
| `src/exec.cpp` (`exec` on a task set) | `Model/ExecSet.v` | composition of `Dag.v` and `Exec.v` |
| assignments to tasks while an execution exists | `Model/Changes.v` | steps of `Exec.v` under a task memory that changes in between; the jobs' code is not part of it |
| several `exec_coro` objects in one program | `Model/World.v` | interleaving of `Exec.v` steps; nothing shared but tasks and visitor |
| `include/joque/traits.hpp`, `job.hpp`, lambda in `run` | `Model/Jobs.v`, `Model/JobTypes.v` | exception wrapping; the uninitialised `retcode` is an arbitrary value; callables and processes behind one job type |
| `include/joque/exec_coro.hpp`, `src/exec_coro.cpp` (moves, destruction) | `Model/Coro.v` | objects owning frames |
| `src/process.cpp`, `include/joque/process.hpp`, `out.hpp` | `Model/Process.v`, `Model/Text.v`, `Model/FileQueries.v` (checks whose `exists` / `last_write_time` may fail), `Model/MovingFiles.v` (each query of a check sees the files of its own moment) | file system as a map path -> time + content + readable; the subprocess layer (reproc) answers arbitrarily |
| `src/records.cpp`, `include/joque/records.hpp`, `run_result.hpp` | `Model/Records.v`, `Model/Format.v` | records, `push`, `runtime_sum` (undefined on an empty record) |
| `src/junit.cpp`, `src/json.cpp` | `Model/Report.v` | text / JSON tree |
| `src/format.cpp`, `src/format_dag.cpp` | `Model/Format.v` | string functions |
| `src/print_exec_visitor.cpp` | `Model/Visitor.v` | state machine over the events of `Exec.v`; reading a node that no longer exists is undefined; the stream (stdout or stderr) of each piece |
| `include/joque/bits/list_ptr.hpp`, `bits/list.hpp`, `bits/dag.hpp` | `Model/Heap.v` | machine words with a tag bit; heap of list headers, pointer updates one by one, explicit undefined behaviour for null, freed or doubly created objects |

Not modelled:

- `list_unlink` (list.hpp:200-212) is never used (and would not compile: `list_ptr` has no `operator*`); `generate_junit_xml` to a
  path only opens a file; `run_coro::run` is never called.
- Memory exhaustion outside `tick`, `insert_set`, `for_each_task` and the helpers (while a `std::map` is filled or a report is built), stack overflow of the recursive searches, what user jobs and
  visitors do to memory (C94 takes any assignment of locations), weakly ordered atomics in them,
  visitors that call back into the library (jobs that execute task sets: C97).
- `chrono` formatting of time points and of doubles (arbitrary functions), terminals too
  narrow for a line, the text encoding of names.
- Files that change in the middle of one `exists`, `last_write_time` or read of the retcode file.

Simplifications (each is also in the comment of the definition): the default values of `start` and `end`
of a run record are one reading of the clock (`Exec.new_record`); `log10` of a double is exact
(`Format.counter_width`, true below 10^15); `std::format` counts one column per byte; a step that throws out of a visitor does not track the flags it had set, nothing can read them any more.

## How properties are proved

Executions are finite label sequences `ls` with `run_labels c (init z) ls = Some s` (`reachable c z s`);
properties quantify over all of them: all graphs, task sets, thread counts, interleavings, job
outcomes, clock readings and client behaviours.  `trace s` is the history of observable events.
Safety properties are proved with one inductive invariant (`Proofs/ExecInv.v`, `ExecStep.v`,
`ExecCtl.v`) that includes a condition on every prefix of the history (`log_ok`); liveness (C13, C12) by
a potential and by completeness of the candidate search; determinism (C16) by showing that
every finished execution satisfies equations with a unique solution on an acyclic relation.
Graph searches are characterised by reachability / accessibility, with fuel proved sufficient.
Memory (C45-C48, C63) by a representation relation between heaps and sequences, preserved
by each operation.  Undefined behaviour is a distinct outcome everywhere.

When a property is false of the code, a theorem `..._refuted` exhibits a witness or shows
that it fails in all such cases; the true part is proved separately (`..._partial`).

## Plan per property

| id | modelled by | proof |
|---|---|---|
| C01 C02 C03 C04 C07 C14 C15 C22 C23 C57 | Exec | invariant over all reachable states, conditions on histories |
| C05 C06 C55 C56 C66 | Exec + Dag | equations satisfied by every finished execution; C66 by induction over the requires relation |
| C08 C09 C73 | Sched, Exec | worklist invariant; reachability; each call of `is_invalidated` is an event of the history, with conditions like the others |
| C10 C11 | Sched + Exec | DFS invariant: finished nodes are accessible; the stack is a path |
| C12 | Exec + Sched | completeness of `find_candidate`, minimal element of an acyclic relation |
| C13 C64 C72 | Exec | potential function; every tick begins a task or finds a job running, but for two at the end; with at most one thread the bound of C114 from below meets it; which labels are possible where |
| C16 | Exec | uniqueness of the solution of the status equations |
| C17 C18 C54 | Dag, HashLoop | DFS postcondition, permutation of edges; count of insertions; simulation between the loop over the growing map (a rehash is undefined behaviour) and the loop over its first keys |
| C19 C20 C60 | TaskSet | induction over the tree / fold |
| C21 | Exec, Spec/Places | refuted for 2 threads, proved for <= 1; for any number exactly when the node is right: the nodes of the slots and the tasks in them are both in the order they were begun, a slot never holds a task begun before its node, and each pass moves the tasks that stay to the front |
| C24 | Exec | refuted (resuming a coroutine at its final suspend point is undefined) |
| C25 C26 | Exec | invariant |
| C27 | Jobs | refuted for callables throwing `std::exception`; proved otherwise |
| C28 C29 C30 C31 C32 C33 C34 | Process | decision procedure, parser/printer round trip; C28, C29, C31, C34 refuted in general, with exact characterisations |
| C35 C36 | Records | extrema, ceiling division; C36 refuted |
| C37 C38 C61 | Report | a reader for the generated XML; structural; C37, C38 refuted in general |
| C39 C40 C41 C42 C43 | Format | string induction; C43 refuted |
| C44 | Heap | bit lemmas; the words represent the pointers of the heap model |
| C45 C46 C47 C48 C49 C63 | Heap | representation relation; C48 (assignment), C49 refuted |
| C50 C51 | Visitor | invariants over histories; C51 refuted in general |
| C52 | Exec | refuted without run-after edge, proved with it. `HandBuilt.v`: without any assumption on the edges, nothing happens between before_run and what follows from it (Proofs/RaceFacts), so the record is decided by the records so far |
| C53 | Exec | clock readings between labels of the history |
| C58 | Exec + Sched | step count; the order is a function of the graph; depth-first order |
| C59 | Coro | ownership invariant |
| C62 C65 C67 C69 C70 C71 | Exec + Dag + Process + JobTypes | composition; file histories along the events of an execution; C70 by induction along the dependency and invalidation relations |
| C68 | Exec + Dag + FileQueries | the checks agree with Process.v as long as no query fails; C10 for the exception |
| C74 | MovingFiles | bounds on the time read by each query; the claim in full is refuted by a concrete race |
| C75 | Format, Visitor | the text without escape codes, by induction over strings; counts and records from the invariant behind C14 |
| C76 | Cost | the searches once more with counters, shown to give the same answers; calls are charged to nodes that become seen and their edges; the depth by induction on the calls (Proofs/DepthFacts.v): the deepest child's path with the node in front |
| C77 | Exec | only the beginning of a tick calls on_tick; the main loop is left suspended with a task that is not begun; the tasks still to be picked plus the calls made |
| C78 | Exec, ExecSet | invariant over the history: the calls on one job so far, with what has been asked, begun and ended; each selected task has one node |
| C79 | Dag, Exec | induction over the calls of insert_set: nodes, names and edges of the result; the claim in full is refuted by three filters on one set |
| C80 | World | projection of a program's history to each execution; invariant: at most one execution is in progress or has unfinished jobs; refuted for two in progress |
| C81 | Exec, Visitor | the text written is a function of the events; each kind of event in a reachable trace is characterised (tasks without a job, the cycle, invalidations, run logs), so each piece of text is |
| C82 | Process, Exec | a specification of what each text claims about the files; case analysis of the check with the extremum lemmas of C28; carried to executions with the events of C14 |
| C83 | ExecSet, Process | induction over the sequence of executions: every task of a finished part stays made, because a later part writes only outputs of tasks it executes, and it executes only tasks reached from one that is not up to date |
| C84 | Dag, Heap, Exec | edits preserve well-formedness (induction over the edit sequence) and are simulated by the operations of the memory model; the theorems of C01, C02, C05, C10 applied to the trimmed graph; paths of a graph with one more edge |
| C85 | Visitor, Format | a terminal (`Spec/Screen.v`) interprets carriage returns and colour codes; each piece printed takes a screen with at most a start line at the cursor to such a screen; induction over the items, whose order is an invariant of the visitor |
| C86 | Preset, Exec | an execution that starts with arbitrary flags: flags are never taken back, so a marked node never leaves `to_process` and a failed one stays failed (invariants over all steps); for `invalidated` a simulation between two executions whose flags agree from the first loop of `propagate_invalidation` on |
| C87 | SharedVisitor, World, Visitor | invariant over the callbacks of all executions: the visitor's set holds only nodes whose execution began them and has not reported its end, so their graph exists; the lasting lines of a callback depend on the event alone. Witnesses show that status lines do mix, and that the condition on destruction is needed |
| C88 | RunLoop, Exec | induction over the loop for the times; number of ticks: invariant relating ticks, calls of on_tick and the two ticks after the last of them, with the bound of C13 from above; a witness refutes the distance of one period |
| C89 | ExecSet, Process | invariant over the life of the project: every task is out of date, or its outputs hold what its program makes of its present inputs and none was changed since; an execution keeps it (a job sees only final inputs, because their writers ended before it began), and after one without failure all selected tasks are of the second kind; then induction along the dependencies. `Spec/Contents.v` says what jobs are supposed to do; the discharge for process jobs and three counterexamples show what the suppositions are for |
| C90 | Exec | the calls of tick() are classified by what they found: the first, the last, a task was begun in the call before, all threads taken, waiting. The first three are counted by an invariant; when waiting, each task that is left is held up by one that is polled (induction along the after edges, from the invariant that no task is ready), which gives a chain by going backwards from the task recorded last; full calls by double counting of polls |
| C91 | Exec, Dag | happens-before is defined on the positions of the history (Spec/Races.v) as the transitive closure of the order within a thread and of the synchronization of std::async, future::get and ~future; an invariant of the history (what each kind of event may follow) gives end of B, on_run_log, record of B, launch of A, begin of A |
| C92 | Exec | a further invariant: when a task is taken up, every launched task that shares a resource with it is recorded; the two before_run calls are ordered, the first task's record lies between |
| C93 | Exec | as C91, with the positions of the calls of the start and the end |
| C94 | Exec, ExecSet | two events that concern one task, ordered tasks, or tasks with a common resource, are ordered, whichever comes first; witnesses for the need of the hypotheses by computation, absence of happens-before because nothing follows in the thread of a job that has not ended |
| C95 | Assemble, ExecSet | invariant of the memory of the assembling program (maps sorted, one place per task, live); each operation's effect on paths by induction on the path; `only_builds` keeps the store closed under depends_on; example.cpp by induction on the number of tasks, then C05 and C06 |
| C96 | World, Exec | the steps of a program as one history; an execution between whose steps another one makes steps has no frame left, so its last job has been waited for by the client (get or the destructor of the future); the next execution's jobs follow their launch; two executions in progress as witness |
| C97 | World, Exec | every execution has an owner: the client or a job of an earlier execution; induction on the nesting: an inner execution's events lie between begin and end of the owning job on its thread, its own jobs are waited for before it is left; the discipline of the outer execution orders the rest; a job that returns too early as witness |
| C98 | Changes, Exec | histories of steps and assignments to tasks; a step reads resources and job only of nodes that are not done, so two configurations that agree there take the same step; agreement is kept by steps and harmless changes; two witnesses for changed resources |
| C99 | Exec, Spec/Machine | soundness: the conditions kept with every event of the history give the conditions of the machine, a record being explained by ended jobs (FAIL/DEPF exactly if the task counts as failed); completeness: by induction on the steps of the machine, silent calls of tick() until the task is launched, which end because each one begins or records a task; a witness that one thread is not enough for the converse |
| C100 | Exec, Spec/Parallel, Spec/Machine | let every launched job outside the team end with code 0 and call tick(): the smallest unrecorded task below a member that is not launched could run, so each call makes progress until all members are launched and none has begun; a witness, by an invariant, that indirect conflicts count |
| C101 | Exec, Spec/Failure | case analysis of the step that leaves exec's body (the only ones: start, a failing thread start, a throwing callback), and of all steps after it, which only let jobs begin or end; induction on the history |
| C102 | Exec, Dag, TaskSet, Spec/Locality | two graphs related by a relation on nodes that matches required and invalidating edges and job objects: the status rule of C06 and the invalidation rule of C08 give equal answers along the relation, by induction on the position in an order of the first graph; the graphs of two task sets are related by the addresses of the tasks behind the task; a witness for the proviso |
| C103 | Dag, TaskSet, Exec, Spec/Filters | a finished execution records exactly the selected tasks (C17); then facts on strings: two slashes in a row occur only at the beginning of a full name, so a filter beginning with them is anchored there and is compared with the path component by component |
| C104 | Exec, Dag, TaskSet, Spec/Redundant | the machine of C99 sees the edges only through their transitive closures, so two graphs with the same closures have the same machine, which is the executor when there are threads for all; for the records: a task is blocked iff something it requires however indirectly failed (C02, C66), induction over the position of its record in the log; for task sets the paths of the graph are the paths of the declarations.  Counterexample for the order with one thread |
| C105 | Exec, Dag, TaskSet, Spec/Constraints | a renaming of the nodes that only drops run-after paths and shared resources maps every history of the machine of C99 to one of the other graph's machine, which is the executor when there are threads for all; for the records the induction of C104 along the renaming; for task sets the renaming takes a task's node to its node.  Counterexample with one thread |
| C106 | Exec, Alloc, Spec/NoMemory | a failing step that is not the first has the futures and the trace of the state before it or of one in which the visitor threw; the first tick leaves a prefix of its events and no job. This shadow execution follows every later job step, so all theorems about traces carry over; jobs not ended belong to coroutines still to be destroyed |
| C107 | Exec, Spec/Spare | the thread count is looked at only when the next task is chosen; there the waiting coroutines are exactly the tasks under way, so either fewer are waiting than either count or no task is ready and both counts lead to the same state; induction over the steps. The tasks under way and a ready one are pairwise independent, which bounds their number. Counterexample with one thread fewer |
| C108 | BuildAlloc, Heap | `insert_set` with a number of allocations left is the sequence of calls of emplace and add_edge that `insert_set` makes, cut off after that number (induction over the search, the filter loop and the second loop); any beginning of that sequence leaves a well-formed graph, and in memory one whose destruction frees everything. A graph left without an edge lets a task begin early |
| C109 | Exec, Dag, ExecSet, Spec/Names | replacing the names in a state commutes with every step, because names are only copied into records; `insert_set` on two sets that pick the same tasks, with their maps iterated in the same order of tasks, makes the same graph up to names. For arbitrary orders: the relation of C105 between the two graphs |
| C110 | Exec, ExecSet, Report, Spec/SameReport | two lists of records with the same tasks, each once (C01), whose records of equal tasks agree (C105, C109) are equal up to order and times; the totals are counted from them (C14). The test cases and the JSON runs are made record by record, so the reports agree too; `parse_xml` of the texts as for C37 |
| C111 | Exec, ExecSet, Spec/Better | the status equations (C06) in terms of tasks: blocked iff a task behind failed (C66), skipped only if not invalidated, otherwise the outcome of the job decides. A task blocked in the second execution has a failed task behind it there, which failed or was blocked in the first one too |
| C112 | the records of every history with a monotone clock; an invariant counts, for every past instant, the runs that were going on then, finished ones and live ones together, and bounds them by the slots; sums of durations by integrating that count over the instants between the first start and the last end | invariant, induction on the length of the time span |
| C113 | CallThrow, Spec/CallThrow, Spec/Calls | the visit with an outcome `Threw`: by induction on the tree it calls a prefix of the calls of `for_each_task`; a helper that threw did the first steps of its loop, whose entries are among those the call says (C20); one more complete call says all of them, so the lists have the same members (C104) |
| C114 | Exec, ExecSet, Spec/Parallel | an invariant over all steps: the polls and records of a set of tasks, plus those of its tasks the current tick has still to resume, are at most w per tick, where w bounds how many of them run at once (the threads; one, if they run one after the other); at the end each was recorded. Combined with the upper bound of C90. Task sets: the map from the nodes of one graph to those of the other keeps sequences. The first tick and the last one resume nothing, so with one thread the lower bound meets the upper one of C13. A computed pair of executions for the slowdown |
| C115 | Exec, Spec/Polls | an invariant over all steps, indexed by the states in which tick() was called: the polls of a task are the calls in which it was waiting, plus one if the current call has polled it already. At rest the waiting tasks are those begun and not ended, read off the trace. `C115_tick_cost` sums this over the tasks and bounds the sum by the threads (Proofs/TickCost) |

## Trusted base

- Coq 8.16.1's kernel (and `vm_compute`, used by the concrete cases and the refutations).
- `Print Assumptions` under every theorem of `Properties/` prints "Closed under the global context":
  no axioms, neither own nor of the standard library.  `coqchk` additionally lists
  the axioms `Coq.ssr.ssrunder.Under_rel...` of the standard library, which are loaded with it and not used.
- The reading of the C++ code that the model records: each definition cites the lines.  In
  particular the standard library (`std::map`, `unordered_map`, `async`, `future`, coroutines, `format`,
  `filesystem`, `chrono`), reproc and nlohmann::json behave as the comments say.
- The statements: `Spec/*.v` and `Properties/*.v`, and the definitions of `Model/` they mention.
