(** Reports and printed text: C35-C43, C50, C51, C61, C75. *)
From Coq Require Import String Ascii Lia.
From Verif Require Import Model.Common Model.Records Model.Jobs Model.TaskSet Model.Dag Model.Sched Model.Exec
     Model.ExecSet Model.Text Model.Format Model.Report Model.Visitor
     Spec.Graph Spec.Trace Spec.Tasks Spec.Xml Spec.Report Spec.Listing Properties.Demo Proofs.DemoFacts
     Proofs.FormatFacts Proofs.ReportFacts Proofs.DagListing Proofs.XmlExact Proofs.VisitorFacts Proofs.QueueFacts Proofs.PrintFacts Properties.TaskSets.
Open Scope string_scope.
Open Scope nat_scope.
Open Scope list_scope.

(** * C35 Total run time (times in nanoseconds) *)
Theorem C35_runtime_sum : forall er, er_runs er <> [] ->
  exists k first last, runtime_sum er = Some k /\
    In first (er_runs er) /\ In last (er_runs er) /\
    (forall r, In r (er_runs er) -> r_start first <= r_start r /\ r_end r <= r_end last)%Z /\
    ((k - 1) * 1000000000 < r_end last - r_start first <= k * 1000000000)%Z.
Proof. exact runtime_sum_spec. Qed.
Print Assumptions C35_runtime_sum.

Example C35_case : er_runs (s_erec (demo_end 2 lib_fails)) <> [].
Proof. vm_compute. discriminate. Qed.

(** * C36 Reporting an execution that ran nothing is defined: false *)

(** Whenever no task is selected the default visitor ends with a line whose text is
    undefined ([None]), and so is the JUnit report. *)
Theorem C36_refuted : forall st ts filt iv addr c z s er fmt_secs now suite verbose,
  execution_of st ts filt iv addr c -> (forall t, ~ selected st ts filt t) ->
  reachable c z s -> result s = RRecord er ->
  (exists v out, watch_exec c (print_visitor verbose) (trace s) = VOk v (out ++ [PExecEnd er])) /\
  render now (PExecEnd er) = None /\ generate_junit_xml fmt_secs now suite er = None.
Proof. exact nothing_selected. Qed.
Print Assumptions C36_refuted.

Definition empty_run (k : nat) : config := Config dag0 k demo_tasks (fun n => demo_inval (node_task dag0 n)).
Example C36_case : exists er,
  execution_of demo_store demo_set "no such task" demo_inval (fun t => t) (empty_run 2) /\
  (forall t, ~ selected demo_store demo_set "no such task" t) /\
  reachable (empty_run 2) 0 (go (empty_run 2) [LTick]) /\ result (go (empty_run 2) [LTick]) = RRecord er.
Proof.
  assert (E : execution_of demo_store demo_set "no such task" demo_inval (fun t => t) (empty_run 2)).
  { exists 2, (fun l => l), (fun l => l).
    split; [intros l; apply Permutation.Permutation_refl|]. split; [intros l; apply Permutation.Permutation_refl|].
    split; [exact demo_ordered|]. split; [exact demo_owned|].
    split; [split; [intros x y _ _ H; exact H|intros x _ []]|]. reflexivity. }
  eexists. split; [exact E|]. split; [|split].
  - intros t Ht. destruct (Proofs.SetExec.exec_facts _ _ _ _ _ _ E) as (_ & _ & _ & H & _).
    destruct (H t Ht) as [[] _].
  - apply go_reachable. vm_compute. reflexivity.
  - vm_compute. reflexivity.
Qed.

(** Whenever the graph has a node, all that the visitor prints and the report are
    defined.  Missing: the empty execution, where it is false. *)
Theorem C36_defined_partial : forall c z s verbose v out now,
  wf_dag (c_dag c) -> reachable c z s -> node_ids (c_dag c) <> [] ->
  watch_exec c (print_visitor verbose) (trace s) = VOk v out ->
  (forall i, In i out -> exists text, render now i = Some text) /\
  (forall er fmt_secs suite, result s = RRecord er ->
     exists text, generate_junit_xml fmt_secs now suite er = Some text).
Proof. exact reports_defined. Qed.
Print Assumptions C36_defined_partial.

Example C36_defined_case : exists v out er,
  wf_dag (c_dag (demo 2)) /\ reachable (demo 2) 0 (demo_end 2 lib_fails) /\ node_ids (c_dag (demo 2)) <> [] /\
  watch_exec (demo 2) (print_visitor false) (trace (demo_end 2 lib_fails)) = VOk v out /\
  result (demo_end 2 lib_fails) = RRecord er /\ List.length out = 14.
Proof.
  do 3 eexists. split; [exact wf_demo|]. split; [exact reach_demo_fail|]. split; [vm_compute; discriminate|].
  split; [vm_compute; reflexivity|]. split; [vm_compute; reflexivity|reflexivity].
Qed.

(** * C37 JUnit report counts, C38 well-formedness *)

(** Partial, as C38: there is a run, and the suite and task names (and the formatted times) contain no
    quote, <, & or control character. *)
Theorem C37_junit_counts_partial : forall fmt_secs c z s er now suite,
  wf_dag (c_dag c) -> reachable c z s -> result s = RRecord er -> er_runs er <> [] ->
  plain_text suite -> plain_text now -> (forall d, plain_text (fmt_secs d)) ->
  (forall r, In r (er_runs er) -> plain_text (r_name r)) ->
  exists text attrs cases,
    generate_junit_xml fmt_secs now suite er = Some text /\
    parse_xml text = Some (Elem "testsuite" attrs cases) /\
    Forall2 (fun r x => is_case (r_name r) (status_eqb (r_status r) FAIL) x) (er_runs er) cases /\
    In ("name", suite) attrs /\
    In ("tests", dec_nat (List.length cases)) attrs /\
    In ("failures", dec_nat (List.length (filter has_failure cases))) attrs.
Proof. exact junit_counts. Qed.
Print Assumptions C37_junit_counts_partial.

(** [dec_nat] is the usual decimal notation. *)
Theorem C37_numbers : forall n, value (dec_nat n) = Some n.
Proof. exact value_dec_nat. Qed.
Print Assumptions C37_numbers.

Ltac plain := repeat (split; [split; [discriminate|split; [discriminate|split; discriminate]]|]); exact I.
Example C37_case : exists er,
  reachable (demo 2) 0 (demo_end 2 lib_fails) /\ result (demo_end 2 lib_fails) = RRecord er /\
  er_runs er <> [] /\ plain_text "my suite" /\ (forall r, In r (er_runs er) -> plain_text (r_name r)) /\
  plain_text "2026-01-01 12:00:00".
Proof.
  eexists. split; [exact reach_demo_fail|]. split; [vm_compute; reflexivity|]. split; [discriminate|].
  split; [vm_compute; plain|]. split; [|vm_compute; plain].
  intros r H. cbn in H. repeat (destruct H as [<-|H]; [vm_compute; plain|]). destruct H.
Qed.

Theorem C38_parses_partial : forall fmt_secs now suite er t,
  runtime_sum er = Some t -> plain_text suite -> plain_text now ->
  Forall (fun r => plain_text (r_name r) /\ plain_text (fmt_secs (r_end r - r_start r)%Z)) (er_runs er) ->
  exists text attrs cases, generate_junit_xml fmt_secs now suite er = Some text /\
    parse_xml text = Some (Elem "testsuite" attrs cases) /\ In ("name", suite) attrs /\
    Forall2 (fun r x => In ("name", r_name r) (el_attrs x)) (er_runs er) cases.
Proof. exact junit_names. Qed.
Print Assumptions C38_parses_partial.

(** Exactly for which names that is so. *)
Theorem C38_names_iff : forall fmt_secs, (forall d, plain_text (fmt_secs d)) ->
  forall now suite er t, runtime_sum er = Some t -> plain_text now ->
  (exists text attrs cases, generate_junit_xml fmt_secs now suite er = Some text /\
     parse_xml text = Some (Elem "testsuite" attrs cases) /\ In ("name", suite) attrs /\
     Forall2 (fun r x => In ("name", r_name r) (el_attrs x)) (er_runs er) cases) <->
  plain_text suite /\ forall r, In r (er_runs er) -> plain_text (r_name r).
Proof. exact junit_exact. Qed.
Print Assumptions C38_names_iff.

Example C38_case : exists er t,
  reachable (demo 2) 0 (demo_end 2 lib_fails) /\ result (demo_end 2 lib_fails) = RRecord er /\
  runtime_sum er = Some t /\ List.length (er_runs er) = 6.
Proof.
  do 2 eexists. split; [exact reach_demo_fail|]. split; [vm_compute; reflexivity|].
  split; vm_compute; reflexivity.
Qed.

Definition quoted (name : string) : config :=
  Config (Dag [DNode 1 name 1] []) 1 demo_tasks (fun _ => IvRet true "").
Definition quoted_end (name : string) : state :=
  go (quoted name) (drive (quoted name) all_ok 20 (init 0)).

(** A name with a quote in it breaks the report; a name that looks like an entity is read
    back as another one. *)
Theorem C38_refuted :
  (exists c z s er text, wf_dag (c_dag c) /\ reachable c z s /\ result s = RRecord er /\
     generate_junit_xml (fun _ => "1.5") "now" "suite" er = Some text /\ parse_xml text = None) /\
  (exists c z s er text x, wf_dag (c_dag c) /\ reachable c z s /\ result s = RRecord er /\
     generate_junit_xml (fun _ => "1.5") "now" "suite" er = Some text /\ parse_xml text = Some x /\
     map r_name (er_runs er) = ["//a&lt;b"] /\
     map el_attrs (el_children x) = [[("name", "//a<b"); ("time", "1.5")]]).
Proof.
  split.
  - exists (quoted "//say ""hi"""), 0%Z, (quoted_end "//say ""hi"""). do 2 eexists.
    split; [apply wf_dagb_wf; vm_compute; reflexivity|]. split; [apply go_reachable; vm_compute; reflexivity|].
    split; [vm_compute; reflexivity|]. split; vm_compute; reflexivity.
  - exists (quoted "//a&lt;b"), 0%Z, (quoted_end "//a&lt;b"). do 3 eexists.
    split; [apply wf_dagb_wf; vm_compute; reflexivity|]. split; [apply go_reachable; vm_compute; reflexivity|].
    split; [vm_compute; reflexivity|]. split; [vm_compute; reflexivity|]. split; [vm_compute; reflexivity|].
    split; vm_compute; reflexivity.
Qed.
Print Assumptions C38_refuted.

(** A name with quotes in it can add a testcase to the report: one run, "tests" is 1, two
    testcases. *)
Definition two_cases : string := "//x"" time=""0""></testcase><testcase name=""//y".
Theorem C37_refuted : exists c z s er text x, wf_dag (c_dag c) /\ reachable c z s /\ result s = RRecord er /\
  generate_junit_xml (fun _ => "1.5") "now" "suite" er = Some text /\ parse_xml text = Some x /\
  List.length (er_runs er) = 1 /\ In ("tests", "1") (el_attrs x) /\ List.length (el_children x) = 2.
Proof.
  exists (quoted two_cases), 0%Z, (quoted_end two_cases). do 3 eexists.
  split; [apply wf_dagb_wf; vm_compute; reflexivity|]. split; [apply go_reachable; vm_compute; reflexivity|].
  split; [vm_compute; reflexivity|]. split; [vm_compute; reflexivity|]. split; [vm_compute; reflexivity|].
  split; [vm_compute; reflexivity|]. split; [vm_compute; auto|vm_compute; reflexivity].
Qed.
Print Assumptions C37_refuted.

(** * C39 Nested output *)
Theorem C39_nested : forall indent output,
  format_nested indent output =
  concat_text (map (fun l => indent ++ l ++ String (ascii_of_nat 10) "")%string
                   (lines (concat_text (map ch_data output)))).
Proof. exact format_nested_spec. Qed.
Print Assumptions C39_nested.

Example C39_case :
  lines (concat_text (map ch_data [Chunk STANDARD ("a" ++ String lf "b"); Chunk ERROR ("c" ++ String lf (String lf "d"))])) =
  ["a"; "bc"; ""; "d"] /\ format_nested "  " [] = "".
Proof. split; reflexivity. Qed.

(** * C40 Task name column *)
Theorem C40_name_column : forall name, ~ has_char (ascii_of_nat 27) name ->
  exists t, fmt_text name = Some t /\ uncoloured t = String.substring 0 60 (name ++ blanks 60) /\
            String.length (uncoloured t) = 60.
Proof. exact fmt_text_spec. Qed.
Print Assumptions C40_name_column.

Example C40_case : ~ has_char (ascii_of_nat 27) "//src/lib" /\
  exists t, fmt_text "//src/lib" = Some t /\ t <> String.substring 0 60 ("//src/lib" ++ blanks 60).
Proof.
  split; [cbn; intuition discriminate|]. eexists. split; [vm_compute; reflexivity|discriminate].
Qed.

(** * C41 Counter column *)
Theorem C41_counter : forall count total, 1 <= count <= total ->
  exists t, fmt_counter count total = Some t /\ value t = Some count /\
            has_digits total (String.length t).
Proof. exact fmt_counter_spec. Qed.
Print Assumptions C41_counter.

Example C41_case : 1 <= 7 <= 120 /\ fmt_counter 7 120 = Some "007".
Proof. split; [split; repeat constructor|reflexivity]. Qed.

(** * C42 The printed counter stays within the total *)

(** It starts the line, after the time; on the line of a finished task it is the number
    of tasks finished so far. *)
Theorem C42_counters : forall c z s verbose v out now,
  wf_dag (c_dag c) -> reachable c z s ->
  watch_exec c (print_visitor verbose) (trace s) = VOk v out ->
  (forall er name, In (PStart er name) out ->
     exists text count, render now (PStart er name) = Some text /\
       shows_counter now GRAY RESET text count (List.length (node_ids (c_dag c))) /\
       1 <= count <= List.length (node_ids (c_dag c))) /\
  (forall er r, In (PEnd er r) out ->
     exists text i, render now (PEnd er r) = Some text /\
       nth_error (records (trace s)) i = Some r /\
       shows_counter now GRAY RESET text (S i) (List.length (node_ids (c_dag c))) /\
       S i <= List.length (node_ids (c_dag c))).
Proof. exact visitor_counters. Qed.
Print Assumptions C42_counters.

Example C42_case : exists v out er r,
  wf_dag (c_dag (demo 2)) /\ reachable (demo 2) 0 (demo_end 2 lib_fails) /\
  watch_exec (demo 2) (print_visitor false) (trace (demo_end 2 lib_fails)) = VOk v out /\
  In (PEnd er r) out /\ r_name r = "//src/lib".
Proof.
  do 4 eexists. split; [exact wf_demo|]. split; [exact reach_demo_fail|].
  split; [vm_compute; reflexivity|]. split; [do 3 right; left; reflexivity|reflexivity].
Qed.

(** * C43 format_dag *)

(** What it lists: the targets of all out edges, of any kind. *)
Theorem C43_lists_all_edges : forall d, exists names, format_dag d = after_listing names d /\
  forall x nm, In nm (names x) <-> exists b k, In (Edge (n_id x) b k) (d_edges d) /\ node_name d b = nm.
Proof. exact dag_listing_all. Qed.
Print Assumptions C43_lists_all_edges.

(** Partial: for graphs where each edge has an AFTER edge beside it, and as a set. *)
Theorem C43_runs_after_partial : forall d,
  (forall a b k, In (Edge a b k) (d_edges d) -> runs_after d a b) ->
  exists names, format_dag d = after_listing names d /\
  forall x nm, In nm (names x) <-> exists b, runs_after d (n_id x) b /\ node_name d b = nm.
Proof. exact dag_listing. Qed.
Print Assumptions C43_runs_after_partial.

Example C43_case : forall a b k, In (Edge a b k) (d_edges demo_dag) -> runs_after demo_dag a b.
Proof.
  intros a b k H. vm_compute in H.
  repeat (destruct H as [E|H]; [injection E as <- <- <-; vm_compute; tauto|]). destruct H.
Qed.

(** A dependency is listed three times, and a task that only invalidates is listed
    although its order is free. *)
Theorem C43_refuted :
  In "   -> runs after { //gen, //gen, //gen }" (format_dag demo_dag) /\
  exists d, wf_dag d /\ format_dag d = ["a"; "   -> runs after { b }"; "b"; "   -> runs after {}"] /\
            (forall x, ~ runs_after d 1 x).
Proof.
  split; [vm_compute; tauto|].
  exists (Dag [DNode 1 "a" 1; DNode 2 "b" 1] [Edge 1 2 INVALIDATED_BY]).
  split; [apply wf_dagb_wf; vm_compute; reflexivity|]. split; [reflexivity|].
  intros x [E|[]]. discriminate.
Qed.
Print Assumptions C43_refuted.

(** Exactly: a line lists the targets of the run-after edges, each once, iff the node has no
    other edges; of the tasks of a set, iff the task depends on nothing and names no
    selected task in invalidated_by. *)
Theorem C43_exactly : forall d, exists names, format_dag d = after_listing names d /\
  forall x, names x = after_names d (n_id x) <-> forall b k, In (Edge (n_id x) b k) (d_edges d) -> k = AFTER.
Proof. exact listing_exact. Qed.
Print Assumptions C43_exactly.
Theorem C43_task_sets : forall st ts filt iv addr c, execution_of st ts filt iv addr c ->
  exists names, format_dag (c_dag c) = after_listing names (c_dag c) /\
  forall x, In x (d_nodes (c_dag c)) ->
    (names x = after_names (c_dag c) (n_id x) <->
     t_depends_on (st_get st (n_task x)) = [] /\
     forall u, In u (t_invalidated_by (st_get st (n_task x))) -> ~ selected st ts filt u).
Proof. exact listing_sets. Qed.
Print Assumptions C43_task_sets.

(** doc only runs after gen: its line is right; that of lib is not. *)
Example C43_case_sets :
  execution_of demo_store demo_set "" demo_inval (fun t => t) set_demo /\
  In "   -> runs after { //gen }" (format_dag (c_dag set_demo)) /\
  t_depends_on (st_get demo_store 4) = [] /\ after_names (c_dag set_demo) 4 = ["//gen"] /\
  t_depends_on (st_get demo_store 2) = [1].
Proof.
  split; [exact exec_set_demo|]. split; [vm_compute; tauto|]. repeat split; vm_compute; reflexivity.
Qed.

Theorem C43_printed : forall d,
  print_dag d = concat_text (map (fun l => l ++ String (ascii_of_nat 10) "")%string (format_dag d)).
Proof. exact print_dag_lines. Qed.
Print Assumptions C43_printed.

(** * C50 Hidden tasks are not shown *)

(** End lines: exactly those of tasks that are not hidden or failed, or all of them if
    verbose.  Output: of the tasks that failed, or of all.  Start lines: only, and at
    least one, for tasks that are not hidden, or all.  The other messages about jobs:
    only if verbose. *)
Theorem C50_hidden : forall c z s verbose,
  wf_dag (c_dag c) -> reachable c z s ->
  exists v out, watch_exec c (print_visitor verbose) (trace s) = VOk v out /\
    end_lines out =
      filter (fun r => negb (t_hidden (c_task c (r_task r))) || verbose || status_eqb (r_status r) FAIL)
             (records (trace s)) /\
    outputs out = map r_output (filter (fun r => verbose || status_eqb (r_status r) FAIL) (records (trace s))) /\
    (forall name, In name (start_lines out) ->
       exists n er, shown c verbose n /\ node_name (c_dag c) n = name /\ In (EBeforeRun er n) (trace s)) /\
    (forall n er, In (EBeforeRun er n) (trace s) -> shown c verbose n ->
       In (PStart er (node_name (c_dag c) n)) out) /\
    (verbose = false ->
       forall i, In i out ->
         match i with PInval _ _ | PDepInval _ _ | PRunLog _ _ => False | _ => True end).
Proof. exact visitor_lines. Qed.
Print Assumptions C50_hidden.

(** Node 1 is hidden. *)
Definition hiding : config :=
  Config (Dag [DNode 2 "b" 1; DNode 1 "a" 2] []) 2
         (fun t => if t =? 2 then Task true [] [] [] [] true else Task true [] [] [] [] false)
         (fun _ => IvRet true "").
Example C50_case :
  let s := go hiding (drive hiding all_ok 20 (init 0)) in
  wf_dag (c_dag hiding) /\ reachable hiding 0 s /\ map r_name (records (trace s)) = ["a"; "b"] /\
  exists v out, watch_exec hiding (print_visitor false) (trace s) = VOk v out /\
    map r_name (end_lines out) = ["b"] /\ start_lines out = ["b"].
Proof.
  cbn zeta. split; [apply wf_dagb_wf; vm_compute; reflexivity|]. split; [apply go_reachable; vm_compute; reflexivity|].
  split; [vm_compute; reflexivity|]. do 2 eexists. split; [vm_compute; reflexivity|]. split; reflexivity.
Qed.

(** * C51 The visitor's tasks in progress *)

(** Missing: two threads or more, where it is false. *)
Theorem C51_in_progress_partial : forall c z s verbose pre post,
  wf_dag (c_dag c) -> c_threads c <= 1 -> reachable c z s -> trace s = pre ++ post ->
  exists q out, watch_exec c (print_visitor verbose) pre = VOk (Vis verbose q) out /\
    forall n, In n q <-> shown c verbose n /\ (exists er, In (EBeforeRun er n) pre) /\ ~ recorded pre n.
Proof. exact in_progress. Qed.
Print Assumptions C51_in_progress_partial.

(** With any number of threads: the set is that of the shown tasks that were started and
    whose node was not given to an after_run yet, until the execution is complete (C21 says
    when that is another node than the task's). *)
Theorem C51_in_progress_exact : forall c z s verbose pre post,
  wf_dag (c_dag c) -> reachable c z s -> trace s = pre ++ post ->
  exists q out, watch_exec c (print_visitor verbose) pre = VOk (Vis verbose q) out /\
    forall n, In n q <-> shown c verbose n /\ (exists er, In (EBeforeRun er n) pre) /\
      (forall er r, ~ In (EAfterRun er r n) pre) /\ (forall er, ~ In (EAfterExec er) pre).
Proof. exact in_progress_exact. Qed.
Print Assumptions C51_in_progress_exact.

(** Executions with one visitor one after the other, each run to its end, never make it
    refer to a node that no longer exists.  Missing: abandoned executions, where it does. *)
Theorem C51_no_dangling_partial : forall verbose es,
  Forall (fun p => let '(c, tr) := p in
     wf_dag (c_dag c) /\ exists z s er, reachable c z s /\ tr = trace s /\ In (EAfterExec er) tr) es ->
  exists out, watch_all (print_visitor verbose) es = VOk (print_visitor verbose) out.
Proof. exact successive_executions. Qed.
Print Assumptions C51_no_dangling_partial.

Example C51_case : exists pre post v out er,
  c_threads (demo 1) <= 1 /\ reachable (demo 1) 0 (demo_end 1 all_ok) /\
  trace (demo_end 1 all_ok) = pre ++ post /\
  watch_exec (demo 1) (print_visitor false) pre = VOk v out /\ v_queued v = [1] /\
  In (EAfterExec er) (trace (demo_end 1 all_ok)).
Proof.
  exists (firstn 26 (trace (demo_end 1 all_ok))), (skipn 26 (trace (demo_end 1 all_ok))). do 3 eexists.
  split; [apply le_n|]. split; [exact reach_demo_ok1|]. split; [symmetry; apply firstn_skipn|].
  split; [vm_compute; reflexivity|]. split; [reflexivity|].
  eapply nth_error_In with (List.length (trace (demo_end 1 all_ok)) - 1). vm_compute. reflexivity.
Qed.

(** With two threads a finished task stays in the set.  After an execution is abandoned
    the next one, on new nodes, makes the visitor read a node that is gone. *)
Theorem C51_refuted :
  (exists c z s pre post q out, wf_dag (c_dag c) /\ reachable c z s /\ trace s = pre ++ post /\
     watch_exec c (print_visitor false) pre = VOk (Vis false q) out /\ In 2 q /\ recorded pre 2) /\
  (exists c1 z1 s1 c2 z2 s2, wf_dag (c_dag c1) /\ reachable c1 z1 s1 /\ In EDestroyed (trace s1) /\
     wf_dag (c_dag c2) /\ reachable c2 z2 s2 /\
     watch_all (print_visitor false) [(c1, trace s1); (c2, trace s2)] = VDangling 1).
Proof.
  split.
  - set (c := Config (Dag [DNode 2 "b" 1; DNode 1 "a" 1] []) 2 demo_tasks (fun _ => IvRet true "")).
    set (s := go c [LTick; LCtl; LTick; LCtl; LCtl; LCtl; LTick; LCtl; LCtl; LCtl; LBegin 1; LEnd 1 ok;
                    LBegin 2; LCtl; LTick; LCtl; LCtl; LCtl; LEnd 2 ok; LTick; LCtl; LCtl; LTick]).
    exists c, 0%Z, s, (firstn 24 (trace s)), (skipn 24 (trace s)). do 2 eexists.
    split; [apply wf_dagb_wf; vm_compute; reflexivity|]. split; [apply go_reachable; vm_compute; reflexivity|].
    split; [symmetry; apply firstn_skipn|]. split; [vm_compute; reflexivity|]. split; [cbn; tauto|].
    eexists. split; [eapply nth_error_In with 1; vm_compute; reflexivity|reflexivity].
  - set (c2 := Config (Dag [DNode 11 "x" 1] []) 1 demo_tasks (fun _ => IvRet true "")).
    exists (demo 2), 0%Z, (go (demo 2) [LTick; LCtl; LTick; LCtl; LCtl; LCtl; LDestroy; LBegin 1; LEnd 1 ok; LCtl; LCtl; LCtl]),
           c2, 0%Z, (go c2 (drive c2 all_ok 20 (init 0))).
    split; [exact wf_demo|]. split; [apply go_reachable; vm_compute; reflexivity|].
    split; [vm_compute; tauto|]. split; [apply wf_dagb_wf; vm_compute; reflexivity|].
    split; [apply go_reachable; vm_compute; reflexivity|]. vm_compute. reflexivity.
Qed.
Print Assumptions C51_refuted.

(** * C61 JSON export *)
Theorem C61_json_exec : forall fmt_tp er,
  members (json_exec fmt_tp er) = ["DEPF"; "FAIL"; "OK"; "SKIP"; "runs"; "total_count"] /\
  member (json_exec fmt_tp er) "OK" (JNum (Z.of_nat (stat_get (er_stats er) OK))) /\
  member (json_exec fmt_tp er) "SKIP" (JNum (Z.of_nat (stat_get (er_stats er) SKIP))) /\
  member (json_exec fmt_tp er) "DEPF" (JNum (Z.of_nat (stat_get (er_stats er) DEPF))) /\
  member (json_exec fmt_tp er) "FAIL" (JNum (Z.of_nat (stat_get (er_stats er) FAIL))) /\
  member (json_exec fmt_tp er) "total_count" (JNum (Z.of_nat (er_total er))) /\
  member (json_exec fmt_tp er) "runs" (JArr (map (json_run fmt_tp) (er_runs er))).
Proof. exact json_exec_members. Qed.
Print Assumptions C61_json_exec.

(** OK, SKIP, DEPF, FAIL are 0, 1, 2, 3. *)
Theorem C61_json_run : forall fmt_tp r,
  members (json_run fmt_tp r) = ["end"; "name"; "output"; "retcode"; "start"; "status"] /\
  member (json_run fmt_tp r) "name" (JStr (r_name r)) /\
  member (json_run fmt_tp r) "status"
    (JNum (match r_status r with OK => 0 | SKIP => 1 | DEPF => 2 | FAIL => 3 end)) /\
  member (json_run fmt_tp r) "retcode" (JNum (r_retcode r)) /\
  member (json_run fmt_tp r) "start" (JStr (fmt_tp (r_start r))) /\
  member (json_run fmt_tp r) "end" (JStr (fmt_tp (r_end r))) /\
  member (json_run fmt_tp r) "output" (JArr (map json_chunk (r_output r))).
Proof. exact json_run_members. Qed.
Print Assumptions C61_json_run.

Theorem C61_json_chunk : forall ch,
  members (json_chunk ch) = ["data"; "type"] /\
  member (json_chunk ch) "data" (JStr (ch_data ch)) /\
  member (json_chunk ch) "type" (JNum (match ch_type ch with ERROR => 0 | STANDARD => 1 end)).
Proof. exact json_chunk_members. Qed.
Print Assumptions C61_json_chunk.

(** The record can be recovered, if times can be recovered from their text. *)
Theorem C61_recoverable : forall fmt_tp, (forall a b, fmt_tp a = fmt_tp b -> a = b) ->
  forall er er', json_exec fmt_tp er = json_exec fmt_tp er' ->
  map contents (er_runs er) = map contents (er_runs er') /\ er_total er = er_total er' /\
  forall k, stat_get (er_stats er) k = stat_get (er_stats er') k.
Proof. exact json_exec_inj. Qed.
Print Assumptions C61_recoverable.

Example C61_case : exists fmt_tp, (forall a b, fmt_tp a = fmt_tp b -> a = b) /\
  json_exec fmt_tp (s_erec (demo_end 2 lib_fails)) <> json_exec fmt_tp (s_erec (demo_end 2 all_ok)).
Proof.
  exists dec_Z. split; [exact dec_Z_inj|]. vm_compute. discriminate.
Qed.

(** * C75 What the lines of the default visitor show *)

(** The text without colour codes, for any time [hms] and any name without escape
    characters.  The line of a finished task: time, its number among the finished tasks,
    number of tasks (as many digits), status, name cut or filled to 60 characters, and for
    tasks that were executed the duration in whole milliseconds. *)
Theorem C75_end_line : forall c z s verbose v out hms er r,
  wf_dag (c_dag c) -> reachable c z s ->
  watch_exec c (print_visitor verbose) (trace s) = VOk v out -> In (PEnd er r) out ->
  ~ has_char (ascii_of_nat 27) hms -> ~ has_char (ascii_of_nat 27) (r_name r) ->
  exists text i a b w, render (GRAY ++ hms ++ RESET) (PEnd er r) = Some text /\
    nth_error (records (trace s)) i = Some r /\
    has_digits (List.length (node_ids (c_dag c))) w /\
    number w (S i) a /\ number w (List.length (node_ids (c_dag c))) b /\
    uncoloured text =
      (hms ++ "  " ++ a ++ "/" ++ b ++ "  " ++ right_in 4 (tag (r_status r)) ++ "  " ++
       String.substring 0 60 (r_name r ++ blanks 60) ++ "  " ++
       match r_status r with
       | OK | FAIL => "  " ++ right_in 8 (dec_Z (Z.quot (r_end r - r_start r) 1000000) ++ "ms")
       | _ => ""
       end ++ String (ascii_of_nat 10) "")%string.
Proof. exact end_lines_text. Qed.
Print Assumptions C75_end_line.

(** The line of a started task ends in a carriage return: the next line overwrites it. *)
Theorem C75_start_line : forall c z s verbose v out hms er name,
  wf_dag (c_dag c) -> reachable c z s ->
  watch_exec c (print_visitor verbose) (trace s) = VOk v out -> In (PStart er name) out ->
  ~ has_char (ascii_of_nat 27) hms -> ~ has_char (ascii_of_nat 27) name ->
  exists text i a b w, render (GRAY ++ hms ++ RESET) (PStart er name) = Some text /\
    S i <= List.length (node_ids (c_dag c)) /\
    has_digits (List.length (node_ids (c_dag c))) w /\
    number w (S i) a /\ number w (List.length (node_ids (c_dag c))) b /\
    uncoloured text =
      (hms ++ "  " ++ a ++ "/" ++ b ++ "  STRT  " ++
       String.substring 0 60 (name ++ blanks 60) ++ "  " ++ String (ascii_of_nat 13) "")%string.
Proof. exact start_lines_text. Qed.
Print Assumptions C75_start_line.

(** The last line: the number of tasks, how many were executed, how many ended with each
    status, and the seconds (rounded up) between the first start and the last end. *)
Theorem C75_summary : forall c z s verbose v out hms er,
  wf_dag (c_dag c) -> reachable c z s -> node_ids (c_dag c) <> [] ->
  watch_exec c (print_visitor verbose) (trace s) = VOk v out -> In (PExecEnd er) out ->
  ~ has_char (ascii_of_nat 27) hms ->
  exists text a w secs first last, render (GRAY ++ hms ++ RESET) (PExecEnd er) = Some text /\
    has_digits (List.length (node_ids (c_dag c))) w /\ number w (List.length (node_ids (c_dag c))) a /\
    let rs := records (trace s) in
    In first rs /\ In last rs /\ (forall r, In r rs -> r_start first <= r_start r /\ r_end r <= r_end last)%Z /\
    ((secs - 1) * 1000000000 < r_end last - r_start first <= secs * 1000000000)%Z /\
    uncoloured text =
      (String (ascii_of_nat 13) hms ++ "  " ++ blanks (S w) ++ a ++ "    " ++
       "run: " ++ left_in 9 (dec_nat (count_status OK rs + count_status FAIL rs)) ++
       "  OK: " ++ left_in 5 (dec_nat (count_status OK rs)) ++
       "  SKIP: " ++ left_in 5 (dec_nat (count_status SKIP rs)) ++
       "  DEPF: " ++ left_in 5 (dec_nat (count_status DEPF rs)) ++
       "  FAIL: " ++ left_in 5 (dec_nat (count_status FAIL rs)) ++
       "    " ++ right_in 8 (dec_Z secs ++ "s") ++ String (ascii_of_nat 10) "")%string.
Proof. exact summary_lines_text. Qed.
Print Assumptions C75_summary.

(** The durations of the executed tasks and of the last line end in the same column (the
    last line has a carriage return before it), with less than 100000 tasks and durations
    that fit into their column. *)
Theorem C75_aligned : forall c z s verbose v out hms hms' er r er' text text',
  wf_dag (c_dag c) -> reachable c z s ->
  watch_exec c (print_visitor verbose) (trace s) = VOk v out ->
  In (PEnd er r) out -> r_status r = OK \/ r_status r = FAIL -> In (PExecEnd er') out ->
  ~ has_char (ascii_of_nat 27) hms -> ~ has_char (ascii_of_nat 27) hms' -> String.length hms = String.length hms' ->
  ~ has_char (ascii_of_nat 27) (r_name r) ->
  String.length (dec_nat (List.length (node_ids (c_dag c)))) <= 5 ->
  String.length (dec_Z (Z.quot (r_end r - r_start r) 1000000)) <= 6 ->
  (forall k, runtime_sum er' = Some k -> String.length (dec_Z k) <= 7) ->
  render (GRAY ++ hms ++ RESET) (PEnd er r) = Some text ->
  render (GRAY ++ hms' ++ RESET) (PExecEnd er') = Some text' ->
  String.length (uncoloured text') = S (String.length (uncoloured text)).
Proof. exact aligned. Qed.
Print Assumptions C75_aligned.

Example C75_case : exists v out er r er' text text',
  wf_dag (c_dag (demo 2)) /\ reachable (demo 2) 0 (demo_end 2 lib_fails) /\ node_ids (c_dag (demo 2)) <> [] /\
  watch_exec (demo 2) (print_visitor false) (trace (demo_end 2 lib_fails)) = VOk v out /\
  In (PEnd er r) out /\ r_status r = FAIL /\ In (PExecEnd er') out /\
  ~ has_char (ascii_of_nat 27) "101112" /\ ~ has_char (ascii_of_nat 27) (r_name r) /\
  String.length (dec_nat (List.length (node_ids (c_dag (demo 2))))) <= 5 /\
  String.length (dec_Z (Z.quot (r_end r - r_start r) 1000000)) <= 6 /\
  (forall k, runtime_sum er' = Some k -> String.length (dec_Z k) <= 7) /\
  render (GRAY ++ "101112" ++ RESET) (PEnd er r) = Some text /\
  render (GRAY ++ "101112" ++ RESET) (PExecEnd er') = Some text' /\
  uncoloured text = ("101112  2/6  FAIL  //src/lib" ++ blanks 60 ++ "0ms" ++ String (ascii_of_nat 10) "")%string /\
  uncoloured text' = (String (ascii_of_nat 13) "101112    6    run: 3          OK: 2      SKIP: 1    " ++
    "  DEPF: 2      FAIL: 1              0s" ++ String (ascii_of_nat 10) "")%string.
Proof.
  do 7 eexists. split; [exact wf_demo|]. split; [exact reach_demo_fail|]. split; [vm_compute; discriminate|].
  split; [vm_compute; reflexivity|]. split; [do 3 right; left; reflexivity|]. split; [reflexivity|].
  split; [do 13 right; left; reflexivity|]. split; [vm_compute; intuition discriminate|].
  split; [vm_compute; intuition discriminate|]. split; [vm_compute; lia|]. split; [vm_compute; lia|].
  split; [intros k H; vm_compute in H; injection H as <-; vm_compute; lia|].
  split; [vm_compute; reflexivity|]. split; [vm_compute; reflexivity|]. split; vm_compute; reflexivity.
Qed.
