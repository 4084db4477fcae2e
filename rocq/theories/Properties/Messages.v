(** Messages of the default visitor: C81. *)
From Coq Require Import String Ascii.
From Verif Require Import Model.Common Model.Records Model.Jobs Model.TaskSet Model.Dag Model.Sched Model.Exec
     Model.Visitor Spec.Graph Spec.Trace Spec.Report Spec.Messages Properties.Demo Proofs.DemoFacts Proofs.MessageFacts.
Open Scope string_scope.
Open Scope nat_scope.
Open Scope list_scope.

(** * C81 Messages of the default visitor *)

(** Whatever is written to stderr, at any time, names a task without a job or lists a cycle
    of the graph. *)
Theorem C81_stderr_true : forall c z s verbose v out now,
  wf_dag (c_dag c) -> reachable c z s -> watch_exec c (print_visitor verbose) (trace s) = VOk v out ->
  forall p, In p (pieces true now out) ->
  (exists n, In n (node_ids (c_dag c)) /\ node_has_job c n = false /\ p = Some (no_job_text c n)) \/
  (exists l, is_cycle (c_dag c) l /\ p = Some (cycle_text c l)).
Proof. exact err_true. Qed.
Print Assumptions C81_stderr_true.

(** An execution that finishes has written nothing to stderr. *)
Theorem C81_stderr_finished : forall c z s verbose v out now,
  wf_dag (c_dag c) -> reachable c z s -> watch_exec c (print_visitor verbose) (trace s) = VOk v out ->
  forall er, result s = RRecord er -> pieces true now out = [].
Proof. exact err_finished. Qed.
Print Assumptions C81_stderr_finished.

(** One that fails because of a cycle has named all tasks without a job, in the order of the
    graph, and listed the cycle. *)
Theorem C81_stderr_cycle : forall c z s verbose v out now,
  wf_dag (c_dag c) -> reachable c z s -> watch_exec c (print_visitor verbose) (trace s) = VOk v out ->
  result s = RThrow ExcCycle ->
  exists l, is_cycle (c_dag c) l /\
    pieces true now out = map (fun n => Some (no_job_text c n)) (without_job c) ++ [Some (cycle_text c l)].
Proof. exact err_cycle. Qed.
Print Assumptions C81_stderr_cycle.

(** Without a cycle a task without a job makes the first tick undefined (a null pointer is
    dereferenced), unless the check of another task throws before; in any case the tasks
    without a job have been named by then. *)
Theorem C81_no_job : forall c z s0 s verbose v out now,
  wf_dag (c_dag c) -> acyclic (c_dag c) -> reachable c z s0 -> s_pc s0 = Created -> step c s0 LTick = Some s ->
  without_job c <> [] -> watch_exec c (print_visitor verbose) (trace s) = VOk v out ->
  ((exists n, In n (without_job c) /\ s_pc s = Bad (BadNullJob n)) \/ exists n, result s = RThrow (ExcInval n)) /\
  pieces true now out = map (fun n => Some (no_job_text c n)) (without_job c).
Proof. exact null_job_tick. Qed.
Print Assumptions C81_no_job.

(** The notes on stdout: none unless verbose; when verbose one for each job that said it is
    invalidated, each inherited invalidation and each executed job, as they happen. *)
Theorem C81_notes : forall c s verbose v out now,
  watch_exec c (print_visitor verbose) (trace s) = VOk v out ->
  notes now out = if verbose then map Some (flat_map (note_due c) (trace s)) else [].
Proof. exact note_pieces. Qed.
Print Assumptions C81_notes.

(** So after a verbose execution that finished, stdout contains the reason of each job that
    said it is invalidated, ... *)
Theorem C81_reasons : forall c z s verbose v out now,
  wf_dag (c_dag c) -> reachable c z s -> watch_exec c (print_visitor verbose) (trace s) = VOk v out ->
  forall n t, verbose = true -> (exists er, result s = RRecord er) ->
  In n (node_ids (c_dag c)) -> c_inval c n = IvRet true t -> In (Some (reason_text c n t)) (pieces false now out).
Proof. exact reasons_written. Qed.
Print Assumptions C81_reasons.

(** ... and at any time the log text of each job that was executed and recorded. *)
Theorem C81_run_logs : forall c z s verbose v out now,
  wf_dag (c_dag c) -> reachable c z s -> watch_exec c (print_visitor verbose) (trace s) = VOk v out ->
  forall r o, verbose = true -> In r (records (trace s)) ->
  r_status r = OK \/ r_status r = FAIL -> In (EEnd (r_node r) o) (trace s) ->
  In (Some (run_log_text c (r_node r) (job_log o))) (pieces false now out).
Proof. exact run_logs_written. Qed.
Print Assumptions C81_run_logs.

(** Task 9 of the demo has no job. *)
Definition jobless : config := Config (Dag [DNode 1 "//a" 9; DNode 2 "//b" 1; DNode 3 "//c" 9] []) 2 demo_tasks demo_inval.
Definition jobless_loop : config :=
  Config (Dag [DNode 1 "//a" 9; DNode 2 "//b" 1] [Edge 1 2 AFTER; Edge 2 1 AFTER]) 2 demo_tasks demo_inval.
Example C81_case_no_job : exists v out,
  wf_dag (c_dag jobless) /\ acyclic (c_dag jobless) /\ reachable jobless 0 (init 0) /\ s_pc (init 0) = Created /\
  step jobless (init 0) LTick = Some (go jobless [LTick]) /\ without_job jobless = [1; 3] /\
  watch_exec jobless (print_visitor false) (trace (go jobless [LTick])) = VOk v out /\
  s_pc (go jobless [LTick]) = Bad (BadNullJob 1) /\
  pieces true "" out = [Some ("Task //a has no job" ++ nl)%string; Some ("Task //c has no job" ++ nl)%string].
Proof.
  do 2 eexists. split; [apply wf_dagb_wf; vm_compute; reflexivity|].
  split; [apply (acyclic_rank _ (fun n => n)); vm_compute; reflexivity|].
  split; [exists []; reflexivity|]. repeat split.
Qed.
Example C81_case_cycle : exists v out,
  wf_dag (c_dag jobless_loop) /\ reachable jobless_loop 0 (go jobless_loop [LTick]) /\
  watch_exec jobless_loop (print_visitor false) (trace (go jobless_loop [LTick])) = VOk v out /\
  result (go jobless_loop [LTick]) = RThrow ExcCycle /\
  pieces true "" out = [Some ("Task //a has no job" ++ nl)%string;
    Some ("Cycle between nodes detected:" ++ nl ++ tab ++ "//a" ++ nl ++ tab ++ "//b" ++ nl)%string].
Proof.
  do 2 eexists. split; [apply wf_dagb_wf; vm_compute; reflexivity|].
  split; [apply go_reachable; vm_compute; reflexivity|]. split; [vm_compute; reflexivity|].
  split; vm_compute; reflexivity.
Qed.
(** gen and lint say they are invalidated; lib fails. *)
Example C81_case_verbose : exists v out er r o,
  wf_dag (c_dag (demo 2)) /\ reachable (demo 2) 0 (demo_end 2 lib_fails) /\
  watch_exec (demo 2) (print_visitor true) (trace (demo_end 2 lib_fails)) = VOk v out /\
  result (demo_end 2 lib_fails) = RRecord er /\
  In 1 (node_ids (c_dag (demo 2))) /\ (exists t, c_inval (demo 2) 1 = IvRet true t) /\
  In r (records (trace (demo_end 2 lib_fails))) /\ r_status r = FAIL /\
  In (EEnd (r_node r) o) (trace (demo_end 2 lib_fails)) /\
  firstn 1 (notes "" out) = [Some ("Job //gen got invalidated: " ++ nl ++ "changed" ++ nl)%string] /\
  List.length (notes "" out) = 8.
Proof.
  do 2 eexists. eexists. exists (nth 1 (records (trace (demo_end 2 lib_fails))) (RunRecord 0 0 "" OK 0 0 0 [])), failing.
  split; [exact wf_demo|]. split; [exact reach_demo_fail|]. split; [vm_compute; reflexivity|].
  split; [vm_compute; reflexivity|]. split; [find_in|]. split; [eexists; reflexivity|]. split; [find_in|].
  split; [vm_compute; reflexivity|]. split; [find_in|]. split; vm_compute; reflexivity.
Qed.
