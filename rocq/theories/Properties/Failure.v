(** Why an execution fails (C101). *)
From Coq Require Import String.
From Verif Require Import Model.Common Model.Records Model.Jobs Model.TaskSet Model.Dag
     Model.Sched Model.Exec Spec.Graph Spec.Trace Spec.Failure
     Properties.Demo Properties.Startup Proofs.DemoFacts Proofs.FailureFacts.
Open Scope string_scope.
Open Scope nat_scope.
Open Scope list_scope.

(** * C101 An execution fails for one of four reasons, at once and for good *)

(** If result() throws, one call in the history made the execution fail, for a reason
    that belongs to the exception; the event of that reason was the last one of the
    control thread.  Afterwards only jobs that were under way did something. *)
Theorem C101_cause : forall c, wf_dag (c_dag c) -> forall z ls s e,
  run_labels c (init z) ls = Some s -> result s = RThrow e ->
  exists ls1 l ls2 s1 s2 pre ev post,
    ls = ls1 ++ l :: ls2 /\ run_labels c (init z) ls1 = Some s1 /\ step c s1 l = Some s2 /\
    run_labels c s2 ls2 = Some s /\ trace s2 = pre ++ [ev] /\ cause c l ev e /\
    trace s = trace s2 ++ post /\ (forall x, In x post -> by_a_job x).
Proof. exact failure_cause. Qed.
Print Assumptions C101_cause.

(** Without those reasons no execution fails, whatever its jobs return or throw. *)
Theorem C101_otherwise_never : forall c, wf_dag (c_dag c) -> forall z ls s e,
  acyclic (c_dag c) -> (forall n, In n (node_ids (c_dag c)) -> c_inval c n <> IvThrow) ->
  undisturbed ls -> run_labels c (init z) ls = Some s -> result s <> RThrow e.
Proof. exact no_other_failure. Qed.
Print Assumptions C101_otherwise_never.

(** A thread that cannot be started or a callback that throws ends the execution: there
    will never be a record, no callback is made and no task started any more. *)
Theorem C101_for_good : forall c, wf_dag (c_dag c) -> forall z s l s1 ls s2,
  reachable c z s -> l = LLaunchFail \/ (exists k, l = LVisThrow k) ->
  step c s l = Some s1 -> run_labels c s1 ls = Some s2 ->
  (forall er, result s2 <> RRecord er) /\
  exists new, trace s2 = trace s1 ++ new /\ forall x, In x new -> by_a_job x \/ x = EDestroyed.
Proof. exact disturbed_fails. Qed.
Print Assumptions C101_for_good.

(** The job no thread could be started for is never executed and has no record. *)
Theorem C101_unlaunched : forall c, wf_dag (c_dag c) -> forall z s n,
  reachable c z s -> result s = RThrow (ExcLaunch n) ->
  ~ In (ELaunch n) (trace s) /\ ~ In (EBegin n) (trace s) /\ ~ recorded (trace s) n.
Proof. exact unlaunched. Qed.
Print Assumptions C101_unlaunched.

(** Each of the four reasons: no thread for lint while gen is executed, a callback that
    throws, a cycle, and a job that throws when asked. *)
Definition no_thread : list label :=
  [LTick; LCtl; LTick; LCtl; LCtl; LCtl; LTick; LCtl; LLaunchFail; LBegin 1; LEnd 1 ok; LCtl; LCtl].
Example C101_case_launch :
  wf_dag (c_dag (demo 2)) /\ run_labels (demo 2) (init 0) no_thread = Some (go (demo 2) no_thread) /\
  result (go (demo 2) no_thread) = RThrow (ExcLaunch 6) /\
  In (EEnd 1 ok) (trace (go (demo 2) no_thread)).
Proof.
  split; [exact wf_demo|]. split; [vm_compute; reflexivity|]. split; [vm_compute; reflexivity|find_in].
Qed.
Definition visitor_fails : list label := [LTick; LCtl; LTick; LVisThrow 0; LCtl; LCtl].
Example C101_case_visitor :
  run_labels (demo 2) (init 0) visitor_fails = Some (go (demo 2) visitor_fails) /\
  result (go (demo 2) visitor_fails) = RThrow ExcVisitor.
Proof. split; vm_compute; reflexivity. Qed.
Example C101_case_start :
  wf_dag (c_dag inval_throws) /\ result (go (loop 2) [LTick]) = RThrow ExcCycle /\
  result (go inval_throws [LTick]) = RThrow (ExcInval 4).
Proof. split; [exact wf_demo|]. split; vm_compute; reflexivity. Qed.
(** gen fails and lib is not executed, but the execution ends with a record. *)
Example C101_case_never :
  acyclic (c_dag (demo 2)) /\
  (forall n, In n (node_ids (c_dag (demo 2))) -> c_inval (demo 2) n <> IvThrow) /\
  undisturbed (demo_run 2 (fun _ => failing)) /\
  run_labels (demo 2) (init 0) (demo_run 2 (fun _ => failing)) = Some (demo_end 2 (fun _ => failing)) /\
  exists er, result (demo_end 2 (fun _ => failing)) = RRecord er.
Proof.
  split; [exact acyclic_demo|]. split.
  - intros n. vm_compute. intuition; subst; discriminate.
  - split; [|split; [vm_compute; reflexivity|eexists; vm_compute; reflexivity]].
    assert (H : forallb (fun l => match l with LLaunchFail | LVisThrow _ => false | _ => true end)
                        (demo_run 2 (fun _ => failing)) = true) by (vm_compute; reflexivity).
    intros l Hl. rewrite forallb_forall in H. specialize (H l Hl). clear Hl.
    destruct l; try (discriminate H); split; discriminate.
Qed.
