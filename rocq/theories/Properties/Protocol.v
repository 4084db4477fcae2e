(** The interface of an execution: C21, C22, C23, C24, C25, C26. *)
From Coq Require Import String Permutation Sorted.
From Verif Require Import Model.Common Model.Records Model.Jobs Model.TaskSet Model.Dag
     Model.Sched Model.Exec Spec.Graph Spec.Trace Properties.Demo Proofs.DemoFacts
     Proofs.ExecProps2 Proofs.ExecProps3 Proofs.ExecProps4 Proofs.SlotNodes Proofs.RunCall.
Open Scope string_scope.
Open Scope nat_scope.
Open Scope list_scope.

(** * C21 after_run is given the node of the record *)

(** False with two or more threads: the record is that of node 2, the node passed is
    node 1. *)
Theorem C21_refuted : exists c z s er r x,
  wf_dag (c_dag c) /\ reachable c z s /\ result s <> RNone /\
  In (EAfterRun er r x) (trace s) /\ r_node r = 2 /\ x = 1.
Proof.
  set (c := Config (Dag [DNode 2 "b" 1; DNode 1 "a" 1] []) 2 demo_tasks (fun _ => IvRet true "")).
  set (s := go c [LTick; LCtl; LTick; LCtl; LCtl; LCtl; LTick; LCtl; LCtl; LCtl; LBegin 1; LEnd 1 ok;
                  LBegin 2; LCtl; LTick; LCtl; LCtl; LCtl; LEnd 2 ok; LTick; LCtl; LCtl; LTick]).
  assert (E : exists er r, In (EAfterRun er r 1) (trace s) /\ r_node r = 2).
  { do 2 eexists. split; [|shelve]. apply nth_error_In with 23. vm_compute. reflexivity. Unshelve. reflexivity. }
  destruct E as [er [r [E1 E2]]]. exists c, 0%Z, s, er, r, 1.
  split; [apply wf_dagb_wf; vm_compute; reflexivity|]. split; [apply go_reachable; vm_compute; reflexivity|].
  split; [vm_compute; discriminate|]. auto.
Qed.
Print Assumptions C21_refuted.

(** Missing: thread counts above 1, where it is false. *)
Theorem C21_after_run_node_partial : forall c z s er r x,
  wf_dag (c_dag c) -> reachable c z s -> c_threads c <= 1 ->
  In (EAfterRun er r x) (trace s) -> x = r_node r.
Proof. exact after_run_node_seq. Qed.
Print Assumptions C21_after_run_node_partial.

Example C21_case :
  wf_dag (c_dag (demo 1)) /\ reachable (demo 1) 0 (demo_end 1 all_ok) /\ c_threads (demo 1) <= 1 /\
  exists er r x, In (EAfterRun er r x) (trace (demo_end 1 all_ok)).
Proof.
  split; [exact wf_demo|]. split; [exact reach_demo_ok1|]. split; [apply le_n|].
  do 3 eexists. apply nth_error_In with 28. vm_compute. reflexivity.
Qed.

(** With any number of threads: right if no other task's after_run comes between its own
    and the on_tick before its before_run. *)
Theorem C21_alone_partial : forall c z s l1 er1 l2 er2 l3 er3 r x l4,
  wf_dag (c_dag c) -> reachable c z s ->
  trace s = l1 ++ EOnTick er1 :: l2 ++ EBeforeRun er2 (r_node r) :: l3 ++ EAfterRun er3 r x :: l4 ->
  (forall er' r' x', ~ In (EAfterRun er' r' x') (l2 ++ l3)) -> x = r_node r.
Proof. exact after_run_alone. Qed.
Print Assumptions C21_alone_partial.

Example C21_case_alone :
  wf_dag (c_dag (demo 2)) /\ reachable (demo 2) 0 (demo_end 2 all_ok) /\
  exists l1 er1 er2 l3 er3 r x l4,
    trace (demo_end 2 all_ok) = l1 ++ EOnTick er1 :: [] ++ EBeforeRun er2 (r_node r) :: l3 ++ EAfterRun er3 r x :: l4 /\
    r_node r = 2 /\ (forall er' r' x', ~ In (EAfterRun er' r' x') ([] ++ l3)).
Proof.
  split; [exact wf_demo|]. split; [apply go_reachable; vm_compute; reflexivity|].
  apply (alone_shape (trace (demo_end 2 all_ok)) 29 4 2); vm_compute; reflexivity.
Qed.

(** The node given always is one whose before_run was called. *)
Theorem C21_given_node_started : forall c z s pre er r x post,
  wf_dag (c_dag c) -> reachable c z s -> trace s = pre ++ EAfterRun er r x :: post ->
  exists er', In (EBeforeRun er' x) pre.
Proof. exact after_run_started. Qed.
Print Assumptions C21_given_node_started.

(** * C22 Visitor protocol *)

(** [stages n tr]: the callbacks about node n (or its record) in [tr], by their number in
    the documented order. *)
Theorem C22_protocol_order : forall c z s n,
  wf_dag (c_dag c) -> reachable c z s -> StronglySorted lt (stages n (trace s)).
Proof. exact protocol_order. Qed.
Print Assumptions C22_protocol_order.

Theorem C22_protocol_complete : forall c z s er n,
  wf_dag (c_dag c) -> reachable c z s -> result s = RRecord er -> In n (node_ids (c_dag c)) ->
  (In (EBegin n) (trace s) -> stages n (trace s) = [0; 1; 2; 3; 4]) /\
  (~ In (EBegin n) (trace s) -> stages n (trace s) = [0; 1; 2; 4]).
Proof. exact protocol_complete. Qed.
Print Assumptions C22_protocol_complete.

Theorem C22_after_execution_last : forall c z s pre er post,
  wf_dag (c_dag c) -> reachable c z s -> trace s = pre ++ EAfterExec er :: post ->
  (post = [] \/ post = [EDestroyed]) /\ (forall er', ~ In (EAfterExec er') pre).
Proof. exact after_execution_last. Qed.
Print Assumptions C22_after_execution_last.

Theorem C22_finished_after_execution : forall c z s er,
  wf_dag (c_dag c) -> reachable c z s -> result s = RRecord er ->
  exists pre, trace s = pre ++ [EAfterExec er] /\ er_runs er = records pre.
Proof. exact finished_after_execution. Qed.
Print Assumptions C22_finished_after_execution.

Example C22_case :
  wf_dag (c_dag (demo 2)) /\ reachable (demo 2) 0 (demo_end 2 all_ok) /\
  (exists er, result (demo_end 2 all_ok) = RRecord er) /\
  stages 3 (trace (demo_end 2 all_ok)) = [0; 1; 2; 3; 4] /\
  stages 4 (trace (demo_end 2 all_ok)) = [0; 1; 2; 4] /\
  exists pre er post, trace (demo_end 2 all_ok) = pre ++ EAfterExec er :: post.
Proof.
  split; [exact wf_demo|]. split; [exact reach_demo_ok|]. split; [exact fin_demo_ok|].
  split; [vm_compute; reflexivity|]. split; [vm_compute; reflexivity|].
  do 3 eexists. apply (nth_split_at (trace (demo_end 2 all_ok)) 59). vm_compute. reflexivity.
Qed.

(** * C23 exec is lazy *)

(** Before the first tick there are no events but the end of the object's destruction. *)
Theorem C23_exec_lazy : forall c z ls s,
  run_labels c (init z) ls = Some s -> ~ In LTick ls -> (forall k, ~ In (LVisThrow k) ls) ->
  trace s = [] \/ trace s = [EDestroyed].
Proof. exact exec_lazy. Qed.
Print Assumptions C23_exec_lazy.

Example C23_case : exists s, run_labels (demo 2) (init 0) [LClock 4; LDestroy; LCtl] = Some s /\
  trace s = [EDestroyed].
Proof. eexists. split; [reflexivity|]. reflexivity. Qed.

(** * C24 tick after completion does nothing *)

(** False: it resumes a coroutine that is suspended at its end, which is undefined
    behaviour, always. *)
Theorem C24_tick_after_end_undefined : forall c s, done s = true ->
  exists s', step c s LTick = Some s' /\ s_pc s' = Bad BadResumeDone.
Proof. exact tick_after_end_undefined. Qed.
Print Assumptions C24_tick_after_end_undefined.

Theorem C24_refuted : exists c z s s' er,
  wf_dag (c_dag c) /\ reachable c z s /\ result s = RRecord er /\
  step c s LTick = Some s' /\ s_pc s' = Bad BadResumeDone.
Proof.
  destruct fin_demo_ok as [er E]. exists (demo 2), 0%Z, (demo_end 2 all_ok).
  assert (D : done (demo_end 2 all_ok) = true) by (vm_compute; reflexivity).
  destruct (tick_after_end_undefined (demo 2) _ D) as [s' [T1 T2]]. exists s', er.
  split; [exact wf_demo|]. split; [exact reach_demo_ok|]. split; [exact E|]. split; [exact T1|exact T2].
Qed.
Print Assumptions C24_refuted.

(** * C25 result and done *)
Theorem C25_done_iff_result : forall c z s, reachable c z s -> (done s = true <-> result s <> RNone).
Proof. exact done_iff_result. Qed.
Print Assumptions C25_done_iff_result.

Theorem C25_result_stable : forall c z s ls s',
  wf_dag (c_dag c) -> reachable c z s -> done s = true ->
  run_labels c s ls = Some s' -> ~ In LTick ls -> ~ In LDestroy ls ->
  result s' = result s /\ done s' = true /\ trace s' = trace s.
Proof. exact result_stable. Qed.
Print Assumptions C25_result_stable.

(** run() on an execution that was not ticked after its end returns what result() then
    returns, and does not tick it after its end ([s'] is a defined state). *)
Theorem C25_run_returns_result : forall c z s r s',
  reachable c z s -> s_pc s <> Bad BadResumeDone -> run_call c s r s' ->
  reachable c z s' /\ done s' = true /\ r = result s' /\ r <> RNone.
Proof. exact run_returns_result. Qed.
Print Assumptions C25_run_returns_result.

(** A call of run() can always be completed, whatever the jobs do: for every choice of how
    they end there is a call that returns.  It returns a record (throws nothing) unless the
    execution has already failed or must fail when it starts. *)
Theorem C25_run_can_return : forall c z s (oc : nid -> job_outcome),
  wf_dag (c_dag c) -> (forall n, In n (node_ids (c_dag c)) -> node_has_job c n = true) ->
  reachable c z s -> match s_pc s with Created | Suspended _ | Finished | Failed _ => True | _ => False end ->
  exists r s', run_call c s r s' /\
    (forall n o, In (EEnd n o) (trace s') -> In (EEnd n o) (trace s) \/ o = oc n) /\
    ((forall e, s_pc s <> Failed e) ->
     (s_pc s = Created -> acyclic (c_dag c) /\ forall n, In n (node_ids (c_dag c)) -> c_inval c n <> IvThrow) ->
     exists er, r = RRecord er).
Proof. exact run_can_return. Qed.
Print Assumptions C25_run_can_return.

Example C25_case :
  wf_dag (c_dag (demo 2)) /\ reachable (demo 2) 0 (demo_end 2 all_ok) /\ done (demo_end 2 all_ok) = true /\
  (exists s', run_labels (demo 2) (demo_end 2 all_ok) [LClock 9] = Some s').
Proof.
  split; [exact wf_demo|]. split; [exact reach_demo_ok|]. split; [vm_compute; reflexivity|].
  eexists. reflexivity.
Qed.
(** run() called before the first tick and in the middle of an execution *)
Example C25_case_can_return :
  wf_dag (c_dag (demo 2)) /\
  (forall n, In n (node_ids (c_dag (demo 2))) -> node_has_job (demo 2) n = true) /\
  reachable (demo 2) 0 (init 0) /\ s_pc (init 0) = Created /\ acyclic (c_dag (demo 2)) /\
  (forall n, In n (node_ids (c_dag (demo 2))) -> c_inval (demo 2) n <> IvThrow) /\
  reachable (demo 2) 0 (go (demo 2) [LTick; LCtl]) /\
  s_pc (go (demo 2) [LTick; LCtl]) = Suspended PMain.
Proof.
  split; [exact wf_demo|]. split.
  { intros n Hn. vm_compute in Hn. repeat (destruct Hn as [<-|Hn]; [vm_compute; reflexivity|]). destruct Hn. }
  split; [exists []; reflexivity|]. split; [reflexivity|]. split; [exact acyclic_demo|]. split.
  { intros n Hn. vm_compute in Hn. repeat (destruct Hn as [<-|Hn]; [vm_compute; discriminate|]). destruct Hn. }
  split; [apply go_reachable; vm_compute; reflexivity|]. vm_compute. reflexivity.
Qed.
(** run() of an execution of the empty graph, and of a cyclic one *)
Example C25_case_run : exists r s',
  run_call (loop 2) (init 0) r s' /\ r = RThrow ExcCycle.
Proof.
  eexists. eexists. split.
  - eapply (RunTick _ (init 0) [] (init 0) LTick _ [] _).
    + reflexivity.
    + reflexivity.
    + reflexivity.
    + left; reflexivity.
    + reflexivity.
    + reflexivity.
    + reflexivity.
    + vm_compute; reflexivity.
    + apply RunDone. vm_compute. reflexivity.
  - vm_compute. reflexivity.
Qed.

(** * C26 Destroying an unfinished execution waits for its jobs *)

(** From the call of the destructor on, only jobs launched before begin or end. *)
Theorem C26_no_new_work_after_destroy : forall c s s1 ls s2,
  step c s LDestroy = Some s1 -> run_labels c s1 ls = Some s2 ->
  exists new, trace s2 = trace s ++ new /\
    forall e, In e new -> (exists n, e = EBegin n) \/ (exists n o, e = EEnd n o) \/ e = EDestroyed.
Proof. exact no_new_work_after_destroy. Qed.
Print Assumptions C26_no_new_work_after_destroy.

(** The destructor returns only when all launched jobs have ended; nothing happens
    afterwards. *)
Theorem C26_destroyed_waits : forall c z s pre post,
  wf_dag (c_dag c) -> reachable c z s -> trace s = pre ++ EDestroyed :: post ->
  post = [] /\ forall n, In (ELaunch n) pre -> exists o, In (EEnd n o) pre.
Proof. exact destroyed_waits. Qed.
Print Assumptions C26_destroyed_waits.

(** The same when the execution is aborted by an exception. *)
Theorem C26_aborted_waits : forall c z s e,
  wf_dag (c_dag c) -> reachable c z s -> result s = RThrow e ->
  forall n, In (ELaunch n) (trace s) -> exists o, In (EEnd n o) (trace s).
Proof. exact aborted_waits. Qed.
Print Assumptions C26_aborted_waits.

(** Destroyed while the jobs of gen and lint are being executed. *)
Example C26_case :
  let ls := [LTick; LCtl; LTick; LCtl; LCtl; LCtl; LDestroy; LBegin 1; LEnd 1 ok; LCtl; LCtl; LCtl] in
  wf_dag (c_dag (demo 2)) /\ reachable (demo 2) 0 (go (demo 2) ls) /\
  exists pre post, trace (go (demo 2) ls) = pre ++ EDestroyed :: post /\ In (ELaunch 1) pre.
Proof.
  intros ls. split; [exact wf_demo|]. split; [apply go_reachable; vm_compute; reflexivity|].
  exists (firstn (List.length (trace (go (demo 2) ls)) - 1) (trace (go (demo 2) ls))), [].
  split; [vm_compute; reflexivity|find_in].
Qed.
(** Launching lint fails while the job of gen is being executed. *)
Example C26_case_aborted :
  let ls := [LTick; LCtl; LTick; LCtl; LCtl; LCtl; LTick; LCtl; LLaunchFail; LBegin 1; LEnd 1 ok; LCtl; LCtl] in
  wf_dag (c_dag (demo 2)) /\ reachable (demo 2) 0 (go (demo 2) ls) /\
  (exists e, result (go (demo 2) ls) = RThrow e) /\ In (ELaunch 1) (trace (go (demo 2) ls)).
Proof.
  intros ls. split; [exact wf_demo|]. split; [apply go_reachable; vm_compute; reflexivity|].
  split; [eexists; vm_compute; reflexivity|find_in].
Qed.
