(** Only what follows from the declarations matters (C104). *)
From Coq Require Import String Relations Permutation.
From Verif Require Import Model.Common Model.Records Model.Jobs Model.TaskSet Model.Dag
     Model.Sched Model.Exec Model.ExecSet Spec.Graph Spec.Trace Spec.Tasks Spec.Machine Spec.Redundant
     Properties.Demo Properties.TaskSets Proofs.DemoFacts Proofs.SetExec Proofs.MachineDemo
     Proofs.RedundantFacts Proofs.RedundantDemo.
Open Scope string_scope.
Open Scope nat_scope.
Open Scope list_scope.

(** * C104 Saying something twice changes nothing *)

(** With a thread for every task and no shared resource, the same sequences of jobs
    beginning and ending can happen. *)
Theorem C104_same_jobs : forall c1 c2 z h,
  wf_dag (c_dag c1) -> requires_after (c_dag c1) -> wf_dag (c_dag c2) -> requires_after (c_dag c2) ->
  same_meaning c1 c2 -> plenty c1 ->
  ((exists s, reachable c1 z s /\ jobs (trace s) = h) <-> (exists s, reachable c2 z s /\ jobs (trace s) = h)).
Proof. exact same_jobs. Qed.
Print Assumptions C104_same_jobs.

(** Always: if the jobs end alike, the tasks are recorded alike. *)
Theorem C104_same_fate : forall c1 c2 z1 s1 z2 s2,
  wf_dag (c_dag c1) -> requires_after (c_dag c1) -> wf_dag (c_dag c2) -> requires_after (c_dag c2) ->
  same_meaning c1 c2 -> reachable c1 z1 s1 -> reachable c2 z2 s2 ->
  (forall n o1 o2, In (EEnd n o1) (trace s1) -> In (EEnd n o2) (trace s2) -> o1 = o2) ->
  forall r1 r2, In r1 (records (trace s1)) -> In r2 (records (trace s2)) -> r_node r1 = r_node r2 ->
  r_status r1 = r_status r2 /\ r_retcode r1 = r_retcode r2 /\ r_output r1 = r_output r2.
Proof. exact same_fate. Qed.
Print Assumptions C104_same_fate.

(** An edge that follows from others. *)
Theorem C104_edge : forall c a b k,
  wf_dag (c_dag c) -> requires_after (c_dag c) ->
  clos_trans nid (fun x y => In (Edge x y k) (d_edges (c_dag c))) a b ->
  (k = REQUIRES -> runs_after (c_dag c) a b) ->
  wf_dag (c_dag (with_edge c a b k)) /\ requires_after (c_dag (with_edge c a b k)) /\
  same_meaning c (with_edge c a b k).
Proof. exact redundant_edge. Qed.
Print Assumptions C104_edge.

(** Task sets. *)
Theorem C104_task_sets : forall st1 st2 ts filt iv addr c1 c2,
  execution_of st1 ts filt iv addr c1 -> execution_of st2 ts filt iv addr c2 ->
  c_threads c1 = c_threads c2 -> same_declarations st1 st2 ts filt -> same_meaning c1 c2.
Proof. exact declared_same. Qed.
Print Assumptions C104_task_sets.

(** A dependency, run_after or invalidated_by that follows from others. *)
Theorem C104_declare_again : forall st ts filt a b,
  (clos_trans tid (depends_on st) a b ->
   same_declarations st (store_set st a (add_depends_on b (st_get st a))) ts filt) /\
  (clos_trans tid (selected_after st ts filt) a b ->
   same_declarations st (store_set st a (add_run_after b (st_get st a))) ts filt) /\
  (clos_trans tid (selected_inval st ts filt) a b ->
   same_declarations st (store_set st a (add_invalidated_by b (st_get st a))) ts filt).
Proof. exact declare_again. Qed.
Print Assumptions C104_declare_again.

(** The same lists in another order or with repetitions; the helpers called a second time. *)
Theorem C104_lists : forall st1 st2 ts filt, same_lists st1 st2 -> same_declarations st1 st2 ts filt.
Proof. exact lists_same. Qed.
Print Assumptions C104_lists.
Theorem C104_helpers_again : forall st ts t, ordered ts -> owned ts ->
  same_lists (for_each_add_dep st ts t) (for_each_add_dep (for_each_add_dep st ts t) ts t) /\
  same_lists (add_dep_to_each st t ts) (add_dep_to_each (add_dep_to_each st t ts) t ts) /\
  same_lists (run_each_after st ts t) (run_each_after (run_each_after st ts t) ts t) /\
  same_lists (run_after_all_of st t ts) (run_after_all_of (run_after_all_of st t ts) t ts) /\
  same_lists (invalidated_by_all_of st t ts) (invalidated_by_all_of (invalidated_by_all_of st t ts) t ts).
Proof. exact helpers_again. Qed.
Print Assumptions C104_helpers_again.

(** With fewer threads, a declaration that follows from others can change the order. *)
Theorem C104_needs_plenty : exists c a b h,
  wf_dag (c_dag c) /\ requires_after (c_dag c) /\ c_threads c = 1 /\
  clos_trans nid (runs_after (c_dag c)) a b /\
  (exists s, reachable c 0 s /\ jobs (trace s) = h) /\
  forall z s, reachable (with_edge c a b AFTER) z s -> jobs (trace s) <> h.
Proof.
  exists (fork 1), 1, 2, [Begins 4]. split; [apply fork_wf|]. split; [apply fork_ra|]. split; [reflexivity|].
  split; [apply fork_path|]. split; [exists fork_state; split; [exact reach_fork|exact fork_jobs]|exact fork_never].
Qed.
Print Assumptions C104_needs_plenty.

(** The graph of the last theorem, with four threads. *)
Example C104_case :
  wf_dag (c_dag (fork 4)) /\ requires_after (c_dag (fork 4)) /\ plenty (fork 4) /\
  clos_trans nid (runs_after (c_dag (fork 4))) 1 2 /\ ~ runs_after (c_dag (fork 4)) 1 2 /\
  exists s, reachable (fork 4) 0 s /\ jobs (trace s) = [Begins 4; Begins 2; Ends 4 ok; Ends 2 ok; Begins 3; Ends 3 ok; Begins 1].
Proof.
  split; [apply fork_wf|]. split; [apply fork_ra|]. split; [exact fork_plenty|]. split; [apply fork_path|].
  split; [cbn; intuition discriminate|]. exists fork4_state. split; [exact reach_fork4|exact fork4_jobs].
Qed.

(** app (3) depends on lib, lib on gen (1): that app depends on gen is redundant.  lib fails. *)
Example C104_case_task_sets :
  execution_of demo_store demo_set "" demo_inval (fun t => t) set_demo /\
  clos_trans tid (depends_on demo_store) 3 1 /\
  execution_of again_store demo_set "" demo_inval (fun t => t) again_demo /\
  c_threads set_demo = c_threads again_demo /\
  reachable set_demo 0 (set_end lib_fails) /\ reachable again_demo 0 again_end /\
  List.length (d_edges (c_dag again_demo)) = 3 + List.length (d_edges (c_dag set_demo)) /\
  forallb (fun t => match filter (fun r => r_task r =? t) (records (trace (set_end lib_fails))),
                          filter (fun r => r_task r =? t) (records (trace again_end)) with
                    | [a], [b] => match r_status a, r_status b with
                                  | OK, OK | SKIP, SKIP | DEPF, DEPF | FAIL, FAIL => true
                                  | _, _ => false
                                  end
                    | _, _ => false
                    end) [1; 2; 3; 4; 5; 6] = true.
Proof.
  split; [exact exec_set_demo|]. split; [exact app_gen|]. split; [exact exec_again|]. split; [reflexivity|].
  split; [exact reach_set_fail|]. split; [exact reach_again|]. split; vm_compute; reflexivity.
Qed.
