(** Constraints only restrict; where things are in memory does not matter (C105). *)
From Coq Require Import String Relations.
From Verif Require Import Model.Common Model.Records Model.Jobs Model.TaskSet Model.Dag
     Model.Sched Model.Exec Model.ExecSet Spec.Graph Spec.Trace Spec.Tasks Spec.Machine Spec.Redundant Spec.Constraints
     Properties.Demo Proofs.DemoFacts Proofs.ConstraintFacts Proofs.RedundantDemo Proofs.ConstraintDemo.
Open Scope string_scope.
Open Scope nat_scope.
Open Scope list_scope.

(** * C105 Constraints only restrict *)

(** Whatever the jobs can do under some constraints, they can do under fewer, if there is
    then a thread for every task and no shared resource. *)
Theorem C105_only_restrict : forall f c1 c2 z s,
  wf_dag (c_dag c1) -> requires_after (c_dag c1) -> wf_dag (c_dag c2) -> requires_after (c_dag c2) ->
  looser f c1 c2 -> plenty c2 -> reachable c1 z s ->
  exists s2, reachable c2 z s2 /\ jobs (trace s2) = map (rename f) (jobs (trace s)).
Proof. exact only_restrict. Qed.
Print Assumptions C105_only_restrict.

(** Any number of threads and any resources: nothing happens that could not happen with
    enough threads and no resources. *)
Theorem C105_threads : forall c k z s,
  wf_dag (c_dag c) -> requires_after (c_dag c) ->
  c_threads c <= k -> List.length (node_ids (c_dag c)) <= k -> reachable c z s ->
  exists s2, reachable (without_resources (with_threads c k)) z s2 /\ jobs (trace s2) = jobs (trace s).
Proof. exact enough_threads. Qed.
Print Assumptions C105_threads.

(** Task sets. *)
Theorem C105_task_sets : forall st1 st2 ts filt iv addr1 addr2 c1 c2 z s,
  execution_of st1 ts filt iv addr1 c1 -> execution_of st2 ts filt iv addr2 c2 -> fewer st1 st2 ->
  Nat.max 1 (c_threads c1) <= Nat.max 1 (c_threads c2) -> plenty c2 -> reachable c1 z s ->
  exists s2, reachable c2 z s2 /\ task_jobs c2 (trace s2) = task_jobs c1 (trace s).
Proof. exact fewer_restrict. Qed.
Print Assumptions C105_task_sets.
Theorem C105_one_less : forall st a d r,
  fewer (store_set st a (add_run_after d (st_get st a))) st /\
  fewer (store_set st a (add_resource r (st_get st a))) st.
Proof. exact one_less. Qed.
Print Assumptions C105_one_less.

(** Always: if the jobs end alike, the tasks are recorded alike, whatever run_after,
    resources and threads. *)
Theorem C105_same_fate : forall st1 st2 ts filt iv addr1 addr2 c1 c2 z1 z2 s1 s2,
  execution_of st1 ts filt iv addr1 c1 -> execution_of st2 ts filt iv addr2 c2 -> fewer st1 st2 ->
  Nat.max 1 (c_threads c1) <= Nat.max 1 (c_threads c2) -> reachable c1 z1 s1 -> reachable c2 z2 s2 ->
  (forall n1 n2 o1 o2, In (EEnd n1 o1) (trace s1) -> In (EEnd n2 o2) (trace s2) ->
     node_task (c_dag c1) n1 = node_task (c_dag c2) n2 -> o1 = o2) ->
  forall r1 r2, In r1 (records (trace s1)) -> In r2 (records (trace s2)) -> r_task r1 = r_task r2 ->
  r_status r1 = r_status r2 /\ r_retcode r1 = r_retcode r2 /\ r_output r1 = r_output r2.
Proof. exact fewer_fate. Qed.
Print Assumptions C105_same_fate.

(** The same task set, its nodes in other places and its maps iterated in another order. *)
Theorem C105_placement : forall st ts filt iv addr1 addr2 c1 c2 z h,
  execution_of st ts filt iv addr1 c1 -> execution_of st ts filt iv addr2 c2 -> c_threads c1 = c_threads c2 ->
  plenty c1 ->
  ((exists s, reachable c1 z s /\ task_jobs c1 (trace s) = h) <->
   (exists s, reachable c2 z s /\ task_jobs c2 (trace s) = h)).
Proof. exact placement. Qed.
Print Assumptions C105_placement.

(** With one thread, taking a constraint away can make impossible what was possible. *)
Theorem C105_needs_plenty : exists c1 c2 h,
  wf_dag (c_dag c1) /\ requires_after (c_dag c1) /\ wf_dag (c_dag c2) /\ requires_after (c_dag c2) /\
  looser (fun n => n) c1 c2 /\ c_threads c1 = 1 /\ c_threads c2 = 1 /\
  (exists s, reachable c1 0 s /\ jobs (trace s) = h) /\
  forall z s, reachable c2 z s -> jobs (trace s) <> h.
Proof.
  exists forked, (fork 1), [Begins 2].
  split; [apply wf_dagb_wf; vm_compute; reflexivity|].
  split; [intros a b H; cbn in H; repeat destruct H as [H|H]; try discriminate H; destruct H|].
  split; [apply fork_wf|]. split; [apply fork_ra|]. split; [exact forked_looser|].
  split; [reflexivity|]. split; [reflexivity|].
  split; [exists forked_state; split; [exact reach_forked|exact forked_jobs]|exact fork1_never].
Qed.
Print Assumptions C105_needs_plenty.

(** c (3) depends on a (1).  At first b (2) is to run after a and shares a resource with c;
    then neither. *)
Example C105_case :
  execution_of tight_store abc "" changed (fun t => t) tight /\
  execution_of loose_store abc "" changed away loose /\
  fewer tight_store loose_store /\ c_threads tight = 2 /\ c_threads loose = 3 /\ plenty loose /\
  (exists s, reachable tight 0 s /\
     task_jobs tight (trace s) = [Begins 1; Ends 1 ok; Begins 2; Ends 2 failing; Begins 3]) /\
  exists s, reachable loose 0 s /\ task_jobs loose (trace s) = [Begins 2; Begins 1; Ends 1 ok; Begins 3].
Proof.
  split; [exact exec_tight|]. split; [exact exec_loose|]. split; [exact loose_fewer|].
  split; [vm_compute; reflexivity|]. split; [vm_compute; reflexivity|]. split; [exact loose_plenty|].
  split; [exists tight_state; split; [exact reach_tight|exact tight_jobs]|].
  exists loose_state. split; [exact reach_loose|exact loose_jobs].
Qed.
Example C105_case_placement :
  execution_of loose_store abc "" changed away loose /\
  execution_of loose_store abc "" changed (fun t => t) loose_here /\
  c_threads loose = c_threads loose_here /\ plenty loose /\
  node_ids (c_dag loose) <> node_ids (c_dag loose_here).
Proof.
  split; [exact exec_loose|]. split; [exact exec_loose_here|]. split; [vm_compute; reflexivity|].
  split; [exact loose_plenty|]. vm_compute. discriminate.
Qed.
