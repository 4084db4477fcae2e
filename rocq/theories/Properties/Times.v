(** The times in the report: C112. *)
From Coq Require Import String Lia.
From Verif Require Import Model.Common Model.Records Model.Jobs Model.TaskSet Model.Dag Model.Sched Model.Exec Model.Format
     Spec.Graph Spec.Trace Spec.Tasks Spec.Times
     Properties.Demo Properties.TaskSets Proofs.DemoFacts Proofs.TimesFacts Proofs.TimesSets.
Open Scope nat_scope.
Open Scope list_scope.

(** * C112 The times in a report fit together

    All of it for executions during which the clock never went backwards. *)

(** At no time are more runs going on than there are threads (one, if there are none). *)
Theorem C112_overlap : forall c z ls s t,
  wf_dag (c_dag c) -> run_labels c (init z) ls = Some s -> monotone_clock z ls ->
  List.length (filter (going_on t) (records (trace s))) <= Nat.max 1 (c_threads c).
Proof. exact few_at_once. Qed.
Print Assumptions C112_overlap.

(** The runs are reported in the order in which they ended. *)
Theorem C112_order : forall c z ls s l1 a l2 b l3,
  wf_dag (c_dag c) -> run_labels c (init z) ls = Some s -> monotone_clock z ls ->
  records (trace s) = l1 ++ a :: l2 ++ b :: l3 -> (r_end a <= r_end b)%Z.
Proof. exact end_order. Qed.
Print Assumptions C112_order.

(** Two executed tasks that need the same resource were not going on at the same time. *)
Theorem C112_resources : forall st ts filt iv addr c, execution_of st ts filt iv addr c -> forall z ls s,
  run_labels c (init z) ls = Some s -> monotone_clock z ls ->
  forall ra rb x, In ra (records (trace s)) -> In rb (records (trace s)) -> was_executed ra -> was_executed rb ->
  r_task ra <> r_task rb -> In x (t_resources (st_get st (r_task ra))) -> In x (t_resources (st_get st (r_task rb))) ->
  (r_end ra <= r_start rb \/ r_end rb <= r_start ra)%Z.
Proof. exact set_apart. Qed.
Print Assumptions C112_resources.

(** The durations add up to no more than the threads could have spent. *)
Theorem C112_work : forall c z ls s lo hi,
  wf_dag (c_dag c) -> run_labels c (init z) ls = Some s -> monotone_clock z ls ->
  (lo <= hi)%Z -> within_times lo hi (records (trace s)) ->
  (busy_time (records (trace s)) <= Z.of_nat (Nat.max 1 (c_threads c)) * (hi - lo))%Z.
Proof. exact busy_bound. Qed.
Print Assumptions C112_work.

(** The durations along any chain of nodes, each to run after the one before it, add up to no
    more than the time of the whole execution. *)
Theorem C112_path : forall c z ls s lo hi rs,
  wf_dag (c_dag c) -> run_labels c (init z) ls = Some s -> monotone_clock z ls ->
  (lo <= hi)%Z -> within_times lo hi (records (trace s)) -> incl rs (records (trace s)) ->
  each_after (fun b a => runs_after (c_dag c) (r_node b) (r_node a)) rs -> (busy_time rs <= hi - lo)%Z.
Proof. exact path_bound. Qed.
Print Assumptions C112_path.

(** The same two bounds against the number of seconds that the report gives as the total. *)
Theorem C112_reported : forall st ts filt iv addr c, execution_of st ts filt iv addr c -> forall z ls s,
  run_labels c (init z) ls = Some s -> monotone_clock z ls ->
  forall er k, result s = RRecord er -> runtime_sum er = Some k ->
  (busy_time (er_runs er) <= Z.of_nat (Nat.max 1 (c_threads c)) * (k * 1000000000) /\
   forall rs, incl rs (er_runs er) -> each_after (fun b a => task_after st (r_task b) (r_task a)) rs ->
     busy_time rs <= k * 1000000000)%Z.
Proof. exact reported_bounds. Qed.
Print Assumptions C112_reported.

(** Two threads; the clock moves by one second after each step.  gen and lint overlap. *)
Fixpoint stamped (k : Z) (ls : list label) : list label :=
  match ls with [] => [] | l :: r => l :: LClock (k + 1000000000) :: stamped (k + 1000000000)%Z r end.
Definition timed : list label := stamped 0 (busy_labels ++ drive set_demo all_ok 60 (go set_demo busy_labels)).
Definition timed_end : state := go set_demo timed.
Definition timed_runs : list run_record := records (trace timed_end).

Example C112_reachable :
  execution_of demo_store demo_set "" demo_inval (fun t => t) set_demo /\ wf_dag (c_dag set_demo) /\
  c_threads set_demo = 2 /\
  run_labels set_demo (init 0) timed = Some timed_end /\ monotone_clock 0 timed /\
  map (fun r => (r_task r, r_start r / 1000000000, r_end r / 1000000000)%Z) timed_runs =
    [(6, 8%Z, 13%Z); (1, 3%Z, 16%Z); (2, 19%Z, 22%Z); (3, 25%Z, 28%Z); (4, 31%Z, 31%Z); (5, 34%Z, 37%Z)].
Proof.
  split; [exact exec_set_demo|]. split; [apply wf_dagb_wf; vm_compute; reflexivity|]. split; [reflexivity|].
  split; [vm_compute; reflexivity|]. split; [vm_compute; repeat split; discriminate|]. vm_compute. reflexivity.
Qed.

(** Two runs at 10 seconds: the bound of C112_overlap is met. *)
Example C112_overlap_reached : List.length (filter (going_on 10000000000) timed_runs) = Nat.max 1 (c_threads set_demo).
Proof. vm_compute. reflexivity. Qed.

(** lib and app need the same resource; both were executed. *)
Example C112_resources_reachable : exists ra rb, In ra timed_runs /\ In rb timed_runs /\ was_executed ra /\ was_executed rb /\
  r_task ra <> r_task rb /\ In 7 (t_resources (st_get demo_store (r_task ra))) /\ In 7 (t_resources (st_get demo_store (r_task rb))).
Proof.
  destruct (nth_error timed_runs 2) as [ra|] eqn:Ea; [|vm_compute in Ea; discriminate].
  destruct (nth_error timed_runs 3) as [rb|] eqn:Eb; [|vm_compute in Eb; discriminate].
  exists ra, rb. split; [exact (nth_error_In _ _ Ea)|]. split; [exact (nth_error_In _ _ Eb)|].
  vm_compute in Ea, Eb. inversion Ea. inversion Eb. unfold was_executed. cbn. repeat split; auto; discriminate.
Qed.

(** gen, lib, app, test: 13 + 3 + 3 + 3 seconds along a chain, 27 in all, 34 from start to end. *)
Example C112_reported_reachable : exists er rs,
  result timed_end = RRecord er /\ runtime_sum er = Some 34%Z /\ busy_time (er_runs er) = 27000000000%Z /\
  incl rs (er_runs er) /\ each_after (fun b a => task_after demo_store (r_task b) (r_task a)) rs /\
  map r_task rs = [1; 2; 3; 5] /\ busy_time rs = 22000000000%Z.
Proof.
  exists (s_erec timed_end), (filter (fun r => existsb (Nat.eqb (r_task r)) [1; 2; 3; 5]) (er_runs (s_erec timed_end))).
  split; [vm_compute; reflexivity|]. split; [vm_compute; reflexivity|]. split; [vm_compute; reflexivity|].
  split; [apply incl_filter|].
  split; [|split; vm_compute; reflexivity]. vm_compute. repeat split; left; auto.
Qed.
