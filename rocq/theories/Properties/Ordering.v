(** What is executed, in which order, and what may be executed at the same time:
    C01, C02, C03, C04, C15, C58. *)
From Coq Require Import String Permutation Sorted Relations.
From Verif Require Import Model.Common Model.Records Model.Jobs Model.TaskSet Model.Dag
     Model.Sched Model.Exec Spec.Graph Spec.Trace Properties.Demo Proofs.DemoFacts
     Proofs.ExecProps Proofs.ExecProps2 Proofs.Determinism Proofs.Order Proofs.RootCause.
Open Scope nat_scope.
Open Scope list_scope.

(** * C01 Each selected task runs at most once and is recorded exactly once *)

(** A job that begins belongs to a node of the graph, and has not begun before and does
    not begin again. *)
Theorem C01_at_most_once : forall c z s pre n post,
  wf_dag (c_dag c) -> reachable c z s -> trace s = pre ++ EBegin n :: post ->
  In n (node_ids (c_dag c)) /\ ~ In (EBegin n) pre /\ ~ In (EBegin n) post.
Proof. exact at_most_once. Qed.
Print Assumptions C01_at_most_once.

(** When the execution has finished, the record has exactly one entry per node of the
    graph, made for the node's task under the node's name. *)
Theorem C01_recorded_once : forall c z s er,
  wf_dag (c_dag c) -> reachable c z s -> result s = RRecord er ->
  Permutation (map (fun r => (r_node r, r_task r, r_name r)) (er_runs er))
              (map (fun x => (n_id x, n_task x, n_name x)) (d_nodes (c_dag c))).
Proof. exact recorded_nodes. Qed.
Print Assumptions C01_recorded_once.

(** [node_task], [node_name], [node_res] and [node_has_job], used in many statements below,
    give the task and the name of the graph's node, and the resources and the job of that
    task. *)
Theorem C01_node_lookup : forall c x, wf_dag (c_dag c) -> In x (d_nodes (c_dag c)) ->
  node_task (c_dag c) (n_id x) = n_task x /\ node_name (c_dag c) (n_id x) = n_name x /\
  node_res c (n_id x) = t_resources (c_task c (n_task x)) /\
  node_has_job c (n_id x) = t_has_job (c_task c (n_task x)).
Proof. exact node_lookup. Qed.
Print Assumptions C01_node_lookup.

Example C01_case :
  wf_dag (c_dag (demo 2)) /\ reachable (demo 2) 0 (demo_end 2 all_ok) /\
  (exists pre post, trace (demo_end 2 all_ok) = pre ++ EBegin 3 :: post) /\
  exists er, result (demo_end 2 all_ok) = RRecord er.
Proof.
  split; [exact wf_demo|]. split; [exact reach_demo_ok|]. split; [|exact fin_demo_ok].
  apply in_split. find_in.
Qed.

(** * C02 Run-after ordering *)
Theorem C02_run_after_order : forall c z s a b pre post,
  wf_dag (c_dag c) -> reachable c z s -> runs_after (c_dag c) a b ->
  trace s = pre ++ EBegin a :: post ->
  recorded pre b /\
  (In (EBegin b) pre -> exists o, In (EEnd b o) pre) /\
  ~ In (EBegin b) post.
Proof. exact run_after_order. Qed.
Print Assumptions C02_run_after_order.

(** Also over several steps, whatever happens to the tasks between (they may be skipped). *)
Theorem C02_transitive_order : forall c z s a b pre post,
  wf_dag (c_dag c) -> reachable c z s -> clos_trans nid (runs_after (c_dag c)) a b ->
  trace s = pre ++ EBegin a :: post ->
  recorded pre b /\
  (In (EBegin b) pre -> exists o, In (EEnd b o) pre) /\
  ~ In (EBegin b) post.
Proof. exact transitive_order. Qed.
Print Assumptions C02_transitive_order.

Example C02_case :
  wf_dag (c_dag (demo 2)) /\ reachable (demo 2) 0 (demo_end 2 all_ok) /\
  runs_after (c_dag (demo 2)) 3 2 /\
  exists pre post, trace (demo_end 2 all_ok) = pre ++ EBegin 3 :: post /\ In (EBegin 2) pre.
Proof.
  split; [exact wf_demo|]. split; [exact reach_demo_ok|]. split; [find_in|].
  exists (firstn 39 (trace (demo_end 2 all_ok))), (skipn 40 (trace (demo_end 2 all_ok))).
  split; [apply nth_split_at; vm_compute; reflexivity|find_in].
Qed.

(** gen is executed, then lib, then app. *)
Example C02_case_transitive :
  clos_trans nid (runs_after (c_dag (demo 2))) 3 1 /\
  exists pre post, trace (demo_end 2 all_ok) = pre ++ EBegin 3 :: post /\ In (EBegin 1) pre.
Proof.
  split; [eapply t_trans with 2; apply t_step; find_in|].
  exists (firstn 39 (trace (demo_end 2 all_ok))), (skipn 40 (trace (demo_end 2 all_ok))).
  split; [apply nth_split_at; vm_compute; reflexivity|find_in].
Qed.

(** * C03 Resource mutual exclusion *)

(** [running pre]: the jobs that have begun and not ended after the events [pre]. *)
Theorem C03_running_meaning : forall c z s pre post n,
  wf_dag (c_dag c) -> reachable c z s -> trace s = pre ++ post ->
  NoDup (running pre) /\
  (In n (running pre) <-> In (EBegin n) pre /\ ~ exists o, In (EEnd n o) pre).
Proof. exact running_meaning. Qed.
Print Assumptions C03_running_meaning.

Theorem C03_resource_exclusion : forall c z s pre post x y r,
  wf_dag (c_dag c) -> reachable c z s -> trace s = pre ++ post ->
  In x (d_nodes (c_dag c)) -> In y (d_nodes (c_dag c)) ->
  In (n_id x) (running pre) -> In (n_id y) (running pre) ->
  In r (t_resources (c_task c (n_task x))) -> In r (t_resources (c_task c (n_task y))) -> x = y.
Proof. exact resource_exclusion_nodes. Qed.
Print Assumptions C03_resource_exclusion.

(** lib and app share a resource; at some instant one of them is executing. *)
Example C03_case :
  wf_dag (c_dag (demo 2)) /\ reachable (demo 2) 0 (demo_end 2 all_ok) /\
  (exists x y, In x (d_nodes (c_dag (demo 2))) /\ In y (d_nodes (c_dag (demo 2))) /\ n_id x = 2 /\ n_id y = 3 /\
     In 7 (t_resources (c_task (demo 2) (n_task x))) /\ In 7 (t_resources (c_task (demo 2) (n_task y)))) /\
  exists pre post, trace (demo_end 2 all_ok) = pre ++ post /\ In 3 (running pre).
Proof.
  split; [exact wf_demo|]. split; [exact reach_demo_ok|]. split.
  { eexists. eexists. split; [apply (nth_error_In _ 4); vm_compute; reflexivity|].
    split; [apply (nth_error_In _ 5); vm_compute; reflexivity|].
    split; [reflexivity|]. split; [reflexivity|]. split; find_in. }
  exists (firstn 40 (trace (demo_end 2 all_ok))), (skipn 40 (trace (demo_end 2 all_ok))).
  split; [symmetry; apply firstn_skipn|find_in].
Qed.

(** * C04 Concurrency bound *)
Theorem C04_concurrency_bound : forall c z s pre post,
  wf_dag (c_dag c) -> reachable c z s -> trace s = pre ++ post ->
  (0 < c_threads c -> List.length (running pre) <= c_threads c) /\
  (c_threads c = 0 -> List.length (running pre) <= 1).
Proof. exact concurrency_bound. Qed.
Print Assumptions C04_concurrency_bound.

(** With thread_count 0 jobs are executed only while tick() is. *)
Theorem C04_deferred_inside_tick : forall c z s n,
  wf_dag (c_dag c) -> reachable c z s -> c_threads c = 0 ->
  In n (running (trace s)) -> tick_running s = true.
Proof. exact deferred_inside_tick. Qed.
Print Assumptions C04_deferred_inside_tick.

(** The bound is reached. *)
Example C04_case :
  wf_dag (c_dag (demo 2)) /\ reachable (demo 2) 0 demo_busy /\ running (trace demo_busy) = [6; 1].
Proof. split; [exact wf_demo|]. split; [exact reach_busy|]. vm_compute. reflexivity. Qed.

Example C04_case_deferred :
  wf_dag (c_dag (demo 0)) /\ exists s, reachable (demo 0) 0 s /\ c_threads (demo 0) = 0 /\ In 1 (running (trace s)).
Proof.
  split; [exact wf_demo|]. exists (go (demo 0) [LTick; LCtl; LTick; LCtl; LCtl]).
  split; [apply go_reachable; vm_compute; reflexivity|]. split; [reflexivity|find_in].
Qed.

(** * C15 Records are in dependency order *)
Theorem C15_record_order : forall c z s er l1 ra l2 b,
  wf_dag (c_dag c) -> reachable c z s -> result s = RRecord er ->
  er_runs er = l1 ++ ra :: l2 -> runs_after (c_dag c) (r_node ra) b ->
  (exists rb, In rb l1 /\ r_node rb = b) /\ (forall rb, In rb l2 -> r_node rb <> b).
Proof. exact record_order. Qed.
Print Assumptions C15_record_order.

Example C15_case :
  wf_dag (c_dag (demo 2)) /\ reachable (demo 2) 0 (demo_end 2 all_ok) /\
  exists er l1 ra l2, result (demo_end 2 all_ok) = RRecord er /\ er_runs er = l1 ++ ra :: l2 /\
    runs_after (c_dag (demo 2)) (r_node ra) 2.
Proof.
  split; [exact wf_demo|]. split; [exact reach_demo_ok|]. destruct fin_demo_ok as [er E].
  assert (L : nth_error (map r_node (er_runs er)) 2 = Some 3) by (revert E; vm_compute; intros E; inversion E; reflexivity).
  destruct (nth_error (er_runs er) 2) as [ra|] eqn:En; [|rewrite nth_error_map, En in L; discriminate].
  rewrite nth_error_map, En in L. inversion L as [L'].
  exists er, (firstn 2 (er_runs er)), ra, (skipn 3 (er_runs er)).
  split; [exact E|]. split; [apply nth_split_at, En|]. rewrite L'. find_in.
Qed.

(** * C58 Deferred execution is deterministic *)

(** With thread_count 0 a finished execution took |nodes|+2 ticks (1 if there are no
    nodes).  One job at a time: C04. *)
Theorem C58_deferred_ticks : forall c z ls s er,
  wf_dag (c_dag c) -> c_threads c = 0 -> run_labels c (init z) ls = Some s -> result s = RRecord er ->
  let N := List.length (node_ids (c_dag c)) in
  ticks ls = if N =? 0 then 1 else N + 2.
Proof. exact deferred_ticks. Qed.
Print Assumptions C58_deferred_ticks.

(** Two finished executions of one graph, each with thread_count 0 or 1, whatever the
    jobs answer: the tasks are finished in the same order. *)
Theorem C58_sequential_order : forall c1 z1 s1 c2 z2 s2 er1 er2,
  wf_dag (c_dag c1) -> c_dag c2 = c_dag c1 -> c_threads c1 <= 1 -> c_threads c2 <= 1 ->
  reachable c1 z1 s1 -> reachable c2 z2 s2 -> result s1 = RRecord er1 -> result s2 = RRecord er2 ->
  map r_node (er_runs er1) = map r_node (er_runs er2).
Proof. exact sequential_order. Qed.
Print Assumptions C58_sequential_order.

Example C58_case :
  wf_dag (c_dag (demo 0)) /\
  run_labels (demo 0) (init 0) (demo_run 0 all_ok) = Some (demo_end 0 all_ok) /\
  (exists er, result (demo_end 0 all_ok) = RRecord er) /\
  reachable (demo 1) 0 (demo_end 1 all_ok) /\ (exists er, result (demo_end 1 all_ok) = RRecord er).
Proof.
  split; [exact wf_demo|]. split; [apply go_run; vm_compute; reflexivity|].
  split; [eexists; vm_compute; reflexivity|]. split; [exact reach_demo_ok1|].
  eexists; vm_compute; reflexivity.
Qed.

(** Which order: the next task finished is found from the first node (in address order) that
    is not finished, by going to the first unfinished task it must run after, until there is
    none ([descends], Spec/Graph.v). *)
Theorem C58_descent_order : forall c z s er p n q,
  wf_dag (c_dag c) -> c_threads c <= 1 -> reachable c z s -> result s = RRecord er ->
  map r_node (er_runs er) = p ++ n :: q ->
  exists f, In f (node_ids (c_dag c)) /\ ~ In f p /\
    (forall x, In x (node_ids (c_dag c)) -> ~ In x p -> f <= x) /\ descends (c_dag c) p f n.
Proof. exact descent_order. Qed.
Print Assumptions C58_descent_order.

(** app is finished third, after gen and lib. *)
Example C58_case_descent : exists er p q,
  wf_dag (c_dag (demo 1)) /\ c_threads (demo 1) <= 1 /\ reachable (demo 1) 0 (demo_end 1 all_ok) /\
  result (demo_end 1 all_ok) = RRecord er /\ map r_node (er_runs er) = p ++ 3 :: q /\ p = [1; 2].
Proof.
  eexists. exists [1; 2], [4; 5; 6]. split; [exact wf_demo|]. split; [apply le_n|]. split; [exact reach_demo_ok1|].
  split; [vm_compute; reflexivity|]. split; [vm_compute; reflexivity|reflexivity].
Qed.
