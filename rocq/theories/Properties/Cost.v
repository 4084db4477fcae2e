(** How much work the searches are: C76. *)
From Coq Require Import String Permutation.
From Verif Require Import Model.Common Model.Records Model.TaskSet Model.Dag Model.Sched Model.Exec Model.Cost
     Spec.Graph Spec.Tasks Properties.Demo Proofs.DemoFacts Proofs.SchedFacts Proofs.CostFacts Proofs.DepthFacts.
Open Scope nat_scope.
Open Scope list_scope.

(** * C76 The searches are linear *)

(** The check for cycles calls itself at most once per node and once per run-after edge, and
    the calls nest no deeper than there are nodes, plus one.  ([has_cycle_c] is [has_cycle]
    with counters and gives the same answer.) *)
Theorem C76_cycle_check : forall c nodes, wf_dag (c_dag c) -> incl nodes (node_ids (c_dag c)) ->
  exists found cycles calls depth,
    has_cycle (fuel_of c) (c_dag c) nodes = Some (found, cycles) /\
    has_cycle_c (fuel_of c) (c_dag c) nodes = Some (found, cycles, calls, depth) /\
    calls <= List.length nodes + edges_of (c_dag c) AFTER /\
    depth <= 1 + List.length (node_ids (c_dag c)).
Proof. exact cycle_check_cost. Qed.
Print Assumptions C76_cycle_check.

(** So does the search for a task to start, whatever the states of the nodes and the
    resources in use are, that is, in each tick. *)
Theorem C76_search : forall c st used nodes, wf_dag (c_dag c) -> incl nodes (node_ids (c_dag c)) ->
  exists found calls depth,
    find_candidate (fuel_of c) (c_dag c) st (node_res c) used nodes [] = Some found /\
    find_candidate_c (fuel_of c) (c_dag c) st (node_res c) used nodes [] = Some (found, calls, depth) /\
    calls <= List.length nodes + edges_of (c_dag c) AFTER /\
    depth <= 1 + List.length (node_ids (c_dag c)).
Proof. exact search_cost. Qed.
Print Assumptions C76_search.

(** Propagating the invalidation takes up each node at most once and looks at each
    invalidated-by edge at most once. *)
Theorem C76_propagation : forall c nodes ns prop ev, wf_dag (c_dag c) ->
  NoDup nodes -> (forall x, In x nodes <-> In x (node_ids (c_dag c))) ->
  inval_pass (node_has_job c) (c_inval c) nodes (fun _ => nstate0) [] [] = PassOk ns prop ev ->
  exists ns' ev' taken edges,
    prop_loop (fuel_of c) (c_dag c) ns prop prop ev = PropOk ns' ev' /\
    prop_loop_c (fuel_of c) (c_dag c) ns prop prop ev 0 0 = (PropOk ns' ev', taken, edges) /\
    taken <= List.length (node_ids (c_dag c)) /\ edges <= edges_of (c_dag c) INVALIDATED_BY.
Proof. exact propagation_cost. Qed.
Print Assumptions C76_propagation.

(** Making the graph of a task set visits each task of the set once and each dependency of
    the tasks in the graph (one requires edge each) once; the calls nest no deeper than there
    are nodes, plus one. *)
Theorem C76_insert_set : forall g0 st ts filt addr ord1 ord2 g n,
  (forall l, Permutation (ord1 l) l) ->
  insert_set g0 st ts filt addr ord1 ord2 = Built (g, n) ->
  exists b calls depth,
    dfs_all (S (List.length (st_dom st))) st (for_each_task ts) addr filt (ord1 (for_each_task ts)) (BState g0 [] 0) = Built b /\
    dfs_all_c (S (List.length (st_dom st))) st (for_each_task ts) addr filt (ord1 (for_each_task ts)) (BState g0 [] 0)
      = Built (b, calls, depth) /\
    d_nodes (b_dag b) = d_nodes g /\
    calls + edges_of g0 REQUIRES <= List.length (for_each_task ts) + edges_of g REQUIRES /\
    depth <= 1 + List.length (node_ids g).
Proof. exact insert_set_cost. Qed.
Print Assumptions C76_insert_set.

(** How deep the calls nest is exactly the number of nodes of some path of the graph, so a
    graph without a long path needs no deep stack however many nodes it has: a path along
    run-after edges for the two searches... *)
Theorem C76_cycle_depth : forall c nodes found cycles calls depth,
  has_cycle_c (fuel_of c) (c_dag c) nodes = Some (found, cycles, calls, depth) -> nodes <> [] ->
  exists x r, In x nodes /\ chain (runs_after (c_dag c)) x r /\ depth = S (List.length r).
Proof. exact cycle_depth. Qed.
Print Assumptions C76_cycle_depth.

Theorem C76_search_depth : forall c st used nodes found calls depth,
  find_candidate_c (fuel_of c) (c_dag c) st (node_res c) used nodes [] = Some (found, calls, depth) -> nodes <> [] ->
  exists x r, In x nodes /\ chain (runs_after (c_dag c)) x r /\ depth = S (List.length r).
Proof. exact search_depth. Qed.
Print Assumptions C76_search_depth.

(** ...and one along the dependencies of a task that passes the filter for making the graph. *)
Theorem C76_insert_depth : forall fuel st tmp addr filt tmp' b b' calls depth,
  dfs_all_c fuel st tmp addr filt tmp' b = Built (b', calls, depth) -> depth <> 0 ->
  exists name t r, In (name, t) tmp' /\ contains filt name = true /\
    chain (fun a b => In b (t_depends_on (st_get st a))) t r /\ depth = S (List.length r).
Proof. exact insert_depth. Qed.
Print Assumptions C76_insert_depth.

(** A row of tasks, each running after the next one only, whose head is looked at first is
    descended to its end: the stack needed grows with the row, without a bound in the code. *)
Theorem C76_cycle_deep : forall c x r nodes found cycles calls depth,
  only_chain (c_dag c) x r -> NoDup (x :: r) ->
  has_cycle_c (fuel_of c) (c_dag c) (x :: nodes) = Some (found, cycles, calls, depth) -> S (List.length r) <= depth.
Proof. exact cycle_depth_reached. Qed.
Print Assumptions C76_cycle_deep.

Theorem C76_search_deep : forall c st used x r nodes found calls depth,
  only_chain (c_dag c) x r -> NoDup (x :: r) ->
  (forall m, In m (x :: r) -> ns_started (st m) = false /\ ns_done (st m) = false) ->
  find_candidate_c (fuel_of c) (c_dag c) st (node_res c) used (x :: nodes) [] = Some (found, calls, depth) ->
  S (List.length r) <= depth.
Proof. exact search_depth_reached. Qed.
Print Assumptions C76_search_deep.

Example C76_case :
  wf_dag (c_dag (demo 2)) /\ incl (node_ids demo_dag) (node_ids demo_dag) /\ edges_of demo_dag AFTER = 4 /\
  has_cycle_c (fuel_of (demo 2)) demo_dag (node_ids demo_dag) = Some (false, [], 10, 4) /\
  find_candidate_c (fuel_of (demo 2)) demo_dag (s_ns demo_busy) (node_res (demo 2)) (s_used demo_busy) (s_todo demo_busy) []
    = Some (None, 8, 2).
Proof. split; [exact wf_demo|]. split; [intros x H; exact H|]. repeat split; vm_compute; reflexivity. Qed.

Example C76_case_propagation : exists ns prop ev r,
  inval_pass (node_has_job (demo 2)) (c_inval (demo 2)) (node_ids demo_dag) (fun _ => nstate0) [] [] = PassOk ns prop ev /\
  prop_loop_c (fuel_of (demo 2)) demo_dag ns prop prop ev 0 0 = (r, 5, 3) /\ edges_of demo_dag INVALIDATED_BY = 3.
Proof. do 4 eexists. split; [vm_compute; reflexivity|]. split; vm_compute; reflexivity. Qed.

Example C76_case_set : exists g n b,
  insert_set dag0 demo_store demo_set "" (fun t => t) (fun l => l) (fun l => l) = Built (g, n) /\
  dfs_all_c (S (List.length (st_dom demo_store))) demo_store (for_each_task demo_set) (fun t => t) "" (for_each_task demo_set)
    (BState dag0 [] 0) = Built (b, 9, 3) /\ edges_of g REQUIRES = 3.
Proof. do 3 eexists. split; [vm_compute; reflexivity|]. split; vm_compute; reflexivity. Qed.

(** Task 5 runs after 3 only, that one after 2 and that one after 1; 5 is looked at first. *)
Example C76_case_deep : exists nodes, node_ids demo_dag = 5 :: nodes /\
  only_chain demo_dag 5 [3; 2; 1] /\ NoDup [5; 3; 2; 1] /\
  (forall m, In m [5; 3; 2; 1] -> ns_started ((fun _ : nid => nstate0) m) = false /\ ns_done ((fun _ : nid => nstate0) m) = false) /\
  find_candidate_c (fuel_of (demo 2)) demo_dag (fun _ => nstate0) (node_res (demo 2)) [] (5 :: nodes) [] = Some (Some 1, 4, 4).
Proof.
  exists [6; 4; 1; 2; 3]. split; [vm_compute; reflexivity|]. split; [|split; [|split]].
  - assert (A : forall x y, after_targets demo_dag x = [y] -> forall m, runs_after demo_dag x m <-> m = y).
    { intros x y H m. rewrite <- after_targets_In, H. split; [intros [<-|[]]; reflexivity|intros ->; left; reflexivity]. }
    cbn [only_chain]. split; [apply A; vm_compute; reflexivity|].
    split; [apply A; vm_compute; reflexivity|]. split; [apply A; vm_compute; reflexivity|exact I].
  - repeat constructor; cbn; intuition discriminate.
  - intros m _. split; reflexivity.
  - vm_compute. reflexivity.
Qed.
