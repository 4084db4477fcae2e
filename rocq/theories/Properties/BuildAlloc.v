(** Running out of memory while a graph is built: C108. *)
From Coq Require Import String Lia Relations Permutation.
From Verif Require Import Model.Common Model.Records Model.Jobs Model.TaskSet Model.Dag Model.Sched Model.Exec
     Model.Heap Model.BuildAlloc Spec.Lists Spec.Graph Spec.Trace Spec.Tasks Spec.JobUse
     Properties.Demo Properties.TaskSets Proofs.DemoFacts Proofs.BuildAllocFacts.
Open Scope string_scope.
Open Scope nat_scope.
Open Scope list_scope.

(** * C108 Running out of memory while a graph is built *)

(** [d]: the graph insert_set(dag&) makes of the graph [g0] if memory lasts.  With memory for
    [k] nodes and edges it either makes that graph, using one of the [k] for each node and
    edge made, or throws std::bad_alloc.  Then the graph of the client is left well formed,
    with everything it held before, with [k] of the nodes and edges, and nothing that does
    not belong to [d]. *)
Theorem C108_left : forall g0 st ts filt addr ord1 ord2 d n, some_order ord1 -> some_order ord2 ->
  wf_dag g0 -> fresh_nodes g0 addr (selected st ts filt) ->
  insert_set g0 st ts filt addr ord1 ord2 = Built (d, n) ->
  let made := (List.length (d_nodes d) - List.length (d_nodes g0)) + (List.length (d_edges d) - List.length (d_edges g0)) in
  forall k,
  (made <= k -> m_insert_set k g0 st ts filt addr ord1 ord2 = Going (k - made) (d, n)) /\
  (k < made -> exists g ns es ns' es',
     m_insert_set k g0 st ts filt addr ord1 ord2 = OutOfMemory g /\ wf_dag g /\
     d_nodes g = ns ++ d_nodes g0 /\ d_edges g = es ++ d_edges g0 /\ List.length ns + List.length es = k /\
     d_nodes d = ns' ++ d_nodes g /\ d_edges d = es' ++ d_edges g).
Proof. exact memory_runs_out. Qed.
Print Assumptions C108_left.

(** exec(task_set) builds a graph of its own.  Its nodes and edges exist in memory when
    std::bad_alloc is thrown, and the destructor of the graph frees them all. *)
Theorem C108_freed : forall st ts filt addr ord1 ord2 d n k left g ea, some_order ord1 -> some_order ord2 ->
  fresh_nodes dag0 addr (selected st ts filt) -> (forall i j, ea i = ea j -> i = j) ->
  insert_set dag0 st ts filt addr ord1 ord2 = Built (d, n) ->
  m_insert_set k dag0 st ts filt addr ord1 ord2 = OutOfMemory left ->
  exists cs, fold_left apply_call cs dag0 = left /\ List.length cs = k /\
    forall fuel, k + 2 <= fuel ->
    exists m m', run_gops fuel gmem0 (GNew g :: in_memory g ea 0 cs) = Ok m /\ holds_graph fuel m g left /\
                 g_destroy fuel m g = Ok m' /\ all_freed m'.
Proof. exact nothing_leaks. Qed.
Print Assumptions C108_freed.

(** The graph left is not one to execute: edges may be missing between nodes that are
    there.  Here a task begins although the task it depends on has not. *)
Definition left2 : dag :=
  match m_insert_set 2 dag0 demo_store demo_set "lib" (fun t => t) (fun l => l) (fun l => l) with
  | OutOfMemory g => g
  | _ => dag0
  end.
Definition run2 : config := exec_graph demo_store left2 2 (fun _ => IvRet true "").
Definition early : state := go run2 [LTick; LCtl; LTick; LCtl; LCtl; LCtl; LTick; LCtl; LCtl; LBegin 2].
Theorem C108_not_to_be_executed : exists st ts filt addr k g threads iv s,
  m_insert_set k dag0 st ts filt addr (fun l => l) (fun l => l) = OutOfMemory g /\
  reachable (exec_graph st g threads iv) 0 s /\
  exists a b, selected st ts filt a /\ depends_on st a b /\
    In (addr a) (node_ids g) /\ In (addr b) (node_ids g) /\
    In (EBegin (addr a)) (trace s) /\ ~ In (EBegin (addr b)) (trace s).
Proof.
  exists demo_store, demo_set, "lib", (fun t => t), 2, left2, 2, (fun _ => IvRet true ""), early.
  split; [vm_compute; reflexivity|]. split; [apply go_reachable; vm_compute; reflexivity|].
  exists 2, 1. split.
  { exists ["src"; "lib"], 2. split; [eapply holds_below; [left; reflexivity|constructor; left; reflexivity]|].
    split; [exists "//src/", ""; reflexivity|apply rt_refl]. }
  split; [left; reflexivity|]. split; [find_in|]. split; [find_in|]. split; [find_in|].
  vm_compute. intros H. repeat destruct H as [H|H]; try discriminate H; exact H.
Qed.
Print Assumptions C108_not_to_be_executed.

(** The six tasks of Demo.v and a graph that holds three nodes. *)
Definition three : dag := Dag [DNode 101 "x" 1; DNode 102 "y" 2; DNode 103 "z" 1] [Edge 101 102 AFTER].
Example C108_case :
  some_order (fun l : list (string * tid) => l) /\ some_order (fun l : list tid => l) /\
  wf_dag three /\ fresh_nodes three (fun t => t) (selected demo_store demo_set "") /\
  (exists d n, insert_set three demo_store demo_set "" (fun t => t) (fun l => l) (fun l => l) = Built (d, n) /\
     List.length (d_nodes d) = 9 /\ List.length (d_edges d) = 11) /\
  (exists g, m_insert_set 7 three demo_store demo_set "" (fun t => t) (fun l => l) (fun l => l) = OutOfMemory g /\
     node_ids g = [1; 2; 3; 101; 102; 103] /\
     d_edges g = [Edge 3 2 AFTER; Edge 2 1 INVALIDATED_BY; Edge 2 1 REQUIRES; Edge 2 1 AFTER; Edge 101 102 AFTER]) /\
  (exists d n, m_insert_set 20 three demo_store demo_set "" (fun t => t) (fun l => l) (fun l => l) = Going 4 (d, n)).
Proof.
  split; [intros l; apply Permutation_refl|]. split; [intros l; apply Permutation_refl|].
  split; [apply wf_dagb_wf; vm_compute; reflexivity|]. split.
  { split; [intros x y _ _ H; exact H|]. intros t Ht. apply selected_only in Ht. cbn in Ht |- *.
    repeat destruct Ht as [<-|Ht]; try destruct Ht; lia. }
  split; [eexists; eexists; split; [vm_compute; reflexivity|split; vm_compute; reflexivity]|].
  split; [eexists; split; [vm_compute; reflexivity|split; vm_compute; reflexivity]|].
  eexists; eexists; vm_compute; reflexivity.
Qed.
