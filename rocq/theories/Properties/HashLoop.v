(** C54 for insert_set with the map that grows while the loop runs over it. *)
From Coq Require Import String Permutation.
From Verif Require Import Model.Common Model.Records Model.Jobs Model.TaskSet Model.Dag Model.Sched Model.Exec
     Model.ExecSet Model.HashLoop Spec.Graph Spec.Tasks Spec.HashMap
     Properties.Demo Proofs.TaskFacts Proofs.BuildProps Proofs.HashLoopFacts.
Open Scope string_scope.
Open Scope nat_scope.
Open Scope list_scope.

(** * C54 Dependencies outside the task set *)

(** [cap] elements fit the map without a rehash.  The graph is built, whatever the map does
    with the new elements, if and only if no reference to a destroyed task is followed and
    the tasks of the set fit together with the selected tasks outside the set. *)
Theorem C54_exact : forall cap place g0 st ts filt addr ord1 ord2,
  placed place -> some_order ord1 -> some_order ord2 -> ordered ts -> owned ts ->
  List.length (for_each_task ts) <= cap ->
  ((exists g, insert_set_h cap place g0 st ts filt addr ord1 ord2 = Built g) <->
   live st (selected st ts filt) /\
   forall l, NoDup l -> (forall t, In t l -> selected st ts filt t /\ ~ exists p, holds ts p t) ->
     List.length (for_each_task ts) + List.length l <= cap) /\
  insert_set_h cap place g0 st ts filt addr ord1 ord2 <> BuildFuel.
Proof. exact growing_defined. Qed.
Print Assumptions C54_exact.

(** It is then the graph of the loop over the keys the map had before the loop, and so the
    other theorems about executions of task sets hold of it. *)
Theorem C54_same_graph : forall cap place g0 st ts filt addr ord1 ord2,
  placed place -> some_order ord1 -> some_order ord2 -> ordered ts -> owned ts ->
  List.length (for_each_task ts) <= cap ->
  insert_set_h cap place g0 st ts filt addr ord1 ord2 =
  match insert_set g0 st ts filt addr ord1 ord2 with
  | Built (g, n) => if List.length (for_each_task ts) + n <=? cap then Built g else BuildUB
  | BuildUB => BuildUB
  | BuildFuel => BuildFuel
  end.
Proof. exact growing_loop. Qed.
Print Assumptions C54_same_graph.
Theorem C54_same_execution : forall cap place st ts threads filt iv addr ord1 ord2 c,
  placed place -> some_order ord1 -> some_order ord2 -> ordered ts -> owned ts ->
  List.length (for_each_task ts) <= cap ->
  exec_set_h cap place st ts threads filt iv addr ord1 ord2 = Built c ->
  exec_set st ts threads filt iv addr ord1 ord2 = Built c.
Proof. exact growing_same. Qed.
Print Assumptions C54_same_execution.

(** An execution is set up under the same condition; otherwise its set-up is undefined
    behaviour. *)
Theorem C54_exact_execution : forall cap place st ts threads filt iv addr ord1 ord2,
  placed place -> some_order ord1 -> some_order ord2 -> ordered ts -> owned ts ->
  List.length (for_each_task ts) <= cap ->
  ((exists c, exec_set_h cap place st ts threads filt iv addr ord1 ord2 = Built c) <->
   live st (selected st ts filt) /\
   forall l, NoDup l -> (forall t, In t l -> selected st ts filt t /\ ~ exists p, holds ts p t) ->
     List.length (for_each_task ts) + List.length l <= cap) /\
  (~ (exists c, exec_set_h cap place st ts threads filt iv addr ord1 ord2 = Built c) <->
   exec_set_h cap place st ts threads filt iv addr ord1 ord2 = BuildUB).
Proof. exact growing_exec. Qed.
Print Assumptions C54_exact_execution.

(** Whatever the capacity: there is a set that fits, all of whose tasks and their
    dependencies are alive, and building its graph is undefined behaviour. *)
Theorem C54_rehash_refuted : forall cap, 1 <= cap ->
  exists st ts, ordered ts /\ owned ts /\ live st (selected st ts "") /\
    List.length (for_each_task ts) <= cap /\
    forall place, placed place ->
      insert_set_h cap place dag0 st ts "" (fun t => t) (fun l => l) (fun l => l) = BuildUB.
Proof. exact growing_rehash. Qed.
Print Assumptions C54_rehash_refuted.

(** A set that holds the dependencies of its tasks is always fine. *)
Theorem C54_closed_defined_partial : forall cap place g0 st ts filt addr ord1 ord2,
  placed place -> some_order ord1 -> some_order ord2 -> ordered ts -> owned ts ->
  List.length (for_each_task ts) <= cap ->
  (forall a b, (exists p, holds ts p a) -> depends_on st a b -> exists p, holds ts p b) ->
  live st (selected st ts filt) ->
  exists g, insert_set_h cap place g0 st ts filt addr ord1 ord2 = Built g.
Proof. exact growing_closed. Qed.
Print Assumptions C54_closed_defined_partial.

(** A set of two tasks; one depends on two tasks outside it.  The map puts the first new key
    ahead of the iterator and meets it in the loop, or puts all of them behind it: the graph
    has four nodes either way.  With room for three elements the loop goes wrong. *)
Definition out_tasks (t : tid) : task := Task true (if t =? 1 then [3; 4] else []) [] [] [] false.
Definition out_store : store := Store [1; 2; 3; 4] out_tasks.
Definition out_set : task_set := TaskSet [("a", 1); ("b", 2)] [].
Definition ahead (l : list (string * tid)) (x : string * tid) : list (string * tid) := x :: l.
Definition nowhere (l : list (string * tid)) (x : string * tid) : list (string * tid) := l.
Example C54_case_growing :
  placed ahead /\ placed nowhere /\ ordered out_set /\ owned out_set /\
  (exists g, insert_set_h 4 ahead dag0 out_store out_set "" (fun t => t) (fun l => l) (fun l => l) = Built g /\
             insert_set_h 4 nowhere dag0 out_store out_set "" (fun t => t) (fun l => l) (fun l => l) = Built g /\
             node_ids g = [2; 4; 3; 1] /\ map n_name (d_nodes g) = ["//b"; ""; ""; "//a"]) /\
  insert_set_h 3 ahead dag0 out_store out_set "" (fun t => t) (fun l => l) (fun l => l) = BuildUB /\
  (exists g, insert_set_h 3 ahead dag0 out_store out_set "b" (fun t => t) (fun l => l) (fun l => l) = Built g).
Proof.
  split; [intros l x; right; exists [], l; split; reflexivity|].
  split; [intros l x; left; reflexivity|].
  split; [constructor; repeat constructor; intros name s []|].
  split; [apply owned_visited; vm_compute; repeat constructor; cbn; intuition discriminate|].
  split; [eexists; split; [vm_compute; reflexivity|split; [vm_compute; reflexivity|split; vm_compute; reflexivity]]|].
  split; [vm_compute; reflexivity|]. eexists. vm_compute. reflexivity.
Qed.
