(** Threads that nothing waits for make no difference (C107). *)
From Coq Require Import String Relations.
From Verif Require Import Model.Common Model.Records Model.Jobs Model.TaskSet Model.Dag
     Model.Sched Model.Exec Spec.Graph Spec.Trace Spec.Machine Spec.Constraints Spec.Spare
     Properties.Demo Proofs.DemoFacts Proofs.RedundantDemo Proofs.SpareFacts Proofs.SpareDemo.
Open Scope string_scope.
Open Scope nat_scope.
Open Scope list_scope.

(** * C107 Spare threads make no difference *)

(** An execution in which, whenever a task could begin, fewer tasks are under way than
    there are threads, now or with another number [k] of threads, goes exactly the same
    with [k] threads. *)
Theorem C107_same_execution : forall c k z ls s,
  wf_dag (c_dag c) -> 0 < c_threads c -> 0 < k ->
  run_labels c (init z) ls = Some s -> enough_for c (trace s) (Nat.min (c_threads c) k) ->
  run_labels (with_threads c k) (init z) ls = Some s.
Proof. exact same_execution. Qed.
Print Assumptions C107_same_execution.

(** If no more tasks are apart from each other than there are threads, more threads change
    nothing: the same can happen, with the same results. *)
Theorem C107_spare_threads : forall c k z ls,
  wf_dag (c_dag c) -> 0 < c_threads c -> 0 < k ->
  width_at_most c (c_threads c) -> width_at_most c k ->
  run_labels (with_threads c k) (init z) ls = run_labels c (init z) ls.
Proof. exact spare_threads. Qed.
Print Assumptions C107_spare_threads.

(** How to bound that number: the number of tasks; or a number of groups such that of two
    tasks of a group one runs after the other or they share a resource. *)
Theorem C107_all_tasks : forall c k,
  List.length (node_ids (c_dag c)) <= k -> width_at_most c k.
Proof. exact width_all. Qed.
Print Assumptions C107_all_tasks.
Theorem C107_groups : forall c k (group : nid -> nat),
  (forall n, In n (node_ids (c_dag c)) -> group n < k) ->
  (forall a b, In a (node_ids (c_dag c)) -> In b (node_ids (c_dag c)) -> a <> b ->
     group a = group b -> ~ apart c a b) ->
  width_at_most c k.
Proof. exact width_groups. Qed.
Print Assumptions C107_groups.

(** One thread fewer than tasks that are apart does make a difference. *)
Theorem C107_needs_width : exists c ls s,
  wf_dag (c_dag c) /\ c_threads c = 2 /\ width_at_most c 2 /\
  run_labels c (init 0) ls = Some s /\ running (trace s) <> [] /\
  run_labels (with_threads c 1) (init 0) ls = None.
Proof.
  exists (fork 2), both_labels, (go (fork 2) both_labels). split; [apply fork_wf|]. split; [reflexivity|].
  split; [apply fork_width|]. split; [vm_compute; reflexivity|]. split; [vm_compute; discriminate|vm_compute; reflexivity].
Qed.
Print Assumptions C107_needs_width.

(** Five tasks, all of them apart, of which one has something to do: two threads are as good
    as nine.  *)
Example C107_case :
  wf_dag (c_dag (five 2)) /\ 0 < c_threads (five 2) /\
  run_labels (five 2) (init 0) five_run = Some five_end /\
  enough_for (five 2) (trace five_end) (Nat.min (c_threads (five 2)) 9) /\
  List.length (records (trace five_end)) = 5 /\ ~ width_at_most (five 2) 4.
Proof.
  split; [exact five_wf|]. split; [repeat constructor|]. split; [vm_compute; reflexivity|].
  split; [apply enough_by; vm_compute; reflexivity|]. split; [vm_compute; reflexivity|exact five_width].
Qed.
(** 1 runs after 3 and 4, 3 after 2: two threads are as good as nine. *)
Example C107_case_width :
  wf_dag (c_dag (fork 2)) /\ 0 < c_threads (fork 2) /\ width_at_most (fork 2) (c_threads (fork 2)) /\
  width_at_most (fork 2) 9 /\ List.length (node_ids (c_dag (fork 2))) = 4 /\
  (exists s, run_labels (fork 2) (init 0) both_labels = Some s /\ running (trace s) = [2; 4]) /\
  forall ls, run_labels (with_threads (fork 2) 9) (init 0) ls = run_labels (fork 2) (init 0) ls.
Proof.
  assert (W9 : width_at_most (fork 2) 9).
  { apply width_all. vm_compute. repeat constructor. }
  split; [apply fork_wf|]. split; [repeat constructor|]. split; [apply fork_width|]. split; [exact W9|].
  split; [vm_compute; reflexivity|].
  split; [exists (go (fork 2) both_labels); split; vm_compute; reflexivity|].
  intros ls. apply spare_threads; [apply fork_wf|repeat constructor|repeat constructor|apply fork_width|exact W9].
Qed.
(** Three tasks that share a resource: one group, so one thread does. *)
Example C107_case_groups :
  (forall n, In n (node_ids (c_dag shared)) -> (fun _ => 0) n < 1) /\
  (forall a b, In a (node_ids (c_dag shared)) -> In b (node_ids (c_dag shared)) -> a <> b ->
     (fun _ : nid => 0) a = (fun _ => 0) b -> ~ apart shared a b) /\
  List.length (node_ids (c_dag shared)) = 3.
Proof.
  split; [intros; repeat constructor|]. split; [|vm_compute; reflexivity].
  intros a b _ _ _ _ (_ & _ & H). exact (H 7 (or_introl eq_refl) (or_introl eq_refl)).
Qed.
