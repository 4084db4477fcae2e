(** Executions with at most one thread (C13, C114). *)
From Coq Require Import String Lia.
From Verif Require Import Model.Common Model.Records Model.Jobs Model.TaskSet Model.Dag
     Model.Sched Model.Exec Model.ExecSet Model.RunLoop Spec.Graph Spec.Trace Spec.Tasks Spec.Parallel Spec.Constraints Spec.Timing Properties.Demo
     Proofs.OneThread Proofs.ConstraintFacts Proofs.ConstraintDemo Proofs.LoopFacts Properties.Anomaly.
Open Scope string_scope.
Open Scope nat_scope.
Open Scope list_scope.

(** * C13 With one thread, or with the jobs executed in tick(), the number of ticks is exactly this *)
Theorem C13_one_thread : forall c z ls s er,
  wf_dag (c_dag c) -> run_labels c (init z) ls = Some s -> result s = RRecord er -> c_threads c <= 1 ->
  let N := List.length (node_ids (c_dag c)) in
  ticks ls = (if N =? 0 then 1 else N + 2) + timeouts (trace s).
Proof. exact one_thread_ticks. Qed.
Print Assumptions C13_one_thread.

(** * C88 So run() ticks exactly that often, and with exact sleeps it takes that many periods *)
Theorem C88_one_thread : forall c period z t0 ts er s' fin,
  wf_dag (c_dag c) -> (0 <= period)%Z -> run_at c period (init z) t0 ts (RRecord er) s' fin -> c_threads c <= 1 ->
  let N := List.length (node_ids (c_dag c)) in
  let k := (if N =? 0 then 1 else N + 2) + timeouts (trace s') in
  List.length ts = k /\ (t0 + (Z.of_nat k - 1) * period <= fin)%Z /\
  (on_time period t0 t0 ts -> ticks_within period ts -> fin <= t0 + Z.of_nat k * period)%Z.
Proof. exact one_thread_run. Qed.
Print Assumptions C88_one_thread.

(** * C114 Nothing takes longer than one thread

    Two completed executions of the same graph, the second one with at most one thread: if no job is
    found running by more polls in the first one, that one has not more ticks.  The tasks may have any
    resources in either. *)
Theorem C114_one_thread_slowest : forall c z ls s er c' z' ls' s' er',
  wf_dag (c_dag c) -> c_dag c' = c_dag c -> c_threads c' <= 1 ->
  run_labels c (init z) ls = Some s -> result s = RRecord er ->
  run_labels c' (init z') ls' = Some s' -> result s' = RRecord er' ->
  (forall n, In n (node_ids (c_dag c)) -> polls (trace s) n <= polls (trace s') n) ->
  ticks ls <= ticks ls'.
Proof. exact one_thread_slowest. Qed.
Print Assumptions C114_one_thread_slowest.

(** The same of two task sets: the second execution has the selected tasks of the first one, and
    perhaps more.  Their constraints may be any in both. *)
Theorem C114_one_thread_task_sets : forall st ts filt iv addr c z ls s er st' ts' filt' iv' addr' c' z' ls' s' er',
  execution_of st ts filt iv addr c -> execution_of st' ts' filt' iv' addr' c' -> c_threads c' <= 1 ->
  (forall t, selected st ts filt t -> selected st' ts' filt' t) ->
  run_labels c (init z) ls = Some s -> result s = RRecord er ->
  run_labels c' (init z') ls' = Some s' -> result s' = RRecord er' ->
  (forall t, selected st ts filt t -> polls (trace s) (addr t) <= polls (trace s') (addr' t)) ->
  ticks ls <= ticks ls'.
Proof. exact one_thread_sets. Qed.
Print Assumptions C114_one_thread_task_sets.

(** The five jobs of Anomaly.v take 14 ticks with one thread: five tasks, seven polls and two more. *)
Example C13_one_thread_case : exists s er,
  wf_dag (c_dag (odd 1)) /\ run_labels (odd 1) (init 0) (odd_labels 1) = Some s /\ result s = RRecord er /\
  c_threads (odd 1) <= 1 /\ timeouts (trace s) = 7 /\ ticks (odd_labels 1) = 14.
Proof.
  do 2 eexists. split; [apply odd_wf|]. split; [vm_compute; reflexivity|]. split; [vm_compute; reflexivity|].
  split; [apply le_n|]. split; vm_compute; reflexivity.
Qed.
Example C114_one_thread_case : exists s er s' er',
  wf_dag (c_dag (odd 3)) /\ c_dag (odd 1) = c_dag (odd 3) /\ c_threads (odd 1) <= 1 /\
  run_labels (odd 3) (init 0) (odd_labels 3) = Some s /\ result s = RRecord er /\
  run_labels (odd 1) (init 0) (odd_labels 1) = Some s' /\ result s' = RRecord er' /\
  map (polls (trace s)) (node_ids (c_dag (odd 3))) = map (polls (trace s')) (node_ids (c_dag (odd 3))) /\
  ticks (odd_labels 3) = 10 /\ ticks (odd_labels 1) = 14.
Proof.
  do 4 eexists. split; [apply odd_wf|]. split; [reflexivity|]. split; [apply le_n|].
  split; [vm_compute; reflexivity|]. split; [vm_compute; reflexivity|].
  split; [vm_compute; reflexivity|]. split; [vm_compute; reflexivity|]. split; [vm_compute; reflexivity|].
  split; vm_compute; reflexivity.
Qed.

(** The task sets of Anomaly.v: the first one with three threads, the second one with one thread. *)
Definition solo : config := built (exec_set tight_store abc 1 "" changed (fun t => t) (fun l => l) (fun l => l)).
Definition solo_labels : list label := paced solo abc_polls 200 (init 0).
Lemma exec_solo : execution_of tight_store abc "" changed (fun t => t) solo.
Proof.
  exists 1, (fun l => l), (fun l => l).
  split; [intros l; apply Permutation.Permutation_refl|]. split; [intros l; apply Permutation.Permutation_refl|].
  split; [exact abc_ordered|]. split; [exact abc_owned|].
  split; [split; [auto|intros a _ []]|]. vm_compute. reflexivity.
Qed.
Example C114_one_thread_case_sets : exists s er s' er',
  execution_of loose_store abc "" changed away loose /\ execution_of tight_store abc "" changed (fun t => t) solo /\
  c_threads loose = 3 /\ c_threads solo = 1 /\
  (forall t, selected loose_store abc "" t -> selected tight_store abc "" t) /\
  run_labels loose (init 0) loose_labels = Some s /\ result s = RRecord er /\
  run_labels solo (init 0) solo_labels = Some s' /\ result s' = RRecord er' /\
  (forall t, selected loose_store abc "" t -> polls (trace s) (away t) <= polls (trace s') t) /\
  ticks loose_labels = 7 /\ ticks solo_labels = 8.
Proof.
  assert (A : exists s er, run_labels loose (init 0) loose_labels = Some s /\ result s = RRecord er /\
    map (fun t => polls (trace s) (away t)) [1; 2; 3] = [0; 2; 1])
    by (do 2 eexists; split; [vm_compute; reflexivity|]; split; vm_compute; reflexivity).
  assert (B : exists s er, run_labels solo (init 0) solo_labels = Some s /\ result s = RRecord er /\
    map (fun t => polls (trace s) t) [1; 2; 3] = [0; 2; 1])
    by (do 2 eexists; split; [vm_compute; reflexivity|]; split; vm_compute; reflexivity).
  destruct A as (s & er & A1 & A2 & A3). destruct B as (s' & er' & B1 & B2 & B3). exists s, er, s', er'.
  split; [exact exec_loose|]. split; [exact exec_solo|]. split; [vm_compute; reflexivity|]. split; [vm_compute; reflexivity|].
  split; [intros t; apply fewer_selected, loose_fewer|].
  split; [exact A1|]. split; [exact A2|]. split; [exact B1|]. split; [exact B2|].
  split; [|split; vm_compute; reflexivity].
  intros t St. apply loose_selected in St. cbn [map] in A3, B3. injection A3 as P1 P2 P3. injection B3 as Q1 Q2 Q3.
  assert (G : t = 1 \/ t = 2 \/ t = 3) by lia. destruct G as [->|[->| ->]]; lia.
Qed.

(** run() with period 5 and ticks that take one unit: 14 ticks. *)
Definition odd_times : list (Z * Z) := map (fun i => (5 * Z.of_nat i, 5 * Z.of_nat i + 1)%Z) (seq 0 14).
Example C88_one_thread_case : exists er s,
  wf_dag (c_dag (odd 1)) /\ run_at (odd 1) 5 (init 0) 0 odd_times (RRecord er) s 66 /\ c_threads (odd 1) <= 1 /\
  on_time 5 0 0 odd_times /\ ticks_within 5 odd_times /\ List.length odd_times = 14.
Proof.
  assert (G : match play (odd 1) 5 (fun _ => 1%Z) (init 0) 0 0 (tl (tick_chunks (odd_labels 1))) with
              | Some (x, s, f) => x = odd_times /\ f = 66%Z /\ match result s with RRecord _ => True | _ => False end
              | None => False
              end) by (vm_compute; repeat split).
  destruct (play (odd 1) 5 (fun _ => 1%Z) (init 0) 0 0 (tl (tick_chunks (odd_labels 1)))) as [[[x s] f]|] eqn:E; [|destruct G].
  destruct G as (-> & -> & H). destruct (play_ok _ _ _ _ _ _ _ _ _ _ E) as [A B].
  destruct (result s) as [|er|] eqn:Er; try destruct H. exists er, s. split; [apply odd_wf|]. split; [exact A|].
  split; [apply le_n|]. split; [exact B|]. split; [|reflexivity].
  intros b e H. cbn in H. repeat (destruct H as [H|H]; [injection H as <- <-; discriminate|]). destruct H.
Qed.
