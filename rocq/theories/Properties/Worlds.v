(** Programs with several executions: C80. *)
From Coq Require Import String.
From Verif Require Import Model.Common Model.Records Model.Jobs Model.TaskSet Model.Dag
     Model.Sched Model.Exec Model.World Spec.Graph Spec.Trace Spec.World
     Properties.Demo Proofs.DemoFacts Proofs.WorldFacts Proofs.WorldDemo.
Open Scope string_scope.
Open Scope nat_scope.
Open Scope list_scope.

(** * C80 Several executions in one program *)

(** Each execution does what it would do alone, so the theorems about executions hold for it;
    and all ways to interleave them are possible. *)
Theorem C80_independent : forall cs z ls,
  (forall w i, run_world cs (world_init z) ls = Some w ->
     run_labels (cs i) (init z) (labels_of i ls) = Some (w i) /\ reachable (cs i) z (w i)) /\
  ((forall i, exists s, run_labels (cs i) (init z) (labels_of i ls) = Some s) ->
   exists w, run_world cs (world_init z) ls = Some w).
Proof.
  intros cs z ls. split; [intros w i; exact (world_alone cs z ls w i)|exact (world_any cs z ls)].
Qed.
Print Assumptions C80_independent.

(** If no execution is ticked while another is in progress, then of all tasks that reference
    one resource, whatever execution they belong to, one is executed at a time. *)
Theorem C80_resource_partial : forall cs z ls w i j a b r,
  (forall i, wf_dag (c_dag (cs i))) -> one_at_a_time cs z ls -> run_world cs (world_init z) ls = Some w ->
  In a (running (trace (w i))) -> In b (running (trace (w j))) ->
  In r (node_res (cs i) a) -> In r (node_res (cs j) b) -> i = j /\ a = b.
Proof. intros cs z ls w i j a b r Hwf. exact (one_resource cs Hwf z ls w i j a b r). Qed.
Print Assumptions C80_resource_partial.

(** Then, in general, while a job of one execution is running nothing happens in another, but
    for the end of a destructor: no job is asked or run and no visitor called. *)
Theorem C80_alone_partial : forall cs z ls w i l w' new e j,
  (forall i, wf_dag (c_dag (cs i))) ->
  one_at_a_time cs z (ls ++ [(i, l)]) -> run_world cs (world_init z) ls = Some w ->
  world_step cs w (i, l) = Some w' ->
  trace (w' i) = trace (w i) ++ new -> In e new -> e <> EDestroyed -> j <> i ->
  running (trace (w j)) = [].
Proof. intros cs z ls w i l w' new e j Hwf. exact (one_active cs Hwf z ls w i l w' new e j). Qed.
Print Assumptions C80_alone_partial.

(** Executions with thread_count 0 can be ticked in turn by one thread. *)
Theorem C80_no_threads_partial : forall cs z ls w i j a b,
  (forall i, wf_dag (c_dag (cs i))) -> (forall i, c_threads (cs i) = 0) ->
  one_client cs z ls -> run_world cs (world_init z) ls = Some w ->
  In a (running (trace (w i))) -> In b (running (trace (w j))) -> i = j /\ a = b.
Proof. intros cs z ls w i j a b Hwf. exact (no_threads_one_running cs Hwf z ls w i j a b). Qed.
Print Assumptions C80_no_threads_partial.

(** The execution after one that has finished, one of whose jobs is being executed. *)
Definition second (k : nat) (ls : list label) : list (nat * label) :=
  map (pair 0) (demo_run k all_ok) ++ map (pair 1) ls.
Definition world_go (cs : nat -> config) (ls : list (nat * label)) : world :=
  match run_world cs (world_init 0) ls with Some w => w | None => world_init 0 end.
Lemma world_go_run cs ls :
  match run_world cs (world_init 0) ls with Some _ => true | None => false end = true ->
  run_world cs (world_init 0) ls = Some (world_go cs ls).
Proof. unfold world_go. destruct (run_world cs (world_init 0) ls); [reflexivity|discriminate]. Qed.

Example C80_case :
  let cs := fun _ : nat => demo 2 in
  let ls := second 2 [LTick; LCtl; LTick; LCtl; LBegin 1] in let w := world_go cs ls in
  (forall i, wf_dag (c_dag (cs i))) /\ one_at_a_time cs 0 ls /\ run_world cs (world_init 0) ls = Some w /\
  done (w 0) = true /\ running (trace (w 1)) = [1] /\
  (exists w', world_step cs w (1, LEnd 1 ok) = Some w' /\ trace (w' 1) = trace (w 1) ++ [EEnd 1 ok]).
Proof.
  intros cs ls w. split; [intros i; exact wf_demo|].
  split; [apply (one_at_a_time_b cs 2); vm_compute; reflexivity|].
  split; [apply world_go_run; vm_compute; reflexivity|].
  split; [vm_compute; reflexivity|]. split; [vm_compute; reflexivity|].
  eexists. split; [unfold world_step; cbn [fst snd]; vm_compute; reflexivity|vm_compute; reflexivity].
Qed.

(** Two executions without threads in turn: the second executes a job while the first is
    waiting for its next tick. *)
Example C80_case_no_threads :
  let cs := fun _ : nat => demo 0 in
  let ls := [(0, LTick); (0, LCtl); (1, LTick); (1, LCtl); (0, LTick); (0, LCtl); (0, LCtl); (0, LEnd 1 ok);
             (0, LCtl); (0, LCtl); (1, LTick); (1, LCtl); (1, LCtl)] in
  let w := world_go cs ls in
  (forall i, wf_dag (c_dag (cs i))) /\ one_client cs 0 ls /\ run_world cs (world_init 0) ls = Some w /\
  s_pc (w 0) = Suspended PMain /\ running (trace (w 1)) = [1].
Proof.
  intros cs ls w. split; [intros i; exact wf_demo|].
  split; [apply (one_client_b cs 2); vm_compute; reflexivity|].
  split; [apply world_go_run; vm_compute; reflexivity|]. split; vm_compute; reflexivity.
Qed.

(** With two executions of a set in progress it is false: tasks lib and app, which reference
    the same resource, are executed at the same time, and so is lib twice. *)
Definition upto (i k : nat) : list (nat * label) := map (pair i) (drive (demo 1) all_ok k (init 0)).
Theorem C80_refuted : exists c ls ls' w w',
  wf_dag (c_dag c) /\
  run_world (fun _ => c) (world_init 0) ls = Some w /\
  run_world (fun _ => c) (world_init 0) ls' = Some w' /\
  (exists i j a b r, i <> j /\ a <> b /\ In a (running (trace (w i))) /\ In b (running (trace (w j))) /\
     In r (node_res c a) /\ In r (node_res c b)) /\
  (exists i j a, i <> j /\ In a (running (trace (w' i))) /\ In a (running (trace (w' j)))).
Proof.
  exists (demo 1), (upto 0 11 ++ upto 1 17), (upto 0 11 ++ upto 1 11).
  exists (world_go (fun _ => demo 1) (upto 0 11 ++ upto 1 17)), (world_go (fun _ => demo 1) (upto 0 11 ++ upto 1 11)).
  split; [exact wf_demo|].
  split; [apply world_go_run; vm_compute; reflexivity|].
  split; [apply world_go_run; vm_compute; reflexivity|]. split.
  - exists 0, 1, 2, 3, 7. split; [discriminate|]. split; [discriminate|].
    split; [vm_compute; auto|]. split; [vm_compute; auto|]. split; vm_compute; auto.
  - exists 0, 1, 2. split; [discriminate|]. split; vm_compute; auto.
Qed.
Print Assumptions C80_refuted.
