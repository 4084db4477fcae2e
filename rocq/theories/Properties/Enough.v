(** After enough ticks an execution has ended, and no resource is in use then: C13, C56, C57. *)
From Coq Require Import String Permutation Lia.
From Verif Require Import Model.Common Model.Records Model.Jobs Model.TaskSet Model.Dag Model.Sched Model.Exec
     Spec.Graph Spec.Trace Spec.Failure Spec.Machine Properties.Demo Proofs.DemoFacts Proofs.MachineDemo
     Proofs.SharpTicks Proofs.EnoughTicks Proofs.FreeAtEnd.
Open Scope string_scope.
Open Scope nat_scope.
Open Scope list_scope.

(** * C13 Besides the polls that find a job running, n tasks take n+2 ticks at most

    One if there are no tasks. *)
Theorem C13_ticks_sharp : forall c z ls s,
  wf_dag (c_dag c) -> run_labels c (init z) ls = Some s -> (forall b, s_pc s <> Bad b) ->
  let N := List.length (node_ids (c_dag c)) in
  ticks ls <= (if N =? 0 then 1 else N + 2) + timeouts (trace s).
Proof. exact sharp_ticks. Qed.
Print Assumptions C13_ticks_sharp.

(** * C13 A client that has called tick() that often has a record

    Not disturbed: every thread could be started and no callback threw.  The client did not
    destroy the execution, and did not call tick() after it was done (C24). *)
Theorem C13_enough_ticks : forall c z ls s, wf_dag (c_dag c) -> executable c ->
  run_labels c (init z) ls = Some s -> undisturbed ls -> ~ In LDestroy ls -> (forall b, s_pc s <> Bad b) ->
  tick_running s = false ->
  (let N := List.length (node_ids (c_dag c)) in (if N =? 0 then 1 else N + 2) + timeouts (trace s) <= ticks ls) ->
  exists er, result s = RRecord er.
Proof. exact enough_ticks. Qed.
Print Assumptions C13_enough_ticks.

(** Six tasks, eight ticks and no poll that found a job running. *)
Example C13_enough_hypotheses :
  wf_dag (c_dag (demo 2)) /\ executable (demo 2) /\
  run_labels (demo 2) (init 0) (demo_run 2 all_ok) = Some (demo_end 2 all_ok) /\
  undisturbed (demo_run 2 all_ok) /\ ~ In LDestroy (demo_run 2 all_ok) /\
  (forall b, s_pc (demo_end 2 all_ok) <> Bad b) /\
  tick_running (demo_end 2 all_ok) = false /\ List.length (node_ids (c_dag (demo 2))) = 6 /\
  timeouts (trace (demo_end 2 all_ok)) = 0 /\ ticks (demo_run 2 all_ok) = 8.
Proof.
  split; [exact wf_demo|]. split; [exact demo_executable|]. split; [apply go_run; vm_compute; reflexivity|].
  split; [apply undisturbed_decide; vm_compute; reflexivity|].
  split; [apply undisturbed_decide; vm_compute; reflexivity|].
  split; [vm_compute; discriminate|vm_compute; repeat split; reflexivity].
Qed.

(** * C56 If there is nothing to do, n+2 ticks are enough *)
Theorem C56_finishes : forall c z ls s, wf_dag (c_dag c) -> executable c ->
  (forall n, In n (node_ids (c_dag c)) -> ~ job_invalidated c n) ->
  run_labels c (init z) ls = Some s -> undisturbed ls -> ~ In LDestroy ls -> (forall b, s_pc s <> Bad b) ->
  tick_running s = false ->
  (let N := List.length (node_ids (c_dag c)) in (if N =? 0 then 1 else N + 2) <= ticks ls) ->
  exists er, result s = RRecord er /\ Permutation (map r_node (er_runs er)) (node_ids (c_dag c)) /\
    forall r, In r (er_runs er) -> r_status r = SKIP.
Proof. exact nothing_finishes. Qed.
Print Assumptions C56_finishes.

Example C56_finishes_hypotheses :
  let c := Config demo_dag 2 demo_tasks (fun n => IvRet false "") in
  let ls := drive c all_ok 60 (init 0) in
  wf_dag (c_dag c) /\ executable c /\ (forall n, In n (node_ids (c_dag c)) -> ~ job_invalidated c n) /\
  run_labels c (init 0) ls = Some (go c ls) /\ undisturbed ls /\ ~ In LDestroy ls /\
  (forall b, s_pc (go c ls) <> Bad b) /\ tick_running (go c ls) = false /\
  List.length (node_ids (c_dag c)) = 6 /\ ticks ls = 8.
Proof.
  intros c ls. split; [exact wf_demo|].
  split; [split; [exact (proj1 demo_executable)|intros n Hn; split; [exact (proj1 (proj2 demo_executable n Hn))|discriminate]]|].
  split; [intros n _ [t H]; discriminate H|]. split; [apply go_run; vm_compute; reflexivity|].
  split; [apply undisturbed_decide; vm_compute; reflexivity|].
  split; [apply undisturbed_decide; vm_compute; reflexivity|].
  split; [vm_compute; discriminate|vm_compute; repeat split; reflexivity].
Qed.

(** * C57 An execution that has ended holds no resource *)
Theorem C57_free_at_end : forall c z s er,
  wf_dag (c_dag c) -> reachable c z s -> result s = RRecord er -> s_used s = [].
Proof. exact free_at_end. Qed.
Print Assumptions C57_free_at_end.

(** Some task of the demo names a resource. *)
Example C57_free_case :
  wf_dag (c_dag (demo 2)) /\ reachable (demo 2) 0 (demo_end 2 all_ok) /\
  (exists er, result (demo_end 2 all_ok) = RRecord er) /\
  existsb (fun n => match node_res (demo 2) n with [] => false | _ => true end) (node_ids (c_dag (demo 2))) = true.
Proof. split; [exact wf_demo|]. split; [exact reach_demo_ok|]. split; [exact fin_demo_ok|vm_compute; reflexivity]. Qed.
