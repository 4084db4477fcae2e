(** The executor as a machine that begins and ends jobs (C99), tasks that nothing keeps
    apart (C100). *)
From Coq Require Import String Relations Permutation Lia.
From Verif Require Import Model.Common Model.Records Model.Jobs Model.TaskSet Model.Dag
     Model.Sched Model.Exec Model.ExecSet Spec.Graph Spec.Trace Spec.Tasks Spec.Parallel Spec.Machine
     Properties.Demo Properties.TaskSets Proofs.DemoFacts Proofs.MachineFacts Proofs.MachineDemo Proofs.BypassDemo Proofs.SetExec.
Open Scope string_scope.
Open Scope nat_scope.
Open Scope list_scope.

(** * C99 What jobs do is what a simple machine allows *)

Theorem C99_only_the_machine : forall c z s,
  wf_dag (c_dag c) -> requires_after (c_dag c) -> reachable c z s -> machine c (jobs (trace s)).
Proof. exact machine_sound. Qed.
Print Assumptions C99_only_the_machine.

Theorem C99_of_task_set : forall st ts filt iv addr c z s,
  execution_of st ts filt iv addr c -> reachable c z s -> machine c (jobs (trace s)).
Proof.
  intros st ts filt iv addr c z s HE. destruct (exec_facts st ts filt iv addr c HE) as (Hwf & Hra & _).
  exact (machine_sound c z s Hwf Hra).
Qed.
Print Assumptions C99_of_task_set.

(** With a thread for every task and no shared resource, whatever the machine can do can happen. *)
Theorem C99_exactly_the_machine : forall c z h,
  wf_dag (c_dag c) -> requires_after (c_dag c) -> plenty c ->
  (machine c h <-> exists s, reachable c z s /\ jobs (trace s) = h).
Proof.
  intros c z h Hwf Hra Hp. split; [exact (machine_complete c z h Hwf Hra Hp)|].
  intros (s & HR & <-). exact (machine_sound c z s Hwf Hra HR).
Qed.
Print Assumptions C99_exactly_the_machine.

(** lint (6) begins before gen (1); lib (2) begins after gen and fails while lint runs.
    The machine does not allow lib to begin first. *)
Example C99_case :
  wf_dag (c_dag roomy) /\ requires_after (c_dag roomy) /\ plenty roomy /\
  reachable roomy 0 roomy_state /\
  jobs (trace roomy_state) = [Begins 6; Begins 1; Ends 1 ok; Begins 2; Ends 2 failing; Ends 6 ok] /\
  ~ machine roomy [Begins 2].
Proof.
  split; [exact wf_demo|]. split; [exact req_after_demo|]. split; [exact roomy_plenty|].
  split; [exact reach_roomy|]. split; [exact roomy_jobs|exact roomy_not].
Qed.
Example C99_case_of_task_set :
  execution_of demo_store demo_set "" demo_inval (fun t => t) set_demo /\
  reachable set_demo 0 (set_end all_ok) /\ List.length (jobs (trace (set_end all_ok))) = 10.
Proof. split; [exact exec_set_demo|]. split; [exact reach_set_end|vm_compute; reflexivity]. Qed.

(** With fewer threads than tasks the order of the addresses counts as well: of two
    independent tasks and one thread, the machine lets either begin first, the executor
    only one. *)
Theorem C99_needs_plenty : exists c h,
  wf_dag (c_dag c) /\ requires_after (c_dag c) /\ c_threads c = 1 /\
  (forall a b, no_shared_resource c a b) /\
  machine c h /\ forall z s, reachable c z s -> jobs (trace s) <> h.
Proof.
  exists queue, [Begins 2]. split; [exact queue_wf|]. split; [exact queue_ra|]. split; [reflexivity|].
  split; [exact queue_res|]. split; [exact queue_machine|exact queue_never].
Qed.
Print Assumptions C99_needs_plenty.

(** * C100 Tasks that nothing keeps apart can run at the same time, in any order *)

Theorem C100_all_at_once : forall c z team order (oc : nid -> job_outcome),
  wf_dag (c_dag c) -> executable c ->
  NoDup team -> incl team (node_ids (c_dag c)) -> (forall n, In n team -> Invalidated c n) ->
  List.length team <= c_threads c ->
  (forall a b, In a team -> In b team -> a <> b -> ~ held_up_by c a b) ->
  Permutation team order ->
  exists s pre, reachable c z s /\
    trace s = pre ++ map EBegin team ++ map (fun n => EEnd n (oc n)) order.
Proof. exact all_at_once. Qed.
Print Assumptions C100_all_at_once.

(** lint (6) and lib (2), which depends on gen, two threads; lint begins first and ends first. *)
Example C100_case :
  wf_dag (c_dag (demo 2)) /\ executable (demo 2) /\ NoDup [6; 2] /\
  incl [6; 2] (node_ids (c_dag (demo 2))) /\ (forall n, In n [6; 2] -> Invalidated (demo 2) n) /\
  List.length [6; 2] <= c_threads (demo 2) /\
  (forall a b, In a [6; 2] -> In b [6; 2] -> a <> b -> ~ held_up_by (demo 2) a b) /\
  Permutation [6; 2] [6; 2] /\ node_res (demo 2) 2 <> [].
Proof.
  split; [exact wf_demo|]. split; [exact demo_executable|].
  split; [repeat constructor; cbn; intuition congruence|].
  split; [exact demo_team_ids|].
  split; [intros n [<-|[<-|[]]]; [exact demo_inval6|exact demo_inval2]|].
  split; [cbn; lia|]. split; [exact demo_team|]. split; [apply Permutation_refl|]. vm_compute. discriminate.
Qed.

(** It does not suffice that the tasks themselves neither share a resource nor run after
    each other: here 3 runs after 2, which needs a resource that 1 takes first, and 1 and 3
    never run at the same time although there is a thread for each task. *)
Theorem C100_needs_indirect : exists c a b,
  wf_dag (c_dag c) /\ executable c /\ a <> b /\ incl [a; b] (node_ids (c_dag c)) /\
  (forall n, Invalidated c n) /\ List.length (node_ids (c_dag c)) <= c_threads c /\
  no_shared_resource c a b /\
  ~ clos_trans nid (runs_after (c_dag c)) a b /\ ~ clos_trans nid (runs_after (c_dag c)) b a /\
  forall z s, reachable c z s -> ~ (In a (running (trace s)) /\ In b (running (trace s))).
Proof.
  exists bypass, 1, 3. split; [exact bypass_wf|]. split; [exact bypass_executable|]. split; [discriminate|].
  split; [intros x [<-|[<-|[]]]; vm_compute; tauto|]. split; [exact bypass_inval|]. split; [vm_compute; lia|].
  split; [exact bypass_res|]. split; [intros H; apply bypass_path in H; destruct H; discriminate|].
  split; [intros H; apply bypass_path in H; destruct H; discriminate|]. exact bypass_never.
Qed.
Print Assumptions C100_needs_indirect.
