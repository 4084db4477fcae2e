(** When a job is polled (C115). *)
From Coq Require Import String.
From Verif Require Import Model.Common Model.Records Model.Jobs Model.TaskSet Model.Dag
     Model.Sched Model.Exec Spec.Graph Spec.Trace Spec.Parallel Spec.Polls Properties.Demo
     Proofs.PollFacts Proofs.TickCost Properties.Anomaly.
Open Scope nat_scope.
Open Scope list_scope.

(** C115.  One call of tick() that ends normally polls exactly the tasks that have begun and not
    ended when it returns, each of them once: those that were under way before and did not end in
    it, and those that it began itself. *)
Theorem C115_one_tick : forall c z s s1 s2 ls new n,
  wf_dag (c_dag c) -> reachable c z s -> done s = false ->
  step c s LTick = Some s1 -> forallb inner_label ls = true -> run_labels c s1 ls = Some s2 ->
  extends s s2 new -> tick_running s2 = false -> (forall e, result s2 <> RThrow e) ->
  polls new n = if is_under_way (trace s2) n then 1 else 0.
Proof. exact one_tick_polls. Qed.
Print Assumptions C115_one_tick.

(** So the polls of such a call that find a job running are as many as the tasks under way when it
    returns, and not more than there are threads. *)
Theorem C115_tick_cost : forall c z s s1 s2 ls new,
  wf_dag (c_dag c) -> reachable c z s -> done s = false ->
  step c s LTick = Some s1 -> forallb inner_label ls = true -> run_labels c s1 ls = Some s2 ->
  extends s s2 new -> tick_running s2 = false -> (forall e, result s2 <> RThrow e) ->
  timeouts new = List.length (filter (is_under_way (trace s2)) (node_ids (c_dag c))) /\
  timeouts new <= Nat.max 1 (c_threads c).
Proof. exact tick_cost. Qed.
Print Assumptions C115_tick_cost.

(** However it ends, and at every moment before that, the call has polled no task twice. *)
Theorem C115_at_most_once : forall c z s s1 s2 ls new n,
  wf_dag (c_dag c) -> reachable c z s -> done s = false ->
  step c s LTick = Some s1 -> forallb inner_label ls = true -> run_labels c s1 ls = Some s2 ->
  extends s s2 new -> polls new n <= 1.
Proof. exact once_per_tick. Qed.
Print Assumptions C115_at_most_once.

(** Over a whole execution that returns a record, a task is polled as many times as tick() is
    called while it is under way. *)
Theorem C115_polls : forall c z ls s er n,
  wf_dag (c_dag c) -> run_labels c (init z) ls = Some s -> result s = RRecord er ->
  polls (trace s) n = List.length (filter (fun tr => is_under_way tr n) (tick_calls c (init z) ls)).
Proof. exact polls_are_ticks. Qed.
Print Assumptions C115_polls.

(** Five tasks on two threads; the numbers of polls differ from task to task. *)
Example C115_polls_case : exists s er,
  wf_dag (c_dag (odd 2)) /\ run_labels (odd 2) (init 0) (odd_labels 2) = Some s /\ result s = RRecord er /\
  map (polls (trace s)) [1; 2; 3; 4; 5] = [2; 2; 1; 0; 2] /\
  map (fun n => List.length (filter (fun tr => is_under_way tr n) (tick_calls (odd 2) (init 0) (odd_labels 2)))) [1; 2; 3; 4; 5] = [2; 2; 1; 0; 2] /\
  List.length (tick_calls (odd 2) (init 0) (odd_labels 2)) = ticks (odd_labels 2).
Proof.
  do 2 eexists. split; [apply odd_wf|]. split; [vm_compute; reflexivity|]. repeat split; vm_compute; reflexivity.
Qed.

Lemma tail_of {A} (l m : list A) : firstn (List.length l) m = l -> m = l ++ skipn (List.length l) m.
Proof. intros H. rewrite <- H at 1. symmetry. apply firstn_skipn. Qed.
(** The fourth call: the first two tasks are under way, the job of the first has ended. *)
Definition odd_start : list label :=
  [LTick; LCtl; LTick; LCtl; LCtl; LCtl; LTick; LCtl; LCtl; LCtl; LCtl; LBegin 1; LBegin 2; LEnd 1 ok].
Definition odd_inner : list label := [LCtl; LCtl; LCtl].
Example C115_one_tick_case : exists s s1 s2 new,
  wf_dag (c_dag (odd 2)) /\ run_labels (odd 2) (init 0) odd_start = Some s /\ done s = false /\
  step (odd 2) s LTick = Some s1 /\ forallb inner_label odd_inner = true /\
  run_labels (odd 2) s1 odd_inner = Some s2 /\ extends s s2 new /\ tick_running s2 = false /\
  (forall e, result s2 <> RThrow e) /\
  map (is_under_way (trace s)) [1; 2; 3] = [true; true; false] /\
  map (is_under_way (trace s2)) [1; 2; 3] = [false; true; false] /\
  map (polls new) [1; 2; 3] = [0; 1; 0].
Proof.
  do 4 eexists. split; [apply odd_wf|]. split; [vm_compute; reflexivity|]. split; [vm_compute; reflexivity|].
  split; [vm_compute; reflexivity|]. split; [reflexivity|]. split; [vm_compute; reflexivity|].
  split; [unfold extends; apply tail_of; vm_compute; reflexivity|].
  split; [vm_compute; reflexivity|]. split; [intros e H; discriminate H|]. repeat split; vm_compute; reflexivity.
Qed.

(** In the third call the first task is polled; the thread for the second one cannot be started. *)
Definition odd_before : list label := [LTick; LCtl; LTick; LCtl; LCtl; LCtl; LBegin 1].
Definition odd_fails : list label := [LCtl; LLaunchFail; LEnd 1 ok; LCtl; LCtl].
Example C115_at_most_once_case : exists s s1 s2 new,
  wf_dag (c_dag (odd 2)) /\ run_labels (odd 2) (init 0) odd_before = Some s /\ done s = false /\
  step (odd 2) s LTick = Some s1 /\ forallb inner_label odd_fails = true /\
  run_labels (odd 2) s1 odd_fails = Some s2 /\ extends s s2 new /\
  result s2 = RThrow (ExcLaunch 2) /\ map (polls new) [1; 2; 3] = [1; 0; 0].
Proof.
  do 4 eexists. split; [apply odd_wf|]. split; [vm_compute; reflexivity|]. split; [vm_compute; reflexivity|].
  split; [vm_compute; reflexivity|]. split; [reflexivity|]. split; [vm_compute; reflexivity|].
  split; [unfold extends; apply tail_of; vm_compute; reflexivity|]. split; vm_compute; reflexivity.
Qed.

(** The third call of the first case polls two jobs, as many as there are threads. *)
Example C115_tick_cost_case : exists s s1 s2 new,
  wf_dag (c_dag (odd 2)) /\ run_labels (odd 2) (init 0) [LTick; LCtl; LTick; LCtl; LCtl; LCtl] = Some s /\ done s = false /\
  step (odd 2) s LTick = Some s1 /\ forallb inner_label [LCtl; LCtl; LCtl; LCtl] = true /\
  run_labels (odd 2) s1 [LCtl; LCtl; LCtl; LCtl] = Some s2 /\ extends s s2 new /\ tick_running s2 = false /\
  (forall e, result s2 <> RThrow e) /\
  timeouts new = 2 /\ filter (is_under_way (trace s2)) (node_ids (c_dag (odd 2))) = [1; 2] /\ c_threads (odd 2) = 2.
Proof.
  do 4 eexists. split; [apply odd_wf|]. split; [vm_compute; reflexivity|]. split; [vm_compute; reflexivity|].
  split; [vm_compute; reflexivity|]. split; [reflexivity|]. split; [vm_compute; reflexivity|].
  split; [unfold extends; apply tail_of; vm_compute; reflexivity|].
  split; [vm_compute; reflexivity|]. split; [intros e H; discriminate H|]. repeat split; vm_compute; reflexivity.
Qed.
