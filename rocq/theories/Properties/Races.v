(** Memory: what jobs, visitor and client see of each other, and data races (C91 to C94). *)
From Coq Require Import String Relations Lia.
From Verif Require Import Model.Common Model.Records Model.Jobs Model.TaskSet Model.Dag
     Model.Sched Model.Exec Model.ExecSet Spec.Graph Spec.Trace Spec.Tasks Spec.JobUse Spec.Races
     Properties.Demo Properties.TaskSets Properties.JobUse Proofs.DemoFacts Proofs.RaceFacts.
Open Scope string_scope.
Open Scope nat_scope.
Open Scope list_scope.

(** * C91 A job sees what the jobs it runs after did *)

Theorem C91_visible : forall c z s a b i j o,
  wf_dag (c_dag c) -> reachable c z s -> clos_trans nid (runs_after (c_dag c)) a b ->
  at_pos (trace s) i (EEnd b o) -> at_pos (trace s) j (EBegin a) -> happens_before c (trace s) i j.
Proof. exact job_visible. Qed.
Print Assumptions C91_visible.

Theorem C91_of_task_set : forall st ts filt iv addr c z s a b i j o,
  execution_of st ts filt iv addr c -> reachable c z s ->
  clos_trans tid (selected_after st ts filt) a b ->
  at_pos (trace s) i (EEnd (addr b) o) -> at_pos (trace s) j (EBegin (addr a)) ->
  happens_before c (trace s) i j.
Proof. intros st ts filt iv addr c z s a b i j o HE. exact (set_visible st ts filt iv addr c HE z s a b i j o). Qed.
Print Assumptions C91_of_task_set.

(** app (3) depends on lib (2), which depends on gen (1). *)
Example C91_case :
  execution_of demo_store demo_set "" demo_inval (fun t => t) set_demo /\
  reachable set_demo 0 (set_end all_ok) /\
  clos_trans tid (selected_after demo_store demo_set "") 3 1 /\
  clos_trans nid (runs_after (c_dag set_demo)) 3 1 /\
  at_pos (trace (set_end all_ok)) 26 (EEnd 1 ok) /\ at_pos (trace (set_end all_ok)) 39 (EBegin 3).
Proof.
  split; [exact exec_set_demo|]. split; [exact reach_set_end|].
  assert (H : clos_trans tid (selected_after demo_store demo_set "") 3 1).
  { apply t_trans with 2; apply t_step.
    - split; [apply selected_demo; cbn; auto|]. split; [apply selected_demo; cbn; auto|]. left. left. reflexivity.
    - split; [apply selected_demo; cbn; auto|]. split; [apply selected_demo; cbn; auto|]. left. left. reflexivity. }
  split; [exact H|]. split; [exact (set_after_trans _ _ _ _ _ _ exec_set_demo 3 1 H)|].
  split; vm_compute; reflexivity.
Qed.

(** * C92 Jobs that share a resource are ordered *)

(** When the second begins, the first has ended, and its end happens before. *)
Theorem C92_ordered : forall c z s m n r i j,
  wf_dag (c_dag c) -> reachable c z s -> m <> n ->
  In r (node_res c m) -> In r (node_res c n) -> i < j ->
  at_pos (trace s) i (EBegin m) -> at_pos (trace s) j (EBegin n) ->
  exists k o, at_pos (trace s) k (EEnd m o) /\ happens_before c (trace s) k j.
Proof. exact resource_visible. Qed.
Print Assumptions C92_ordered.

Theorem C92_of_task_set : forall st ts filt iv addr c z s a b r i j,
  execution_of st ts filt iv addr c -> reachable c z s ->
  selected st ts filt a -> selected st ts filt b -> a <> b ->
  In r (t_resources (st_get st a)) -> In r (t_resources (st_get st b)) -> i < j ->
  at_pos (trace s) i (EBegin (addr a)) -> at_pos (trace s) j (EBegin (addr b)) ->
  exists k o, at_pos (trace s) k (EEnd (addr a) o) /\ happens_before c (trace s) k j.
Proof.
  intros st ts filt iv addr c z s a b r i j HE.
  exact (set_resource_visible st ts filt iv addr c HE z s a b r i j).
Qed.
Print Assumptions C92_of_task_set.

(** Two unrelated tasks with resource 7, two threads. *)
Definition rivals : config :=
  Config (Dag [DNode 1 "a" 2; DNode 2 "b" 4; DNode 3 "c" 6] []) 2 demo_tasks (fun _ => IvRet true "").
Definition rivals_end : state := go rivals (drive rivals all_ok 60 (init 0)).
Lemma rivals_wf : wf_dag (c_dag rivals).
Proof. apply wf_dagb_wf. vm_compute. reflexivity. Qed.
Lemma reach_rivals : reachable rivals 0 rivals_end.
Proof. apply go_reachable. vm_compute. reflexivity. Qed.

Example C92_case :
  wf_dag (c_dag rivals) /\ reachable rivals 0 rivals_end /\
  ~ clos_trans nid (runs_after (c_dag rivals)) 1 2 /\ ~ clos_trans nid (runs_after (c_dag rivals)) 2 1 /\
  In 7 (node_res rivals 1) /\ In 7 (node_res rivals 2) /\
  exists i j, i < j /\ at_pos (trace rivals_end) i (EBegin 1) /\ at_pos (trace rivals_end) j (EBegin 2).
Proof.
  split; [exact rivals_wf|]. split; [exact reach_rivals|].
  assert (N : forall a b, ~ clos_trans nid (runs_after (c_dag rivals)) a b).
  { intros a b H. induction H as [a b H|]; [destruct H|assumption]. }
  split; [apply N|]. split; [apply N|]. split; [left; reflexivity|]. split; [left; reflexivity|].
  exists 13, 20. split; [lia|]. split; vm_compute; reflexivity.
Qed.

(** * C93 Jobs, visitor and client *)

(** All calls of is_invalidated, of whatever job, and before_run happen before the job. *)
Theorem C93_checks_first : forall c z s m n i j,
  wf_dag (c_dag c) -> reachable c z s ->
  at_pos (trace s) i (EAsk m) -> at_pos (trace s) j (EBegin n) -> happens_before c (trace s) i j.
Proof. exact check_visible. Qed.
Print Assumptions C93_checks_first.

Theorem C93_before_run : forall c z s er n i j,
  wf_dag (c_dag c) -> reachable c z s ->
  at_pos (trace s) i (EBeforeRun er n) -> at_pos (trace s) j (EBegin n) -> happens_before c (trace s) i j.
Proof. exact before_visible. Qed.
Print Assumptions C93_before_run.

(** The job happens before on_run_log and after_run for it, before after_execution, and
    before the destructor of the execution returns. *)
Theorem C93_after_job : forall c z s n o i j e,
  wf_dag (c_dag c) -> reachable c z s ->
  at_pos (trace s) i (EEnd n o) -> at_pos (trace s) j e ->
  match e with
  | ERunLog m _ => m = n
  | EAfterRun _ r _ => r_node r = n
  | EAfterExec _ | EDestroyed => True
  | _ => False
  end -> happens_before c (trace s) i j.
Proof. exact end_visible. Qed.
Print Assumptions C93_after_job.

Definition rivals_gone : state := go rivals (drive rivals all_ok 60 (init 0) ++ [LDestroy; LCtl]).
Example C93_case :
  wf_dag (c_dag rivals) /\ reachable rivals 0 rivals_gone /\
  let at_ := at_pos (trace rivals_gone) in
  at_ 5 (EAsk 2) /\ at_ 13 (EBegin 1) /\ (exists er, at_ 11 (EBeforeRun er 1)) /\ at_ 14 (EEnd 1 ok) /\
  (exists t, at_ 15 (ERunLog 1 t)) /\ (exists er r, at_ 16 (EAfterRun er r 1) /\ r_node r = 1) /\
  (exists er, at_ 30 (EAfterExec er)) /\ at_ 31 EDestroyed.
Proof.
  split; [exact rivals_wf|]. split; [apply go_reachable; vm_compute; reflexivity|]. cbv zeta.
  split; [vm_compute; reflexivity|]. split; [vm_compute; reflexivity|].
  split; [eexists; vm_compute; reflexivity|]. split; [vm_compute; reflexivity|].
  split; [eexists; vm_compute; reflexivity|].
  split; [do 2 eexists; split; [vm_compute; reflexivity|reflexivity]|].
  split; [eexists; vm_compute; reflexivity|]. vm_compute. reflexivity.
Qed.

(** * C94 No data races *)

(** Let the job of a node, and the visitor when it is called about it, use any memory, such
    that two tasks that may conflict are ordered by run-after edges or share a resource.  Let
    is_invalidated, the callbacks of the start, after_execution and whoever destroys the
    execution use anything.  Then no two conflicting accesses are unordered. *)
Theorem C94_no_data_race : forall (loc : Type) (touches : nid -> loc -> access -> Prop) c z s i j,
  wf_dag (c_dag c) -> reachable c z s -> disciplined loc touches c ->
  ~ data_race loc touches c (trace s) i j.
Proof. exact no_data_race. Qed.
Print Assumptions C94_no_data_race.

Theorem C94_of_task_set : forall (loc : Type) (touches : tid -> loc -> access -> Prop) st ts filt iv addr c z s i j,
  execution_of st ts filt iv addr c -> reachable c z s ->
  (forall a b l k k', selected st ts filt a -> selected st ts filt b -> a <> b ->
     touches a l k -> touches b l k' -> conflict k k' ->
     clos_trans tid (selected_after st ts filt) a b \/ clos_trans tid (selected_after st ts filt) b a \/
     exists r, In r (t_resources (st_get st a)) /\ In r (t_resources (st_get st b))) ->
  ~ data_race loc (fun n l k => exists t, selected st ts filt t /\ n = addr t /\ touches t l k) c (trace s) i j.
Proof.
  intros loc touches st ts filt iv addr c z s i j HE.
  exact (set_no_race st ts filt iv addr c HE loc touches z s i j).
Qed.
Print Assumptions C94_of_task_set.

(** The job objects themselves: the calls on the job of one task are ordered. *)
Theorem C94_job_objects : forall st ts filt iv addr c z s i j e e' n n' k k',
  execution_of st ts filt iv addr c -> reachable c z s ->
  i < j -> at_pos (trace s) i e -> at_pos (trace s) j e' ->
  job_use e = Some (n, k) -> job_use e' = Some (n', k') ->
  node_task (c_dag c) n = node_task (c_dag c) n' -> happens_before c (trace s) i j.
Proof.
  intros st ts filt iv addr c z s i j e e' n n' k k' HE.
  exact (set_job_object st ts filt iv addr c HE z s i j e e' n n' k k').
Qed.
Print Assumptions C94_job_objects.

(** Nodes 1 and 2 both write location 1, they share resource 7; other nodes use their own. *)
Definition own_data (n : nid) (l : nat) (k : access) : Prop := l = if n =? 2 then 1 else n.
Example C94_case :
  disciplined nat own_data rivals /\ wf_dag (c_dag rivals) /\ reachable rivals 0 rivals_end /\
  exists i j, i <> j /\ may_access nat own_data (EBegin 1) 1 Writes /\ may_access nat own_data (EBegin 2) 1 Writes /\
  at_pos (trace rivals_end) i (EBegin 1) /\ at_pos (trace rivals_end) j (EBegin 2).
Proof.
  split; [|split; [exact rivals_wf|split; [exact reach_rivals|]]].
  - intros m n l k k' Hmn H1 H2 _. right; right. exists 7. unfold own_data, nid in *.
    assert (G : m = 1 /\ n = 2 \/ m = 2 /\ n = 1) by (destruct (Nat.eqb_spec m 2), (Nat.eqb_spec n 2); lia).
    destruct G as [[-> ->]|[-> ->]]; split; left; reflexivity.
  - exists 13, 20. split; [lia|]. split; [right; exists 1; split; reflexivity|].
    split; [right; exists 2; split; reflexivity|]. split; vm_compute; reflexivity.
Qed.

(** gen (1) is asked and run. *)
Example C94_case_job :
  execution_of demo_store demo_set "" demo_inval (fun t => t) set_demo /\
  reachable set_demo 0 (set_end all_ok) /\
  at_pos (trace (set_end all_ok)) 6 (EAsk 1) /\ at_pos (trace (set_end all_ok)) 25 (EBegin 1) /\
  job_use (EAsk 1) = Some (1, CallAsk) /\ job_use (EBegin 1) = Some (1, CallBegin).
Proof.
  split; [exact exec_set_demo|]. split; [exact reach_set_end|].
  split; [vm_compute; reflexivity|]. split; [vm_compute; reflexivity|]. split; reflexivity.
Qed.

(** The discipline is needed: two unrelated jobs are not ordered. *)
Theorem C94_needs_discipline : exists c z s i j,
  wf_dag (c_dag c) /\ reachable c z s /\ data_race unit (fun _ _ _ => True) c (trace s) i j.
Proof.
  exists (demo 2), 0%Z, demo_busy, 30, 31. split; [exact wf_demo|]. split; [exact reach_busy|].
  exists (EBegin 1), (EBegin 6), tt, Writes, Writes.
  split; [vm_compute; reflexivity|]. split; [vm_compute; reflexivity|]. split; [lia|].
  split; [right; exists 1; split; [reflexivity|exact I]|]. split; [right; exists 6; split; [reflexivity|exact I]|].
  split; [left; reflexivity|]. split; [|apply not_back; lia].
  apply (still_running (demo 2) (trace demo_busy) 30 1); [discriminate|vm_compute; reflexivity|vm_compute; reflexivity].
Qed.
Print Assumptions C94_needs_discipline.

(** So is one node per task: after insert_set with the filters "lib" and "app" (C79) the
    job of gen is run by two threads, unordered. *)
Theorem C94_needs_one_node : exists st js g threads iv s i j a b,
  assembled st js g /\ reachable (exec_graph st g threads iv) 0 s /\
  at_pos (trace s) i (EBegin a) /\ at_pos (trace s) j (EBegin b) /\ node_task g a = node_task g b /\
  ~ happens_before (exec_graph st g threads iv) (trace s) i j /\
  ~ happens_before (exec_graph st g threads iv) (trace s) j i.
Proof.
  exists demo_store, calls3, graph3, 4, (fun _ => IvRet true ""), parallel3, 38, 39, 1, 21.
  split; [exact assembled3|]. split; [exact reach_parallel3|].
  split; [vm_compute; reflexivity|]. split; [vm_compute; reflexivity|]. split; [vm_compute; reflexivity|].
  split; [|apply not_back; lia].
  apply (still_running run3 (trace parallel3) 38 1); [discriminate|vm_compute; reflexivity|vm_compute; reflexivity].
Qed.
Print Assumptions C94_needs_one_node.

(** And after_run may use the data of the task of the record only: the node it is given can
    be another one (C21), whose job is running. *)
Definition trio : config :=
  Config (Dag [DNode 1 "a" 1; DNode 2 "b" 1; DNode 3 "c" 1] []) 3 demo_tasks (fun _ => IvRet true "").
Definition trio_state : state :=
  go trio [LTick; LCtl; LTick; LCtl; LCtl; LCtl; LTick; LCtl; LCtl; LCtl; LCtl; LTick; LCtl; LCtl; LCtl; LCtl;
           LBegin 1; LBegin 2; LBegin 3; LEnd 1 ok; LCtl; LTick; LCtl; LCtl; LCtl; LCtl; LEnd 3 ok;
           LTick; LCtl; LCtl; LCtl].
Theorem C94_after_run_argument : exists c s i j er r x,
  wf_dag (c_dag c) /\ reachable c 0 s /\
  at_pos (trace s) i (EBegin x) /\ at_pos (trace s) j (EAfterRun er r x) /\
  ~ happens_before c (trace s) i j /\ ~ happens_before c (trace s) j i.
Proof.
  exists trio, trio_state, 25, 35. do 2 eexists. exists 2.
  split; [apply wf_dagb_wf; vm_compute; reflexivity|]. split; [apply go_reachable; vm_compute; reflexivity|].
  split; [vm_compute; reflexivity|]. split; [vm_compute; reflexivity|]. split; [|apply not_back; lia].
  apply (still_running trio (trace trio_state) 25 2); [discriminate|vm_compute; reflexivity|vm_compute; reflexivity].
Qed.
Print Assumptions C94_after_run_argument.
