(** Fewer constraints, other places in memory (C105). *)
From Coq Require Import String Relations.
From Verif Require Import Model.Common Model.Records Model.Jobs Model.TaskSet Model.Dag
     Model.Sched Model.Exec Spec.Graph Spec.Trace Spec.Machine.
Open Scope nat_scope.
Open Scope list_scope.

(** [c2] is [c1], with the nodes in other places (node [n] at [f n]), possibly with fewer
    run-after constraints and resources and with more threads.  What is required, what
    invalidates what, the jobs and their answers are the same. *)
Record looser (f : nid -> nid) (c1 c2 : config) : Prop := {
  lo_into : forall n, In n (node_ids (c_dag c1)) -> In (f n) (node_ids (c_dag c2));
  lo_onto : forall m, In m (node_ids (c_dag c2)) -> exists n, In n (node_ids (c_dag c1)) /\ m = f n;
  lo_inj : forall a b, In a (node_ids (c_dag c1)) -> In b (node_ids (c_dag c1)) -> f a = f b -> a = b;
  lo_after : forall a b, In a (node_ids (c_dag c1)) -> In b (node_ids (c_dag c1)) ->
    clos_trans nid (runs_after (c_dag c2)) (f a) (f b) -> clos_trans nid (runs_after (c_dag c1)) a b;
  lo_req : forall a b, In a (node_ids (c_dag c1)) -> In b (node_ids (c_dag c1)) ->
    (clos_trans nid (requires (c_dag c1)) a b <-> clos_trans nid (requires (c_dag c2)) (f a) (f b));
  lo_inval : forall a b, In a (node_ids (c_dag c1)) -> In b (node_ids (c_dag c1)) ->
    (clos_trans nid (inval_by (c_dag c1)) a b <-> clos_trans nid (inval_by (c_dag c2)) (f a) (f b));
  lo_job : forall n, In n (node_ids (c_dag c1)) -> node_has_job c1 n = node_has_job c2 (f n);
  lo_answer : forall n, In n (node_ids (c_dag c1)) -> c_inval c1 n = c_inval c2 (f n);
  lo_res : forall n r, In n (node_ids (c_dag c1)) -> In r (node_res c2 (f n)) -> In r (node_res c1 n);
  lo_threads : Nat.max 1 (c_threads c1) <= Nat.max 1 (c_threads c2)
}.

Definition rename (f : nid -> nid) (j : job_step) : job_step :=
  match j with Begins n => Begins (f n) | Ends n o => Ends (f n) o end.

(** What the tasks, not the nodes, do. *)
Definition task_jobs (c : config) (tr : list event) : list job_step :=
  map (rename (node_task (c_dag c))) (jobs tr).

(** The same with another number of threads; the same without any resources. *)
Definition with_threads (c : config) (k : nat) : config := Config (c_dag c) k (c_task c) (c_inval c).
Definition without_resources (c : config) : config :=
  Config (c_dag c) (c_threads c)
    (fun t => let x := c_task c t in
       Task (t_has_job x) (t_depends_on x) (t_run_after x) (t_invalidated_by x) [] (t_hidden x)) (c_inval c).

(** The tasks of [st2] have the same jobs, dependencies and invalidated_by lists as those of
    [st1], and no run_after or resource that those of [st1] do not have. *)
Definition fewer (st1 st2 : store) : Prop := forall t,
  let x := st_get st1 t in let y := st_get st2 t in
  t_has_job x = t_has_job y /\
  (forall d, In d (t_depends_on x) <-> In d (t_depends_on y)) /\
  (forall d, In d (t_run_after y) -> In d (t_run_after x)) /\
  (forall d, In d (t_invalidated_by x) <-> In d (t_invalidated_by y)) /\
  (forall r, In r (t_resources y) -> In r (t_resources x)).

(** A task that also needs resource [r]. *)
Definition add_resource (r : rid) (x : task) : task :=
  Task (t_has_job x) (t_depends_on x) (t_run_after x) (t_invalidated_by x)
       (t_resources x ++ [r]) (t_hidden x).
