(** Declarations that say the same (C104). *)
From Coq Require Import String Relations.
From Verif Require Import Model.Common Model.Records Model.Jobs Model.TaskSet Model.Dag
     Model.Sched Model.Exec Spec.Graph Spec.Tasks.
Open Scope list_scope.

(** What follows from [R] and what follows from [S] is the same. *)
Definition same_closure {A} (R S : A -> A -> Prop) : Prop :=
  forall a b, clos_trans A R a b <-> clos_trans A S a b.

(** Two graphs with the same nodes, jobs, resources and threads, whose edges of each kind
    say the same when followed all the way: edges may be listed any number of times, in any
    order, and edges that follow from others may be there or not. *)
Record same_meaning (c1 c2 : config) : Prop := {
  sm_nodes : forall n, In n (node_ids (c_dag c1)) <-> In n (node_ids (c_dag c2));
  sm_after : same_closure (runs_after (c_dag c1)) (runs_after (c_dag c2));
  sm_req : same_closure (requires (c_dag c1)) (requires (c_dag c2));
  sm_inval : same_closure (inval_by (c_dag c1)) (inval_by (c_dag c2));
  sm_job : forall n, In n (node_ids (c_dag c1)) -> node_has_job c1 n = node_has_job c2 n;
  sm_answer : forall n, In n (node_ids (c_dag c1)) -> c_inval c1 n = c_inval c2 n;
  sm_res : forall n r, In n (node_ids (c_dag c1)) -> (In r (node_res c1 n) <-> In r (node_res c2 n));
  sm_threads : c_threads c1 = c_threads c2
}.

(** Two stores with the same jobs and resources, whose dependencies, run_after lists and
    invalidated_by lists say the same of the selected tasks when followed all the way. *)
Record same_declarations (st1 st2 : store) (ts : task_set) (filt : string) : Prop := {
  sd_job : forall t, selected st1 ts filt t -> t_has_job (st_get st1 t) = t_has_job (st_get st2 t);
  sd_res : forall t r, selected st1 ts filt t ->
             (In r (t_resources (st_get st1 t)) <-> In r (t_resources (st_get st2 t)));
  sd_dep : same_closure (depends_on st1) (depends_on st2);
  sd_after : same_closure (selected_after st1 ts filt) (selected_after st2 ts filt);
  sd_inval : same_closure (selected_inval st1 ts filt) (selected_inval st2 ts filt)
}.

(** The graph with one more edge. *)
Definition with_edge (c : config) (a b : nid) (k : ekind) : config :=
  Config (add_edge (c_dag c) a b k) (c_threads c) (c_task c) (c_inval c).

(** Two stores whose tasks list the same, in any order and any number of times. *)
Definition same_lists (st1 st2 : store) : Prop := forall t,
  let x := st_get st1 t in let y := st_get st2 t in
  t_has_job x = t_has_job y /\
  (forall d, In d (t_depends_on x) <-> In d (t_depends_on y)) /\
  (forall d, In d (t_run_after x) <-> In d (t_run_after y)) /\
  (forall d, In d (t_invalidated_by x) <-> In d (t_invalidated_by y)) /\
  (forall r, In r (t_resources x) <-> In r (t_resources y)).
