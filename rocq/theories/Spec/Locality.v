(** What the fate of a task depends on (C102). *)
From Coq Require Import String Relations.
From Verif Require Import Model.Common Model.Records Model.Jobs Model.TaskSet Model.Dag
     Model.Sched Model.Exec Spec.Graph Spec.Tasks.
Open Scope list_scope.

(** [a] depends on [b] or lists it in invalidated_by. *)
Definition influenced_by (st : store) (a b : tid) : Prop :=
  In b (t_depends_on (st_get st a)) \/ In b (t_invalidated_by (st_get st a)).

(** What is behind task [t]: [t] and everything it is influenced by, however indirectly. *)
Definition behind (st : store) (t u : tid) : Prop := clos_refl_trans tid (influenced_by st) t u.

(** The relation [R] pairs nodes of two graphs that look the same from there on: what one
    requires (is invalidated by) corresponds to something the other one requires (is
    invalidated by), and the jobs of paired nodes give the same answer. *)
Record alike (c1 c2 : config) (R : nid -> nid -> Prop) : Prop := {
  al_req : forall n1 n2 m1, R n1 n2 -> requires (c_dag c1) n1 m1 ->
             exists m2, requires (c_dag c2) n2 m2 /\ R m1 m2;
  al_req' : forall n1 n2 m2, R n1 n2 -> requires (c_dag c2) n2 m2 ->
             exists m1, requires (c_dag c1) n1 m1 /\ R m1 m2;
  al_inv : forall n1 n2 m1, R n1 n2 -> inval_by (c_dag c1) n1 m1 ->
             exists m2, inval_by (c_dag c2) n2 m2 /\ R m1 m2;
  al_inv' : forall n1 n2 m2, R n1 n2 -> inval_by (c_dag c2) n2 m2 ->
             exists m1, inval_by (c_dag c1) n1 m1 /\ R m1 m2;
  al_job : forall n1 n2, R n1 n2 -> (job_invalidated c1 n1 <-> job_invalidated c2 n2)
}.
