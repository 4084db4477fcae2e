(** When threads can be missing. *)
From Coq Require Import Relations.
From Verif Require Import Model.Common Model.Records Model.Jobs Model.TaskSet Model.Dag
     Model.Sched Model.Exec Spec.Graph Spec.Trace Spec.Machine.
Open Scope nat_scope.
Open Scope list_scope.

(** [n] was begun, and its record is not made yet. *)
Definition under_way (tr : list event) (n : nid) : Prop := task_begun tr n /\ ~ recorded tr n.

(** Nothing but threads can keep [n] from being begun: it was not begun, what it runs after
    is recorded, and no task under way needs one of its resources. *)
Definition could_begin (c : config) (tr : list event) (n : nid) : Prop :=
  In n (node_ids (c_dag c)) /\ ~ task_begun tr n /\
  (forall m, runs_after (c_dag c) n m -> recorded tr m) /\
  (forall m, under_way tr m -> no_shared_resource c n m).

(** Whenever some task could begin, fewer than [k] tasks are under way. *)
Definition enough_for (c : config) (tr : list event) (k : nat) : Prop :=
  forall pre post n l, tr = pre ++ post -> could_begin c pre n ->
    NoDup l -> (forall m, In m l -> under_way pre m) -> List.length l < k.

(** Neither runs after the other, however indirectly, nor do they share a resource. *)
Definition apart (c : config) (a b : nid) : Prop :=
  ~ clos_trans nid (runs_after (c_dag c)) a b /\ ~ clos_trans nid (runs_after (c_dag c)) b a /\
  no_shared_resource c a b.

(** No more than [k] tasks are apart from each other. *)
Definition width_at_most (c : config) (k : nat) : Prop :=
  forall l, NoDup l -> incl l (node_ids (c_dag c)) ->
    (forall a b, In a l -> In b l -> a <> b -> apart c a b) -> List.length l <= k.
