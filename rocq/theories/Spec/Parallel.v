(** Vocabulary for the number of ticks an execution needs (C90). *)
From Coq Require Import Relations.
From Verif Require Import Model.Common Model.Records Model.Jobs Model.TaskSet Model.Dag Model.Sched Model.Exec
     Spec.Graph Spec.Trace.
Open Scope nat_scope.
Open Scope list_scope.

(** Polls that found the job of [n] still running. *)
Definition polls (tr : list event) (n : nid) : nat :=
  List.length (filter (fun e => match e with ETimeout m => m =? n | _ => false end) tr).

(** [t], or a task it transitively runs after, runs after [u] or shares a resource with it. *)
Definition held_up_by (c : config) (t u : nid) : Prop :=
  exists v, clos_refl_trans nid (runs_after (c_dag c)) t v /\
    (runs_after (c_dag c) v u \/ v <> u /\ exists r, In r (node_res c v) /\ In r (node_res c u)).

(** At some moment [u] was begun and [t] was not. *)
Definition begun_before (tr : list event) (u t : nid) : Prop :=
  exists p q, tr = p ++ q /\ task_begun p u /\ ~ task_begun p t.

(** A sequence of tasks, each held up by the next one, which was begun before it. *)
Fixpoint chain (c : config) (tr : list event) (l : list nid) : Prop :=
  match l with
  | t :: ((u :: _) as r) => held_up_by c t u /\ begun_before tr u t /\ chain c tr r
  | _ => True
  end.

(** The polls of the tasks of [l], including the last ones, which found the jobs ended. *)
Definition all_polls (tr : list event) (l : list nid) : nat := list_sum (map (fun n => S (polls tr n)) l).

(** A sequence of tasks, each transitively running after the next one. *)
Fixpoint in_sequence (d : dag) (l : list nid) : Prop :=
  match l with
  | t :: ((u :: _) as r) => clos_trans nid (runs_after d) t u /\ in_sequence d r
  | _ => True
  end.
