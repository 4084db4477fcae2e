(** Vocabulary for filters. *)
From Coq Require Import String.
From Verif Require Import Model.Common Model.TaskSet Spec.Tasks.
Open Scope string_scope.
Open Scope list_scope.

(** The names of tasks and subsets are not empty and contain no slash. *)
Definition well_named (p : list string) : Prop := forall c, In c p -> c <> "" /\ has_slash c = false.
Definition all_well_named (ts : task_set) : Prop := forall p t, holds ts p t -> well_named p.
