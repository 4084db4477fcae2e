(** Programs that call the bulk helpers of task.hpp any number of times (C20, C104). *)
From Coq Require Import String.
From Verif Require Import Model.Common Model.TaskSet Spec.Tasks.
Open Scope list_scope.

Inductive call :=
| ForEachAddDep (ts : task_set) (dep : tid)
| AddDepToEach (t : tid) (ts : task_set)
| RunEachAfter (ts : task_set) (t : tid)
| RunAfterAllOf (t : tid) (ts : task_set)
| InvalidatedByAllOf (t : tid) (ts : task_set).

Definition do_call (st : store) (c : call) : store :=
  match c with
  | ForEachAddDep ts dep => for_each_add_dep st ts dep
  | AddDepToEach t ts => add_dep_to_each st t ts
  | RunEachAfter ts t => run_each_after st ts t
  | RunAfterAllOf t ts => run_after_all_of st t ts
  | InvalidatedByAllOf t ts => invalidated_by_all_of st t ts
  end.

Definition call_set (c : call) : task_set :=
  match c with
  | ForEachAddDep ts _ | AddDepToEach _ ts | RunEachAfter ts _ | RunAfterAllOf _ ts
  | InvalidatedByAllOf _ ts => ts
  end.

(** [t] is somewhere in [ts]. *)
Definition inside (ts : task_set) (t : tid) : Prop := exists p, holds ts p t.

(** What a call says, as documented: that [a] is to depend on [b], to run after [b], to be
    invalidated by [b].  No task is related to itself. *)
Definition says_dep (c : call) (a b : tid) : Prop :=
  a <> b /\ match c with
            | ForEachAddDep ts dep => inside ts a /\ b = dep
            | AddDepToEach t ts => a = t /\ inside ts b
            | _ => False
            end.
Definition says_after (c : call) (a b : tid) : Prop :=
  a <> b /\ match c with
            | RunEachAfter ts t => inside ts a /\ b = t
            | RunAfterAllOf t ts => a = t /\ inside ts b
            | _ => False
            end.
Definition says_inval (c : call) (a b : tid) : Prop :=
  a <> b /\ match c with
            | InvalidatedByAllOf t ts => a = t /\ inside ts b
            | _ => False
            end.
