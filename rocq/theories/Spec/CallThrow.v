(** Calls that may run out of memory, and functions that may throw (C113). *)
From Coq Require Import String.
From Verif Require Import Model.Common Model.TaskSet Model.CallThrow Spec.Tasks Spec.Calls.
Open Scope list_scope.

(** From the state [a], the function was called for the tasks of [l], one after another, and
    each call returned; names were made in between.  Now the state is [b]. *)
Inductive called {A} (alloc : A -> option A) (f : string -> tid -> A -> ended A) : list (string * tid) -> A -> A -> Prop :=
| called_none a : called alloc f [] a a
| called_name l a b b' : called alloc f l a b -> alloc b = Some b' -> called alloc f l a b'
| called_next l a b name t b' : called alloc f l a b -> f name t b = Returned b' -> called alloc f (l ++ [(name, t)]) a b'.

(** One call of a helper; [fails i]: there is no memory the i-th time it is needed. *)
Definition try_call (fails : nat -> bool) (st : store) (c : call) : ended (nat * store) :=
  match c with
  | ForEachAddDep ts dep => x_for_each_add_dep fails st ts dep
  | AddDepToEach t ts => x_add_dep_to_each fails st t ts
  | RunEachAfter ts t => x_run_each_after fails st ts t
  | RunAfterAllOf t ts => x_run_after_all_of fails st t ts
  | InvalidatedByAllOf t ts => x_invalidated_by_all_of fails st t ts
  end.

(** The call was tried any number of times and threw each time. *)
Inductive tried_in_vain (c : call) : store -> store -> Prop :=
| vain_none st : tried_in_vain c st st
| vain_more st fails i st1 st2 :
    try_call fails st c = Threw (i, st1) -> tried_in_vain c st1 st2 -> tried_in_vain c st st2.
