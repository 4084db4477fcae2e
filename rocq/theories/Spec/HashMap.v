(** What an unordered map may do to a loop over it when an element is inserted. *)
From Coq Require Import String.
From Verif Require Import Model.Common Model.TaskSet.
Open Scope list_scope.

(** The elements a loop has yet to meet are [l]; the map puts the new element [x] among those
    the loop has met, or anywhere among the others, and leaves the order of the others. *)
Definition placed (place : list (string * tid) -> string * tid -> list (string * tid)) : Prop :=
  forall l x, place l x = l \/ exists a b, l = a ++ b /\ place l x = a ++ x :: b.
