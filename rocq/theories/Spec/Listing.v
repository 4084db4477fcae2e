(** The names a line "runs after" should list. *)
From Coq Require Import String.
From Verif Require Import Model.Common Model.TaskSet Model.Dag Model.Sched Model.Exec.
Open Scope nat_scope.
Open Scope list_scope.

(** For each run-after edge of node [n] the name of the node it leads to. *)
Definition after_names (d : dag) (n : nid) : list string :=
  map (fun e => node_name d (e_tgt e)) (filter (fun e => (e_src e =? n) && ekind_eqb (e_kind e) AFTER) (d_edges d)).

