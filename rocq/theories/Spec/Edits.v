(** Graphs made and changed by hand, before they are given to exec( dag, ... ). *)
From Coq Require Import String.
From Verif Require Import Model.Common Model.TaskSet Model.Dag Model.Heap Model.Sched Model.Exec
     Spec.Graph Spec.Lists.
Open Scope nat_scope.
Open Scope list_scope.

(** What a client can do with a graph: graph::emplace, add_edge, graph::clear_if. *)
Inductive edit := Made (c : call) | Removed (f : nid -> bool).
Definition apply_edit (d : dag) (e : edit) : dag :=
  match e with Made c => apply_call d c | Removed f => remove_nodes d f end.

(** A new node is at an address where no node of the graph is; an edge connects two nodes
    of the graph. *)
Definition may_edit (d : dag) (e : edit) : Prop :=
  match e with
  | Made (Emplace a _ _) => ~ In a (node_ids d)
  | Made (AddEdge s t _) => In s (node_ids d) /\ In t (node_ids d)
  | Removed _ => True
  end.
Inductive edited : dag -> list edit -> dag -> Prop :=
| ed_nil d : edited d [] d
| ed_cons d e es d' : may_edit d e -> edited (apply_edit d e) es d' -> edited d (e :: es) d'.

(** The same on graph [g] in memory; [ea i] is the address of the i-th new edge. *)
Fixpoint edits_in_memory (g : nat) (ea : nat -> nat) (i : nat) (es : list edit) : list gop :=
  match es with
  | [] => []
  | Made (Emplace a name t) :: r => GEmplace g a name t :: edits_in_memory g ea i r
  | Made (AddEdge s t k) :: r => GAddEdge (ea i) (Edge s t k) :: edits_in_memory g ea (S i) r
  | Removed f :: r => GClearIf g f :: edits_in_memory g ea i r
  end.

(** The execution [c] after the nodes selected by [f] were removed from its graph. *)
Definition trimmed (c : config) (f : nid -> bool) : config :=
  Config (remove_nodes (c_dag c) f) (c_threads c) (c_task c) (c_inval c).
(** The execution [c] after an edge was added to its graph. *)
Definition joined (c : config) (a b : nid) (k : ekind) : config :=
  Config (add_edge (c_dag c) a b k) (c_threads c) (c_task c) (c_inval c).
