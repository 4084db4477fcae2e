(** Vocabulary for graphs, used in the statements of the properties. *)
From Coq Require Export Relations.
From Verif Require Import Model.Common Model.TaskSet Model.Dag Model.Sched Model.Exec.

(** [a] is to run after [b] / requires [b] / is invalidated by [b] *)
Definition runs_after (d : dag) (a b : nid) : Prop := In (Edge a b AFTER) (d_edges d).
Definition requires (d : dag) (a b : nid) : Prop := In (Edge a b REQUIRES) (d_edges d).
Definition inval_by (d : dag) (a b : nid) : Prop := In (Edge a b INVALIDATED_BY) (d_edges d).

(** The number of invalidated-by edges from [a] to [b] *)
Definition inval_edges (d : dag) (a b : nid) : nat :=
  List.length (filter (fun e => (e_src e =? a) && (e_tgt e =? b) && ekind_eqb (e_kind e) INVALIDATED_BY)
                      (d_edges d)).

(** Distinct nodes have distinct addresses, and the edges connect nodes of the
    graph.  (A graph is made with graph::emplace and add_edge on its own nodes.) *)
Definition wf_dag (d : dag) : Prop :=
  NoDup (node_ids d) /\
  forall e, In e (d_edges d) -> In (e_src e) (node_ids d) /\ In (e_tgt e) (node_ids d).

Definition has_after_cycle (d : dag) : Prop := exists n, clos_trans nid (runs_after d) n n.
Definition acyclic (d : dag) : Prop := ~ has_after_cycle d.

(** Every requires edge is accompanied by a run-after edge. *)
Definition requires_after (d : dag) : Prop :=
  forall a b, requires d a b -> runs_after d a b.

(** The job of [n] itself says it is invalidated. *)
Definition job_invalidated (c : config) (n : nid) : Prop :=
  exists log, c_inval c n = IvRet true log.

(** [n] is invalidated: its job says so, or the job of a node reachable over
    invalidated-by edges does. *)
Definition Invalidated (c : config) (n : nid) : Prop :=
  exists m, clos_refl_trans nid (inval_by (c_dag c)) n m /\ job_invalidated c m.

(** A duplicate-free list of nodes, each running after the next one and the last
    after the first. *)
Fixpoint chain (R : nid -> nid -> Prop) (x : nid) (l : list nid) : Prop :=
  match l with
  | [] => True
  | y :: r => R x y /\ chain R y r
  end.
(** [x] and [r] in a row, each of which runs after the next one and nothing else. *)
Fixpoint only_chain (d : dag) (x : nid) (r : list nid) : Prop :=
  match r with
  | [] => True
  | y :: r' => (forall m, runs_after d x m <-> m = y) /\ only_chain d y r'
  end.
Definition is_cycle (d : dag) (l : list nid) : Prop :=
  match l with
  | [] => False
  | x :: r => NoDup l /\ chain (runs_after d) x r /\ runs_after d (last l x) x
  end.

(** What [n] is to run after, in the order in which the edges were added. *)
Definition after_list (d : dag) (n : nid) : list nid :=
  map e_tgt (filter (fun e => (e_src e =? n) && match e_kind e with AFTER => true | _ => false end)
                    (d_edges d)).

(** Starting at [n], go on to the first node it is to run after that is not among [p],
    again and again, until there is none: this leads to [m]. *)
Inductive descends (d : dag) (p : list nid) : nid -> nid -> Prop :=
| desc_here n : incl (after_list d n) p -> descends d p n n
| desc_down n a k b m : after_list d n = a ++ k :: b -> incl a p -> ~ In k p ->
    descends d p k m -> descends d p n m.

(** The number of edges of a kind. *)
Definition edges_of (d : dag) (k : ekind) : nat :=
  List.length (filter (fun e => ekind_eqb (e_kind e) k) (d_edges d)).
