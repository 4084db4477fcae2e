(** Building a graph (src/dag.cpp) when an allocation fails.  [k] is the number of nodes and
    edges that can still be allocated.  Other allocations (the keys and buckets of the two
    maps and the names, dag.cpp:60-66, 19, 25) happen between those of nodes and edges and
    do not touch the graph: a failure of one of them leaves the graph that a failure of
    the next node or edge leaves, or the complete graph if none is left to be allocated. *)
From Coq Require Import String.
From Verif Require Import Model.Common Model.TaskSet Model.Dag.
Open Scope nat_scope.
Open Scope list_scope.

(** Outcome: [k] further allocations possible and a result; std::bad_alloc with the graph
    left behind; or as in [build]. *)
Inductive tries (A : Type) :=
| Going (k : nat) (a : A)
| OutOfMemory (g : dag)
| TriesUB
| TriesFuel.
Arguments Going {A}. Arguments OutOfMemory {A}. Arguments TriesUB {A}. Arguments TriesFuel {A}.

Definition tbind {A B} (x : tries A) (f : nat -> A -> tries B) : tries B :=
  match x with
  | Going k a => f k a
  | OutOfMemory g => OutOfMemory g
  | TriesUB => TriesUB
  | TriesFuel => TriesFuel
  end.

(** bits/dag.hpp:180-184 graph::emplace, bits/list.hpp:215-222: the node is allocated before
    anything is linked. *)
Definition m_emplace (k : nat) (g : dag) (a : nid) (name : string) (t : tid) : tries dag :=
  match k with O => OutOfMemory g | S k' => Going k' (emplace g a name t) end.

(** dag.hpp:47-53 add_edge: the only allocation is that of the edge, before it is linked. *)
Definition m_add_edge (k : nat) (g : dag) (a b : nid) (e : ekind) : tries dag :=
  match k with O => OutOfMemory g | S k' => Going k' (add_edge g a b e) end.

(** dag.cpp:21-28 *)
Fixpoint m_dfs_deps (rec : tid -> nat -> bstate -> tries bstate) (addr : tid -> nid) (t : tid)
         (ds : list tid) (k : nat) (b : bstate) : tries bstate :=
  match ds with
  | [] => Going k b
  | d :: ds' =>
      tbind (rec d k b) (fun k b' =>
      tbind (m_add_edge k (b_dag b') (addr t) (addr d) AFTER) (fun k g =>
      tbind (m_add_edge k g (addr t) (addr d) REQUIRES) (fun k g =>
      tbind (m_add_edge k g (addr t) (addr d) INVALIDATED_BY) (fun k g =>
      m_dfs_deps rec addr t ds' k (BState g (b_index b') (b_added b'))))))
  end.

(** dag.cpp:15-29 dfs.  Line 19: the right-hand side, with emplace, is evaluated first. *)
Fixpoint m_dfs (fuel : nat) (st : store) (tmp : list (string * tid)) (addr : tid -> nid)
         (t : tid) (k : nat) (b : bstate) : tries bstate :=
  match fuel with
  | O => TriesFuel
  | S f =>
      if mem t (b_index b) then Going k b
      else if negb (mem t (st_dom st)) then TriesUB
      else
        let name := match tmp_get tmp t with Some n => n | None => EmptyString end in
        let added := match tmp_get tmp t with Some _ => b_added b | None => S (b_added b) end in
        tbind (m_emplace k (b_dag b) (addr t) name t) (fun k g =>
        m_dfs_deps (m_dfs f st tmp addr) addr t (t_depends_on (st_get st t)) k
                   (BState g (t :: b_index b) added))
  end.

(** dag.cpp:67-71 *)
Fixpoint m_dfs_all (fuel : nat) (st : store) (tmp : list (string * tid)) (addr : tid -> nid)
         (filt : string) (tmp' : list (string * tid)) (k : nat) (b : bstate) : tries bstate :=
  match tmp' with
  | [] => Going k b
  | (name, t) :: r =>
      if contains filt name
      then tbind (m_dfs fuel st tmp addr t k b) (fun k b' => m_dfs_all fuel st tmp addr filt r k b')
      else m_dfs_all fuel st tmp addr filt r k b
  end.

(** dag.cpp:74-83, one relation [e] of task [t] *)
Fixpoint m_opt_edges (index : list tid) (addr : tid -> nid) (t : tid) (e : ekind)
         (ds : list tid) (k : nat) (g : dag) : tries dag :=
  match ds with
  | [] => Going k g
  | d :: ds' =>
      if mem d index
      then tbind (m_add_edge k g (addr t) (addr d) e) (fun k g => m_opt_edges index addr t e ds' k g)
      else m_opt_edges index addr t e ds' k g
  end.

(** dag.cpp:73-84 *)
Fixpoint m_second (st : store) (index : list tid) (addr : tid -> nid) (l : list tid)
         (k : nat) (g : dag) : tries dag :=
  match l with
  | [] => Going k g
  | t :: r =>
      tbind (m_opt_edges index addr t AFTER (t_run_after (st_get st t)) k g) (fun k g =>
      tbind (m_opt_edges index addr t INVALIDATED_BY (t_invalidated_by (st_get st t)) k g) (fun k g =>
      m_second st index addr r k g))
  end.

(** dag.cpp:58-85 insert_set *)
Definition m_insert_set (k : nat) (g0 : dag) (st : store) (ts : task_set) (filt : string) (addr : tid -> nid)
           (ord1 : list (string * tid) -> list (string * tid))
           (ord2 : list tid -> list tid) : tries (dag * nat) :=
  let tmp := for_each_task ts in
  tbind (m_dfs_all (S (List.length (st_dom st))) st tmp addr filt (ord1 tmp) k (BState g0 [] 0)) (fun k b =>
  tbind (m_second st (b_index b) addr (ord2 (b_index b)) k (b_dag b)) (fun k g => Going k (g, b_added b))).
