(** include/joque/dag.hpp, src/dag.cpp *)
From Coq Require Import String.
From Verif Require Import Model.Common Model.TaskSet.
Open Scope string_scope.
Open Scope nat_scope.
Open Scope list_scope.

(** dag.hpp:21-29 *)
Inductive ekind := AFTER | INVALIDATED_BY | REQUIRES.
Definition ekind_eqb (a b : ekind) : bool :=
  match a, b with
  | AFTER, AFTER | INVALIDATED_BY, INVALIDATED_BY | REQUIRES, REQUIRES => true
  | _, _ => false
  end.

(** dag.hpp:33-38 edge_content *)
Record edge := Edge { e_src : nid; e_tgt : nid; e_kind : ekind }.

(** dag.hpp:64-81 node_content, the parts fixed at construction (the mutable
    flags are [Sched.nstate]), with the node's address. *)
Record dnode := DNode { n_id : nid; n_name : string; n_task : tid }.

(** dag.hpp:85 dag.  Nodes front first (graph::emplace is emplace_front,
    bits/dag.hpp:180-184).  All edges in one list, most recently added first: both
    the out-list of the source and the in-list of the target are extended at the
    front by [add_edge] (dag.hpp:48-54), so each of them is the sublist of this list
    with that source / target, in this order.  Model/Heap.v models the pointer
    structure itself. *)
Record dag := Dag { d_nodes : list dnode; d_edges : list edge }.
Definition dag0 : dag := Dag [] [].

(** The addresses of the nodes, in iteration order (exec.cpp:299). *)
Definition node_ids (d : dag) : list nid := map n_id (d_nodes d).

(** bits/dag.hpp:113-131 out_edges(), in_edges() *)
Definition out_edges (d : dag) (n : nid) : list edge :=
  filter (fun e => e_src e =? n) (d_edges d).
Definition in_edges (d : dag) (n : nid) : list edge :=
  filter (fun e => e_tgt e =? n) (d_edges d).

(** dag.hpp:40-46 filter_edges *)
Definition filter_edges (k : ekind) (es : list edge) : list edge :=
  filter (fun e => ekind_eqb (e_kind e) k) es.

(** bits/dag.hpp:180-184 graph::emplace; the new node's address is an argument *)
Definition emplace (d : dag) (a : nid) (name : string) (t : tid) : dag :=
  Dag (DNode a name t :: d_nodes d) (d_edges d).

(** dag.hpp:48-54 add_edge *)
Definition add_edge (d : dag) (s t : nid) (k : ekind) : dag :=
  Dag (d_nodes d) (Edge s t k :: d_edges d).

(** bits/dag.hpp:175-178 graph::clear_if: the nodes selected by [f] are deleted; their edge
    lists delete the edges from and to them (list.hpp:241-246, 359-373), which unlink
    themselves from the lists of the other nodes.  The deletions one by one are in
    Model/Heap.v [g_clear_if]. *)
Definition remove_nodes (d : dag) (f : nid -> bool) : dag :=
  Dag (filter (fun x => negb (f (n_id x))) (d_nodes d))
      (filter (fun e => negb (f (e_src e)) && negb (f (e_tgt e))) (d_edges d)).

(** [n.find( filter ) != npos] (dag.cpp:68) *)
Fixpoint contains (pat s : string) : bool :=
  prefix pat s ||
  match s with
  | EmptyString => false
  | String _ s' => contains pat s'
  end.

(** Outcome of building a graph. *)
Inductive build (A : Type) :=
| Built (a : A)
| BuildUB          (* a reference to a destroyed task was followed *)
| BuildFuel.       (* the recursion bound of the model was hit; shown impossible *)
Arguments Built {A}. Arguments BuildUB {A}. Arguments BuildFuel {A}.

(** State threaded through [dfs]: the graph, the keys of [index] (most recent
    first; the value of key t is the node at address [addr t]), and the number of
    new keys [tmp[&t]] inserted into [tmp] while [insert_set] iterates over it
    (dag.cpp:19 with 67).  Such an insertion rehashes, and so invalidates the
    iterator of the running loop, when the map outgrows its buckets; the model goes
    on as if it did not and keeps the number.  (Without a rehash a new key may be
    met later in the loop; its [dfs] then returns at once, the task being indexed.) *)
Record bstate := BState { b_dag : dag; b_index : list tid; b_added : nat }.

(** The name [tmp[&t]]: the first name emplaced for t (emplace does not
    overwrite), or a fresh empty string. *)
Fixpoint tmp_get (tmp : list (string * tid)) (t : tid) : option string :=
  match tmp with
  | [] => None
  | (name, t') :: r => if t' =? t then Some name else tmp_get r t
  end.

(** dag.cpp:21-28, the loop over the dependencies of [t]; [rec] is [dfs]. *)
Fixpoint dfs_deps (rec : tid -> bstate -> build bstate) (addr : tid -> nid) (t : tid)
         (ds : list tid) (b : bstate) : build bstate :=
  match ds with
  | [] => Built b
  | d :: ds' =>
      match rec d b with
      | Built b' =>
          let g := add_edge (b_dag b') (addr t) (addr d) AFTER in
          let g := add_edge g (addr t) (addr d) REQUIRES in
          let g := add_edge g (addr t) (addr d) INVALIDATED_BY in
          dfs_deps rec addr t ds' (BState g (b_index b') (b_added b'))
      | r => r
      end
  end.

(** dag.cpp:15-29 dfs.  [addr] is the address the allocator gives to the node of
    a task.  Recursion bound: explicit fuel. *)
Fixpoint dfs (fuel : nat) (st : store) (tmp : list (string * tid)) (addr : tid -> nid)
         (t : tid) (b : bstate) : build bstate :=
  match fuel with
  | O => BuildFuel
  | S f =>
      if mem t (b_index b) then Built b
      else if negb (mem t (st_dom st)) then BuildUB
      else
        let name := match tmp_get tmp t with Some n => n | None => EmptyString end in
        let added := match tmp_get tmp t with Some _ => b_added b | None => S (b_added b) end in
        dfs_deps (dfs f st tmp addr) addr t (t_depends_on (st_get st t))
                 (BState (emplace (b_dag b) (addr t) name t) (t :: b_index b) added)
  end.

(** dag.cpp:67-71, the loop over [tmp]; [tmp'] is [tmp] in the iteration order of
    the hash map. *)
Fixpoint dfs_all (fuel : nat) (st : store) (tmp : list (string * tid)) (addr : tid -> nid)
         (filt : string) (tmp' : list (string * tid)) (b : bstate) : build bstate :=
  match tmp' with
  | [] => Built b
  | (name, t) :: r =>
      if contains filt name then
        match dfs fuel st tmp addr t b with
        | Built b' => dfs_all fuel st tmp addr filt r b'
        | e => e
        end
      else dfs_all fuel st tmp addr filt r b
  end.

(** dag.cpp:74-83, body of the second loop for one relation [k] of task [t]. *)
Definition add_opt_edges (index : list tid) (addr : tid -> nid) (t : tid) (k : ekind)
           (ds : list tid) (g : dag) : dag :=
  fold_left (fun g d => if mem d index then add_edge g (addr t) (addr d) k else g) ds g.

(** dag.cpp:58-85 insert_set.  [ord1], [ord2] give the iteration orders of the hash
    maps [tmp] and [index].  Returns the graph and the number of keys inserted into
    [tmp] during the loop over it. *)
Definition insert_set (g0 : dag) (st : store) (ts : task_set) (filt : string) (addr : tid -> nid)
           (ord1 : list (string * tid) -> list (string * tid))
           (ord2 : list tid -> list tid) : build (dag * nat) :=
  let tmp := for_each_task ts in
  match dfs_all (S (List.length (st_dom st))) st tmp addr filt (ord1 tmp)
                (BState g0 [] 0) with
  | Built b =>
      let g :=
        fold_left
          (fun g t =>
             let g := add_opt_edges (b_index b) addr t AFTER (t_run_after (st_get st t)) g in
             add_opt_edges (b_index b) addr t INVALIDATED_BY (t_invalidated_by (st_get st t)) g)
          (ord2 (b_index b)) (b_dag b) in
      Built (g, b_added b)
  | BuildUB => BuildUB
  | BuildFuel => BuildFuel
  end.
