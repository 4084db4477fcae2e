(** What lists and graphs in memory stand for: sequences.  Independent of how they are
    represented. *)
From Coq Require Import String.
From Verif Require Import Model.Common Model.TaskSet Model.Dag Model.Heap.
Open Scope nat_scope.
Open Scope list_scope.

(** * Lists *)

(** The list objects that exist, each with its elements in order, and the nodes that exist
    and are in no list. *)
Record world := World { w_lists : nat -> option (list nat); w_loose : list nat }.
Definition world0 : world := World (fun _ => None) [].

(** What a client can do: create a list or a node of its own, emplace_front, link_front,
    delete a node, clear_if, destroy a list, move a list into a new one, assign. *)
Inductive lop :=
| NewList (l : nat)
| NewNode (n : nat)
| EmplaceFront (l n : nat)
| LinkFront (l n : nat)
| Delete (n : nat)
| ClearIf (l : nat) (f : nat -> bool)
| DestroyList (l : nat)
| MoveNew (this other : nat)
| MoveAssign (this other : nat).

Definition in_list (w : world) (n l : nat) : Prop :=
  match w_lists w l with Some xs => In n xs | None => False end.
Definition node_exists (w : world) (n : nat) : Prop := In n (w_loose w) \/ exists l, in_list w n l.

Definition remove_node (n : nat) (xs : list nat) : list nat := filter (fun x => negb (x =? n)) xs.

(** What each operation does to the sequences, given that the client may call it: new
    objects get addresses not in use, lists and nodes used exist, link_front is given a
    node that is in no list, and the target of an assignment is empty. *)
Inductive does : world -> lop -> world -> Prop :=
| D_NewList w l : w_lists w l = None ->
    does w (NewList l) (World (put (w_lists w) l (Some [])) (w_loose w))
| D_NewNode w n : ~ node_exists w n ->
    does w (NewNode n) (World (w_lists w) (n :: w_loose w))
| D_EmplaceFront w l n xs : w_lists w l = Some xs -> ~ node_exists w n ->
    does w (EmplaceFront l n) (World (put (w_lists w) l (Some (n :: xs))) (w_loose w))
| D_LinkFront w l n xs : w_lists w l = Some xs -> In n (w_loose w) ->
    does w (LinkFront l n) (World (put (w_lists w) l (Some (n :: xs))) (remove_node n (w_loose w)))
| D_Delete w n : node_exists w n ->
    does w (Delete n) (World (fun l => option_map (remove_node n) (w_lists w l)) (remove_node n (w_loose w)))
| D_ClearIf w l f xs : w_lists w l = Some xs ->
    does w (ClearIf l f) (World (put (w_lists w) l (Some (filter (fun x => negb (f x)) xs))) (w_loose w))
| D_DestroyList w l xs : w_lists w l = Some xs ->
    does w (DestroyList l) (World (put (w_lists w) l None) (w_loose w))
| D_MoveNew w this other xs : w_lists w this = None -> w_lists w other = Some xs ->
    does w (MoveNew this other)
         (World (put (put (w_lists w) other (Some [])) this (Some xs)) (w_loose w))
| D_MoveAssign w this other xs : this <> other -> w_lists w this = Some [] -> w_lists w other = Some xs ->
    does w (MoveAssign this other)
         (World (put (put (w_lists w) other (Some [])) this (Some xs)) (w_loose w))
| D_MoveSelf w l xs : w_lists w l = Some xs -> does w (MoveAssign l l) w.

Inductive does_all : world -> list lop -> world -> Prop :=
| DA_nil w : does_all w [] w
| DA_cons w op w1 ops w2 : does w op w1 -> does_all w1 ops w2 -> does_all w (op :: ops) w2.

(** The same operations in memory. *)
Definition run_op (fuel : nat) (h : heap) (op : lop) : res heap :=
  match op with
  | NewList l => hdr_new h (HL l)
  | NewNode n => hdr_new h (HN n)
  | EmplaceFront l n => l_emplace_front h l n
  | LinkFront l n => l_link_front h l n
  | Delete n => plain_del n h
  | ClearIf l f => l_clear_if fuel h l f
  | DestroyList l => l_destroy fuel h l
  | MoveNew this other => l_move_new h this other
  | MoveAssign this other => l_move_assign h this other
  end.
Fixpoint run_ops (fuel : nat) (h : heap) (ops : list lop) : res heap :=
  match ops with
  | [] => Ok h
  | op :: r => bind (run_op fuel h op) (fun h1 => run_ops fuel h1 r)
  end.
Definition heap0 : heap := fun _ => None.

(** What can be observed of list [l] holding [xs]: iteration, empty(), front(), steps of
    an iterator in both directions. *)
Definition shows (fuel : nat) (h : heap) (l : nat) (xs : list nat) : Prop :=
  l_elements fuel h l = Ok xs /\
  l_empty h l = Ok (match xs with [] => true | _ => false end) /\
  (forall x r, xs = x :: r -> l_front h l = Ok x /\ it_prev h (Some x) = Ok None) /\
  (forall a x y b, xs = a ++ x :: y :: b ->
     it_next h (Some x) = Ok (Some y) /\ it_prev h (Some y) = Ok (Some x)) /\
  (forall a x, xs = a ++ [x] -> it_next h (Some x) = Ok None).

(** * Graphs *)

(** Graph objects with their nodes, and the edges that exist, newest first, with their
    addresses. *)
Record graphs := Graphs { gr_nodes : nat -> option (list dnode); gr_edges : list (nat * edge) }.
Definition graphs0 : graphs := Graphs (fun _ => None) [].
Definition node_in (w : graphs) (n : nat) : Prop :=
  exists g ns, gr_nodes w g = Some ns /\ In n (map n_id ns).

Inductive gop :=
| GNew (g : nat)
| GEmplace (g n : nat) (name : string) (t : tid)
| GAddEdge (e : nat) (x : edge)
| GClearIf (g : nat) (f : nat -> bool)
| GDestroy (g : nat)
| GMoveNew (this other : nat)
| GMoveAssign (this other : nat).

(** The edges with no endpoint among [dead]. *)
Definition without (dead : nat -> bool) (es : list (nat * edge)) : list (nat * edge) :=
  filter (fun p => negb (dead (e_src (snd p)) || dead (e_tgt (snd p)))) es.
Definition among (ns : list dnode) (n : nat) : bool := existsb (fun x => n_id x =? n) ns.

Inductive gdoes : graphs -> gop -> graphs -> Prop :=
| GD_New w g : gr_nodes w g = None ->
    gdoes w (GNew g) (Graphs (put (gr_nodes w) g (Some [])) (gr_edges w))
| GD_Emplace w g n name t ns : gr_nodes w g = Some ns -> ~ node_in w n ->
    gdoes w (GEmplace g n name t) (Graphs (put (gr_nodes w) g (Some (DNode n name t :: ns))) (gr_edges w))
| GD_AddEdge w e x : ~ In e (map fst (gr_edges w)) -> node_in w (e_src x) -> node_in w (e_tgt x) ->
    gdoes w (GAddEdge e x) (Graphs (gr_nodes w) ((e, x) :: gr_edges w))
| GD_ClearIf w g f ns : gr_nodes w g = Some ns ->
    gdoes w (GClearIf g f)
      (Graphs (put (gr_nodes w) g (Some (filter (fun x => negb (f (n_id x))) ns)))
              (without (fun n => among ns n && f n) (gr_edges w)))
| GD_Destroy w g ns : gr_nodes w g = Some ns ->
    gdoes w (GDestroy g) (Graphs (put (gr_nodes w) g None) (without (among ns) (gr_edges w)))
| GD_MoveNew w this other ns : gr_nodes w this = None -> gr_nodes w other = Some ns ->
    gdoes w (GMoveNew this other) (Graphs (put (put (gr_nodes w) other (Some [])) this (Some ns)) (gr_edges w))
| GD_MoveAssign w this other ns : this <> other -> gr_nodes w this = Some [] -> gr_nodes w other = Some ns ->
    gdoes w (GMoveAssign this other) (Graphs (put (put (gr_nodes w) other (Some [])) this (Some ns)) (gr_edges w))
| GD_MoveSelf w g ns : gr_nodes w g = Some ns -> gdoes w (GMoveAssign g g) w.

Inductive gdoes_all : graphs -> list gop -> graphs -> Prop :=
| GDA_nil w : gdoes_all w [] w
| GDA_cons w op w1 ops w2 : gdoes w op w1 -> gdoes_all w1 ops w2 -> gdoes_all w (op :: ops) w2.

Definition run_gop (fuel : nat) (m : gmem) (op : gop) : res gmem :=
  match op with
  | GNew g => g_new m g
  | GEmplace g n name t => g_emplace m g n name t
  | GAddEdge e x => g_add_edge m e x
  | GClearIf g f => g_clear_if fuel m g f
  | GDestroy g => g_destroy fuel m g
  | GMoveNew this other => g_move_new m this other
  | GMoveAssign this other => g_move_assign m this other
  end.
Fixpoint run_gops (fuel : nat) (m : gmem) (ops : list gop) : res gmem :=
  match ops with
  | [] => Ok m
  | op :: r => bind (run_gop fuel m op) (fun m1 => run_gops fuel m1 r)
  end.

(** What can be observed of the graphs, and that nothing else exists. *)
Definition gshows (fuel : nat) (m : gmem) (w : graphs) : Prop :=
  (forall g ns, gr_nodes w g = Some ns ->
     g_elements fuel m g = Ok (map n_id ns) /\
     forall x, In x ns ->
       m_node m (n_id x) = Some (n_name x, n_task x) /\
       n_out_edges fuel m (n_id x) = Ok (map fst (filter (fun p => e_src (snd p) =? n_id x) (gr_edges w))) /\
       n_in_edges fuel m (n_id x) = Ok (map fst (filter (fun p => e_tgt (snd p) =? n_id x) (gr_edges w)))) /\
  (forall e x, m_edge m e = Some x <-> In (e, x) (gr_edges w)) /\
  (forall n, m_node m n <> None <-> node_in w n) /\
  (forall g, gr_nodes w g = None <-> m_nodes m (HL g) = None).

(** * Building a graph call by call *)

(** The calls that build a graph: graph::emplace and add_edge. *)
Inductive call := Emplace (a : nat) (name : string) (t : tid) | AddEdge (s t : nat) (k : ekind).
Definition apply_call (d : dag) (c : call) : dag :=
  match c with Emplace a name t => emplace d a name t | AddEdge s t k => add_edge d s t k end.

(** The same calls on graph [g] in memory; [ea i] is the address of the i-th new edge. *)
Fixpoint in_memory (g : nat) (ea : nat -> nat) (i : nat) (cs : list call) : list gop :=
  match cs with
  | [] => []
  | Emplace a name t :: r => GEmplace g a name t :: in_memory g ea i r
  | AddEdge s t k :: r => GAddEdge (ea i) (Edge s t k) :: in_memory g ea (S i) r
  end.

(** Graph [g] in memory, seen through iteration over its nodes and their edge lists, is [d];
    and no other node or edge exists. *)
Definition holds_graph (fuel : nat) (m : gmem) (g : nat) (d : dag) : Prop :=
  g_elements fuel m g = Ok (node_ids d) /\
  (forall x, In x (d_nodes d) ->
     m_node m (n_id x) = Some (n_name x, n_task x) /\
     (exists es, n_out_edges fuel m (n_id x) = Ok es /\ map (m_edge m) es = map Some (out_edges d (n_id x))) /\
     (exists es, n_in_edges fuel m (n_id x) = Ok es /\ map (m_edge m) es = map Some (in_edges d (n_id x)))) /\
  (forall n, m_node m n <> None <-> In n (node_ids d)) /\
  (forall e x, m_edge m e = Some x -> In x (d_edges d)).

(** No node, no edge and no list header exists. *)
Definition all_freed (m : gmem) : Prop :=
  (forall n, m_node m n = None) /\ (forall e, m_edge m e = None) /\
  (forall k, m_nodes m k = None) /\ (forall k, m_out m k = None) /\ (forall k, m_in m k = None).

(** The contents of edge [e] satisfy [f]. *)
Definition ebool (m : gmem) (e : nat) (f : edge -> bool) : bool :=
  match m_edge m e with Some x => f x | None => false end.

(** Addresses of nodes and headers: not null, at least 2-aligned, 64 bits. *)
Definition address (a : N) : Prop := (a <> 0 /\ N.even a = true /\ a < 2 ^ 64)%N.

(** Where the nodes [ns] and headers [ks] are in memory: [na n] is the address of node [n],
    [ha k] that of header [k].  Different objects of one kind have different addresses, and
    the accessor [acc] finds the header in a node. *)
Definition layout (ns : list nat) (ks : list hid) (na : nat -> N) (ha : hid -> N) (acc : N -> N) : Prop :=
  (forall n, In n ns -> address (na n) /\ In (HN n) ks /\ acc (na n) = ha (HN n)) /\
  (forall k, In k ks -> address (ha k)) /\
  (forall n m, In n ns -> In m ns -> na n = na m -> n = m) /\
  (forall k j, In k ks -> In j ks -> ha k = ha j -> k = j).
(** The pointer is null or points to one of them. *)
Definition points_to (ns : list nat) (ks : list hid) (p : ptr) : Prop :=
  match p with Null => True | ToNode n => In n ns | ToHdr k => In k ks end.
(** Its machine word *)
Definition word (na : nat -> N) (ha : hid -> N) (p : ptr) : N :=
  match p with Null => lp_null | ToNode n => lp_node (na n) | ToHdr k => lp_header (ha k) end.
Definition or_null {A} (f : A -> N) (x : option A) : N := match x with Some a => f a | None => 0%N end.
