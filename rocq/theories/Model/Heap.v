(** include/joque/bits/list_ptr.hpp, bits/list.hpp, bits/dag.hpp: intrusive lists and the
    graph, as objects in memory *)
From Coq Require Import String.
From Verif Require Import Model.Common Model.TaskSet Model.Dag.
Open Scope nat_scope.
Open Scope list_scope.

(** Result of an operation: [Undef] if it reads or writes an object that does not exist
    (or a null pointer), or if an object is created where one exists; [Fuel] if a loop did
    not end within the bound (shown impossible). *)
Inductive res (A : Type) := Ok (a : A) | Undef | Fuel.
Arguments Ok {A}. Arguments Undef {A}. Arguments Fuel {A}.
Definition bind {A B} (x : res A) (f : A -> res B) : res B :=
  match x with Ok a => f a | Undef => Undef | Fuel => Fuel end.
Definition of_opt {A} (x : option A) : res A := match x with Some a => Ok a | None => Undef end.

(** * Tagged pointers: the machine word *)

(** list_ptr.hpp:11-159.  A word and an address are numbers below 2^64. *)
Inductive mark := NODE_TYPE | HEADER_TYPE | NULL_TYPE.                     (* 14-19 *)
Definition lp_null : N := 0.                                              (* 25-29 *)
Definition lp_node (item : N) : N := item.                                (* 31-34 *)
Definition lp_header (item : N) : N :=                                    (* 36-43 *)
  if (item =? 0)%N then 0%N else N.lor item 1.
Definition lp_ctlbit (p : N) : bool := negb (N.land p 1 =? 0)%N.          (* 143-146 *)
Definition lp_type (p : N) : mark :=                                      (* 45-54 *)
  if (p =? 0)%N then NULL_TYPE else if lp_ctlbit p then HEADER_TYPE else NODE_TYPE.
Definition lp_mask : N := N.lxor (N.ones 64) 1.                           (* 148-149 *)
Definition lp_pure (p : N) : N := N.land p lp_mask.                       (* 151-156 *)
Definition lp_get_node (p : N) : N :=                                     (* 68-76, 107-123 *)
  match lp_type p with NODE_TYPE => lp_pure p | _ => 0%N end.
Definition lp_get_header (p : N) : N :=                                   (* 56-66, 107-123 *)
  match lp_type p with HEADER_TYPE => lp_pure p | _ => 0%N end.
(** 78-86, 133-141 find_header; [acc n] is the address of the header in the node at [n]. *)
Definition lp_find_header (acc : N -> N) (p : N) : N :=
  if negb (lp_get_header p =? 0)%N then lp_get_header p
  else if negb (lp_get_node p =? 0)%N then acc (lp_get_node p) else 0%N.
(** 88-96, 125-131 match: which of the two functions is called, and with what. *)
Inductive matched := MNode (n : N) | MHeader (h : N) | MNothing.
Definition lp_match (p : N) : matched :=
  if negb (lp_get_header p =? 0)%N then MHeader (lp_get_header p)
  else if negb (lp_get_node p =? 0)%N then MNode (lp_get_node p) else MNothing.

(** * List headers *)

(** A list header is the header_ member of list object [l], or the header (of the list
    kind at hand) in node [n].  Pointers are the three kinds of tagged pointers. *)
Inductive hid := HL (l : nat) | HN (n : nat).
Inductive ptr := Null | ToNode (n : nat) | ToHdr (h : hid).
Definition hid_eqb (a b : hid) : bool :=
  match a, b with HL x, HL y | HN x, HN y => x =? y | _, _ => false end.

(** list.hpp:45-46 *)
Record cell := Cell { c_next : ptr; c_prev : ptr }.
(** The headers of one kind (one Node and Accessor) that exist. *)
Definition heap := hid -> option cell.
Definition hupd (h : heap) (k : hid) (v : option cell) : heap :=
  fun x => if hid_eqb x k then v else h x.
Definition set_next (h : heap) (k : hid) (p : ptr) : res heap :=
  match h k with Some c => Ok (hupd h k (Some (Cell p (c_prev c)))) | None => Undef end.
Definition set_prev (h : heap) (k : hid) (p : ptr) : res heap :=
  match h k with Some c => Ok (hupd h k (Some (Cell (c_next c) p))) | None => Undef end.

(** list_ptr.hpp:68-86, 133-141 *)
Definition get_node (p : ptr) : option nat := match p with ToNode n => Some n | _ => None end.
Definition find_header (p : ptr) : option hid :=
  match p with Null => None | ToNode n => Some (HN n) | ToHdr k => Some k end.

(** list.hpp:48 default constructor *)
Definition hdr_new (h : heap) (k : hid) : res heap :=
  match h k with None => Ok (hupd h k (Some (Cell Null Null))) | Some _ => Undef end.

(** list.hpp:188-198 ~list_header *)
Definition hdr_destroy (h : heap) (k : hid) : res heap :=
  bind (of_opt (h k)) (fun c =>
  bind (match find_header (c_next c) with Some x => set_prev h x (c_prev c) | None => Ok h end) (fun h1 =>
  bind (of_opt (h1 k)) (fun c1 =>
  bind (match find_header (c_prev c1) with Some x => set_next h1 x (c_next c1) | None => Ok h1 end) (fun h2 =>
  Ok (hupd h2 k None))))).

(** list.hpp:56-69 operator=( list_header&& ) *)
Definition hdr_move_assign (h : heap) (this other : hid) : res heap :=
  if hid_eqb this other then Ok h else
  bind (of_opt (h this)) (fun _ =>
  bind (of_opt (h other)) (fun c =>
  let h1 := hupd (hupd h this (Some c)) other (Some (Cell Null Null)) in
  bind (match find_header (c_next c) with Some x => set_prev h1 x (ToHdr this) | None => Ok h1 end) (fun h2 =>
  bind (of_opt (h2 this)) (fun c2 =>
  match find_header (c_prev c2) with Some x => set_next h2 x (c_next c2) | None => Ok h2 end)))).

(** list.hpp:52-55 list_header( list_header&& ) *)
Definition hdr_move_new (h : heap) (this other : hid) : res heap :=
  bind (hdr_new h this) (fun h1 => hdr_move_assign h1 this other).

(** list.hpp:224-239 list_link_next *)
Definition link_next (h : heap) (p : ptr) (next : nat) : res heap :=
  bind (of_opt (find_header p)) (fun kp =>
  bind (of_opt (h kp)) (fun cp =>
  bind (set_next h (HN next) (c_next cp)) (fun h1 =>
  bind (of_opt (h1 (HN next))) (fun cn =>
  bind (match find_header (c_next cn) with
        | Some x => set_prev h1 x (ToNode next)
        | None => Ok h1
        end) (fun h2 =>
  bind (set_next h2 kp (ToNode next)) (fun h3 =>
  set_prev h3 (HN next) p)))))).

(** * Lists *)

(** list.hpp:312-324 begin(); 326-336 end() is the null iterator *)
Definition l_begin (h : heap) (l : nat) : res (option nat) :=
  bind (of_opt (h (HL l))) (fun c => Ok (get_node (c_next c))).
Definition l_end : option nat := None.
(** list.hpp:282-294 operator++, operator--: dereferences the iterator *)
Definition it_next (h : heap) (it : option nat) : res (option nat) :=
  match it with
  | None => Undef
  | Some n => bind (of_opt (h (HN n))) (fun c => Ok (get_node (c_next c)))
  end.
Definition it_prev (h : heap) (it : option nat) : res (option nat) :=
  match it with
  | None => Undef
  | Some n => bind (of_opt (h (HN n))) (fun c => Ok (get_node (c_prev c)))
  end.
(** list.hpp:254-266 operator* *)
Definition it_deref (it : option nat) : res nat := of_opt it.

(** list.hpp:154-170 front(), back() *)
Definition l_front (h : heap) (l : nat) : res nat := bind (l_begin h l) it_deref.
Definition l_back (h : heap) (l : nat) : res nat := bind (it_next h l_end) it_deref.

(** list.hpp:353-357 empty() *)
Definition l_empty (h : heap) (l : nat) : res bool :=
  bind (of_opt (h (HL l))) (fun c => Ok (match c_next c with Null => true | _ => false end)).

(** [for ( auto& x : list )]: the elements in iteration order *)
Fixpoint iterate (fuel : nat) (h : heap) (it : option nat) : res (list nat) :=
  match it with
  | None => Ok []
  | Some n =>
      match fuel with
      | O => Fuel
      | S f => bind (it_next h it) (fun it' => bind (iterate f h it') (fun r => Ok (n :: r)))
      end
  end.
Definition l_elements (fuel : nat) (h : heap) (l : nat) : res (list nat) :=
  bind (l_begin h l) (iterate fuel h).

(** list.hpp:347-351 link_front; 338-345 emplace_front with 214-222 list_emplace_next: a new node
    (its header is created) is linked *)
Definition l_link_front (h : heap) (l n : nat) : res heap := link_next h (ToHdr (HL l)) n.
Definition l_emplace_front (h : heap) (l n : nat) : res heap :=
  bind (hdr_new h (HN n)) (fun h1 => l_link_front h1 l n).

(** The loops that delete nodes.  [S] is the state of memory, [hp s] the headers of the
    kind of the list, and [del n] what [delete] of node [n] does. *)
Section Deleting.
Context {S : Type} (hp : S -> heap) (del : nat -> S -> res S).

(** list.hpp:241-246 list_delete_all_next *)
Fixpoint delete_all (fuel : nat) (k : hid) (s : S) : res S :=
  bind (of_opt (hp s k)) (fun c =>
  match get_node (c_next c) with
  | None => Ok s
  | Some n =>
      match fuel with
      | O => Fuel
      | Datatypes.S f => bind (del n s) (delete_all f k)
      end
  end).

(** list.hpp:359-367 clear_if, from iterator [it] on *)
Fixpoint clear_from (fuel : nat) (f : nat -> bool) (it : option nat) (s : S) : res S :=
  match it with
  | None => Ok s
  | Some n =>
      match fuel with
      | O => Fuel
      | Datatypes.S fu =>
          bind (it_next (hp s) it) (fun it' =>
          bind (if f n then del n s else Ok s) (clear_from fu f it'))
      end
  end.
Definition clear_if (fuel : nat) (f : nat -> bool) (l : nat) (s : S) : res S :=
  bind (l_begin (hp s) l) (fun it => clear_from fuel f it s).
End Deleting.

(** Lists of nodes that consist of a header only (and a value): *)
Definition plain_del (n : nat) (h : heap) : res heap := hdr_destroy h (HN n).
Definition l_clear_if (fuel : nat) (h : heap) (l : nat) (f : nat -> bool) : res heap :=
  clear_if (fun x => x) plain_del fuel f l h.
(** list.hpp:369-373 ~list, then its member header_ *)
Definition l_destroy (fuel : nat) (h : heap) (l : nat) : res heap :=
  bind (delete_all (fun x => x) plain_del fuel (HL l) h) (fun h1 => hdr_destroy h1 (HL l)).
(** list.hpp:144, 146: the defaulted moves move header_ *)
Definition l_move_new (h : heap) (this other : nat) : res heap := hdr_move_new h (HL this) (HL other).
Definition l_move_assign (h : heap) (this other : nat) : res heap := hdr_move_assign h (HL this) (HL other).

(** * Graphs *)

(** Memory with graphs.  In [m_nodes], [HL g] is graph object [g] (its nodes_ member) and
    [HN n] the lheader_ of node [n].  In [m_out] ([m_in]), [HL n] is the out_edges_
    (in_edges_) member of node [n], and [HN e] the lheader_ (lrheader_) of edge [e].
    [m_node], [m_edge]: the nodes and edges that exist, with their content. *)
Record gmem := GMem {
  m_nodes : heap; m_out : heap; m_in : heap;
  m_node : nat -> option (string * tid);
  m_edge : nat -> option edge }.
Definition set_nodes (m : gmem) (h : heap) := GMem h (m_out m) (m_in m) (m_node m) (m_edge m).
Definition set_out (m : gmem) (h : heap) := GMem (m_nodes m) h (m_in m) (m_node m) (m_edge m).
Definition set_in (m : gmem) (h : heap) := GMem (m_nodes m) (m_out m) h (m_node m) (m_edge m).
Definition put {A} (f : nat -> option A) (k : nat) (v : option A) : nat -> option A :=
  fun x => if x =? k then v else f x.
Definition set_node (m : gmem) (n : nat) (v : option (string * tid)) :=
  GMem (m_nodes m) (m_out m) (m_in m) (put (m_node m) n v) (m_edge m).
Definition set_edge (m : gmem) (e : nat) (v : option edge) :=
  GMem (m_nodes m) (m_out m) (m_in m) (m_node m) (put (m_edge m) e v).

Definition gmem0 : gmem := GMem (fun _ => None) (fun _ => None) (fun _ => None) (fun _ => None) (fun _ => None).

(** bits/dag.hpp:152 *)
Definition g_new (m : gmem) (g : nat) : res gmem :=
  bind (hdr_new (m_nodes m) (HL g)) (fun h => Ok (set_nodes m h)).

(** bits/dag.hpp:90-93, 136-141 (the members of a new node, in order), 180-184 emplace *)
Definition g_emplace (m : gmem) (g n : nat) (name : string) (t : tid) : res gmem :=
  match m_node m n with
  | Some _ => Undef
  | None =>
      let m0 := set_node m n (Some (name, t)) in
      bind (hdr_new (m_out m0) (HL n)) (fun ho =>
      bind (hdr_new (m_in m0) (HL n)) (fun hi =>
      bind (l_emplace_front (m_nodes m0) g n) (fun hn =>
      Ok (set_nodes (set_in (set_out m0 ho) hi) hn))))
  end.

(** dag.hpp:48-54 add_edge, with bits/dag.hpp:38-41, 66-69: the new edge's two headers *)
Definition g_add_edge (m : gmem) (e : nat) (x : edge) : res gmem :=
  match m_edge m e with
  | Some _ => Undef
  | None =>
      let m0 := set_edge m e (Some x) in
      bind (hdr_new (m_in m0) (HN e)) (fun hi0 =>
      bind (l_emplace_front (m_out m0) (e_src x) e) (fun ho =>
      bind (l_link_front hi0 (e_tgt x) e) (fun hi =>
      Ok (set_in (set_out m0 ho) hi))))
  end.

(** delete of an edge: its members in reverse order (bits/dag.hpp:66-69) *)
Definition delete_edge (e : nat) (m : gmem) : res gmem :=
  bind (of_opt (m_edge m e)) (fun _ =>
  bind (hdr_destroy (m_in m) (HN e)) (fun hi =>
  bind (hdr_destroy (m_out m) (HN e)) (fun ho =>
  Ok (set_edge (set_out (set_in m hi) ho) e None)))).

(** delete of a node: its members in reverse order (bits/dag.hpp:136-141) *)
Definition delete_node (fuel n : nat) (m : gmem) : res gmem :=
  bind (of_opt (m_node m n)) (fun _ =>
  bind (hdr_destroy (m_nodes m) (HN n)) (fun hn =>
  bind (delete_all m_in delete_edge fuel (HL n) (set_nodes m hn)) (fun m1 =>
  bind (hdr_destroy (m_in m1) (HL n)) (fun hi =>
  bind (delete_all m_out delete_edge fuel (HL n) (set_in m1 hi)) (fun m2 =>
  bind (hdr_destroy (m_out m2) (HL n)) (fun ho =>
  Ok (set_node (set_out m2 ho) n None))))))).

(** bits/dag.hpp:175-178 clear_if *)
Definition g_clear_if (fuel : nat) (m : gmem) (g : nat) (f : nat -> bool) : res gmem :=
  clear_if m_nodes (delete_node fuel) fuel f g m.
(** the implicit ~graph *)
Definition g_destroy (fuel : nat) (m : gmem) (g : nat) : res gmem :=
  bind (delete_all m_nodes (delete_node fuel) fuel (HL g) m) (fun m1 =>
  bind (hdr_destroy (m_nodes m1) (HL g)) (fun h => Ok (set_nodes m1 h))).
(** bits/dag.hpp:154, 156 *)
Definition g_move_new (m : gmem) (this other : nat) : res gmem :=
  bind (hdr_move_new (m_nodes m) (HL this) (HL other)) (fun h => Ok (set_nodes m h)).
Definition g_move_assign (m : gmem) (this other : nat) : res gmem :=
  bind (hdr_move_assign (m_nodes m) (HL this) (HL other)) (fun h => Ok (set_nodes m h)).

(** Iteration over the nodes of a graph, the out edges and the in edges of a node. *)
Definition g_elements (fuel : nat) (m : gmem) (g : nat) : res (list nat) := l_elements fuel (m_nodes m) g.
Definition n_out_edges (fuel : nat) (m : gmem) (n : nat) : res (list nat) := l_elements fuel (m_out m) n.
Definition n_in_edges (fuel : nat) (m : gmem) (n : nat) : res (list nat) := l_elements fuel (m_in m) n.
