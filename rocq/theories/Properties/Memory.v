(** Intrusive lists, graphs in memory and ownership of executions: C44-C49, C59, C63. *)
From Coq Require Import String Lia.
From Verif Require Import Model.Common Model.TaskSet Model.Dag Model.Heap Model.Coro
     Spec.Lists Spec.Owner Spec.Graph Spec.Tasks Properties.Demo
     Proofs.HeapFacts Proofs.GraphMem Proofs.MemProps Proofs.CoroFacts.
Open Scope string_scope.
Open Scope nat_scope.
Open Scope list_scope.

(** * C44 Tagged pointers *)

(** [address a]: not null, even, below 2^64. *)
Theorem C44_roundtrip : forall a, address a ->
  lp_type (lp_node a) = NODE_TYPE /\ lp_get_node (lp_node a) = a /\ lp_get_header (lp_node a) = 0%N /\
  lp_type (lp_header a) = HEADER_TYPE /\ lp_get_header (lp_header a) = a /\ lp_get_node (lp_header a) = 0%N /\
  (lp_node a < 2 ^ 64 /\ lp_header a < 2 ^ 64)%N.
Proof. exact tagged_pointers. Qed.
Print Assumptions C44_roundtrip.

Theorem C44_equality : forall a b, address a -> address b ->
  (lp_node a = lp_node b <-> a = b) /\ (lp_header a = lp_header b <-> a = b) /\
  lp_node a <> lp_header b /\ lp_node a <> lp_null /\ lp_header a <> lp_null.
Proof. exact tagged_equality. Qed.
Print Assumptions C44_equality.

Theorem C44_null :
  lp_type lp_null = NULL_TYPE /\ lp_get_node lp_null = 0%N /\ lp_get_header lp_null = 0%N /\
  lp_node 0 = lp_null /\ lp_header 0 = lp_null.
Proof. exact tagged_null. Qed.
Print Assumptions C44_null.

Theorem C44_match : forall a, address a ->
  lp_match (lp_node a) = MNode a /\ lp_match (lp_header a) = MHeader a /\ lp_match lp_null = MNothing.
Proof. exact tagged_match. Qed.
Print Assumptions C44_match.

Example C44_case : address 0x7ffd3a20c5e8%N.
Proof. repeat split. discriminate. Qed.

(** The words stand for the three kinds of pointers the lists below are made of: equal words
    for equal pointers only, and get_node() and find_header() of a word give the address of
    the node and header meant. *)
Theorem C44_words : forall ns ks na ha acc, layout ns ks na ha acc -> forall p q,
  points_to ns ks p -> points_to ns ks q ->
  (word na ha p = word na ha q <-> p = q) /\
  lp_get_node (word na ha p) = or_null na (get_node p) /\
  lp_find_header acc (word na ha p) = or_null ha (find_header p).
Proof. exact words. Qed.
Print Assumptions C44_words.

(** Two nodes of 48 bytes with their header at offset 8, and the header of a list. *)
Definition na_demo (n : nat) : N := (0x7ffd3a20c500 + 48 * N.of_nat n)%N.
Definition ha_demo (k : hid) : N :=
  match k with HL _ => 0x7ffd3a20c400%N | HN n => (na_demo n + 8)%N end.
Example C44_case_words :
  layout [1; 2] [HL 0; HN 1; HN 2] na_demo ha_demo (fun a => (a + 8)%N) /\
  points_to [1; 2] [HL 0; HN 1; HN 2] (ToHdr (HL 0)) /\ points_to [1; 2] [HL 0; HN 1; HN 2] (ToNode 2).
Proof.
  split; [|cbn; auto]. unfold layout. split; [|split; [|split]].
  - intros n [<-|[<-|[]]]; (split; [repeat split; discriminate|split; [cbn; auto|reflexivity]]).
  - intros k [<-|[<-|[<-|[]]]]; repeat split; discriminate.
  - intros n m [<-|[<-|[]]] [<-|[<-|[]]]; (reflexivity || discriminate).
  - intros k j [<-|[<-|[<-|[]]]] [<-|[<-|[<-|[]]]]; (reflexivity || discriminate).
Qed.

(** * C45 An intrusive list behaves as a sequence *)

(** After any program, every list shows the sequence the program denotes (iteration,
    empty(), front(), iterator steps forward and backward), exactly the lists and nodes
    that should exist do, and no step had undefined behaviour or failed to end. *)
Theorem C45_sequences : forall fuel ops w,
  does_all world0 ops w -> length ops <= fuel ->
  exists h, run_ops fuel heap0 ops = Ok h /\
    (forall l xs, w_lists w l = Some xs -> shows fuel h l xs) /\
    (forall l, h (HL l) <> None <-> w_lists w l <> None) /\
    (forall n, h (HN n) <> None <-> node_exists w n).
Proof. exact list_programs. Qed.
Print Assumptions C45_sequences.

Definition some_ops : list lop :=
  [NewList 0; EmplaceFront 0 1; EmplaceFront 0 2; NewNode 3; LinkFront 0 3; EmplaceFront 0 4; Delete 2;
   ClearIf 0 (fun n => n =? 4)].
Definition none_exists : nat -> option (list nat) := fun _ => None.
Example C45_case : exists w, does_all world0 some_ops w /\ w_lists w 0 = Some [3; 1] /\
  exists h, run_ops 8 heap0 some_ops = Ok h /\ l_elements 8 h 0 = Ok [3; 1].
Proof.
  assert (NE : forall w n, (forall l xs, w_lists w l = Some xs -> l = 0 /\ ~ In n xs) -> ~ In n (w_loose w) -> ~ node_exists w n).
  { intros w n H1 H2 [H|(l & H)]; [contradiction|]. unfold in_list in H.
    destruct (w_lists w l) as [xs|] eqn:E; [|destruct H]. exact (proj2 (H1 l xs E) H). }
  eexists. split; [|split].
  - unfold some_ops.
    econstructor; [apply D_NewList; reflexivity|].
    econstructor; [apply (D_EmplaceFront _ 0 1 []); [reflexivity|apply NE; [|intros []]]|].
    { intros [|l] xs H; [|discriminate]. injection H as <-. split; [reflexivity|intros []]. }
    econstructor; [apply (D_EmplaceFront _ 0 2 [1]); [reflexivity|apply NE; [|intros []]]|].
    { intros [|l] xs H; [|discriminate]. injection H as <-. split; [reflexivity|cbn; lia]. }
    econstructor; [apply (D_NewNode _ 3); apply NE; [|intros []]|].
    { intros [|l] xs H; [|discriminate]. injection H as <-. split; [reflexivity|cbn; lia]. }
    econstructor; [apply (D_LinkFront _ 0 3 [2; 1]); [reflexivity|left; reflexivity]|].
    econstructor; [apply (D_EmplaceFront _ 0 4 [3; 2; 1]); [reflexivity|apply NE; [|intros []]]|].
    { intros [|l] xs H; [|discriminate]. injection H as <-. split; [reflexivity|cbn; lia]. }
    econstructor; [apply (D_Delete _ 2); right; exists 0; cbn; auto|].
    econstructor; [apply (D_ClearIf _ 0 _ [4; 3; 1]); reflexivity|].
    constructor.
  - reflexivity.
  - eexists. split; reflexivity.
Qed.

(** * C46 Deleting a node removes exactly its edges *)

(** Programs build any number of graphs, with edges also between graphs.  [gone n]: node n
    of graph g is selected by f.  After clear_if exactly the gone nodes and the edges with
    an endpoint among them are freed; each remaining node's edge lists are what they were
    without those edges, and the other graphs show the same nodes.  (Deleting anything
    twice, or touching a freed header, would be [Undef].) *)
Theorem C46_clear_if : forall fuel ops w g ns f,
  gdoes_all graphs0 ops w -> length ops < fuel -> gr_nodes w g = Some ns ->
  let gone n := among ns n && f n in
  exists m m', run_gops fuel gmem0 ops = Ok m /\ g_clear_if fuel m g f = Ok m' /\
    (forall n, m_node m' n = if gone n then None else m_node m n) /\
    (forall e x, m_edge m' e = Some x <-> m_edge m e = Some x /\ gone (e_src x) = false /\ gone (e_tgt x) = false) /\
    (forall n es, gone n = false -> n_out_edges fuel m n = Ok es ->
       n_out_edges fuel m' n = Ok (filter (fun e => ebool m e (fun x => negb (gone (e_tgt x)))) es)) /\
    (forall n es, gone n = false -> n_in_edges fuel m n = Ok es ->
       n_in_edges fuel m' n = Ok (filter (fun e => ebool m e (fun x => negb (gone (e_src x)))) es)) /\
    (forall g' xs, g' <> g -> g_elements fuel m g' = Ok xs -> g_elements fuel m' g' = Ok xs) /\
    g_elements fuel m' g = Ok (filter (fun n => negb (f n)) (map n_id ns)).
Proof. exact clear_if_exact. Qed.
Print Assumptions C46_clear_if.

(** The same for whole programs: at the end all graphs show their nodes and edges. *)
Theorem C46_programs : forall fuel ops w,
  gdoes_all graphs0 ops w -> length ops <= fuel ->
  exists m, run_gops fuel gmem0 ops = Ok m /\ gshows fuel m w.
Proof. exact graph_programs. Qed.
Print Assumptions C46_programs.

(** Two graphs; in the first a self loop and parallel edges, and an edge from the second. *)
Definition some_gops : list gop :=
  [GNew 0; GEmplace 0 1 "a" 1; GEmplace 0 2 "b" 2; GAddEdge 10 (Edge 1 1 AFTER); GAddEdge 11 (Edge 1 2 AFTER);
   GAddEdge 12 (Edge 1 2 AFTER); GNew 5; GEmplace 5 3 "c" 3; GAddEdge 13 (Edge 3 2 REQUIRES)].
Ltac not_in := let g := fresh in let ns := fresh in let A := fresh in let B := fresh in
  intros (g & ns & A & B); cbn in A; unfold put in A; cbn in A;
  destruct g as [|[|[|[|[|[|g]]]]]]; cbn in A; try discriminate A;
  injection A as <-; cbn in B; lia.
Ltac is_in := first [ exists 0; eexists; split; [reflexivity|cbn; tauto] | exists 5; eexists; split; [reflexivity|cbn; tauto] ].
Lemma some_gops_does : exists w, gdoes_all graphs0 some_gops w /\
  gr_nodes w 0 = Some [DNode 2 "b" 2; DNode 1 "a" 1] /\
  gr_nodes w 5 = Some [DNode 3 "c" 3] /\ (forall g, g <> 0 -> g <> 5 -> gr_nodes w g = None) /\
  map fst (gr_edges w) = [13; 12; 11; 10].
Proof.
  eexists. split; [|split; [|split; [|split]]].
  - unfold some_gops.
    econstructor; [apply GD_New; reflexivity|].
    econstructor; [eapply GD_Emplace; [reflexivity|not_in]|].
    econstructor; [eapply GD_Emplace; [reflexivity|not_in]|].
    econstructor; [apply GD_AddEdge; [cbn; lia|is_in|is_in]|].
    econstructor; [apply GD_AddEdge; [cbn; lia|is_in|is_in]|].
    econstructor; [apply GD_AddEdge; [cbn; lia|is_in|is_in]|].
    econstructor; [apply GD_New; reflexivity|].
    econstructor; [eapply GD_Emplace; [reflexivity|not_in]|].
    econstructor; [apply GD_AddEdge; [cbn; lia|is_in|is_in]|].
    constructor.
  - reflexivity.
  - reflexivity.
  - intros g N0 N5. cbn. unfold put. destruct (Nat.eqb_spec g 5); [congruence|]. destruct (Nat.eqb_spec g 0); [congruence|reflexivity].
  - reflexivity.
Qed.
Example C46_case : (exists w ns, gdoes_all graphs0 some_gops w /\ gr_nodes w 0 = Some ns) /\
  bind (run_gops 10 gmem0 some_gops) (fun m => bind (g_clear_if 10 m 0 (fun n => n =? 1)) (fun m' =>
    Ok (n_in_edges 10 m 2, n_in_edges 10 m' 2, m_edge m' 10, m_edge m' 13)))
  = Ok (Ok [13; 12; 11], Ok [13], None, Some (Edge 3 2 REQUIRES)).
Proof.
  split; [|vm_compute; reflexivity].
  destruct some_gops_does as (w & H & A & _). exists w. eexists. split; [exact H|exact A].
Qed.

(** * C47 Destroying a graph frees everything once *)

(** The nodes of g and all edges with an endpoint in g are freed, nothing else changes. *)
Theorem C47_destroy : forall fuel ops w g ns,
  gdoes_all graphs0 ops w -> length ops < fuel -> gr_nodes w g = Some ns ->
  exists m m', run_gops fuel gmem0 ops = Ok m /\ g_destroy fuel m g = Ok m' /\
    (forall n, m_node m' n = if among ns n then None else m_node m n) /\
    (forall e x, m_edge m' e = Some x <->
       m_edge m e = Some x /\ among ns (e_src x) = false /\ among ns (e_tgt x) = false) /\
    (forall g' xs, g' <> g -> g_elements fuel m g' = Ok xs -> g_elements fuel m' g' = Ok xs).
Proof. exact destroy_exact. Qed.
Print Assumptions C47_destroy.

(** When all graphs that exist are empty (or none exists), no node, edge or header of one is left. *)
Theorem C47_nothing_left : forall fuel ops w,
  gdoes_all graphs0 ops w -> length ops <= fuel ->
  (forall g ns, gr_nodes w g = Some ns -> ns = []) ->
  exists m, run_gops fuel gmem0 ops = Ok m /\
    (forall n, m_node m n = None) /\ (forall e, m_edge m e = None) /\
    (forall n, m_nodes m (HN n) = None) /\ (forall k, m_out m k = None) /\ (forall k, m_in m k = None).
Proof. exact graphs_gone. Qed.
Print Assumptions C47_nothing_left.

Example C47_case : exists w, gdoes_all graphs0 (some_gops ++ [GDestroy 0; GDestroy 5]) w /\
  (forall g ns, gr_nodes w g = Some ns -> ns = []).
Proof.
  destruct some_gops_does as (w & H & A & B & C & _). eexists. split.
  - change [GDestroy 0; GDestroy 5] with ([GDestroy 0] ++ [GDestroy 5]). rewrite app_assoc.
    eapply gdoes_all_snoc; [eapply gdoes_all_snoc; [exact H|apply GD_Destroy; exact A]|].
    apply GD_Destroy. cbn [gr_nodes]. exact B.
  - intros g ns. cbn [gr_nodes]. unfold put. destruct (Nat.eqb_spec g 5); [discriminate|].
    destruct (Nat.eqb_spec g 0); [discriminate|]. rewrite C by assumption. discriminate.
Qed.

(** * C48 Moving a list or graph *)

(** Move construction, and move assignment to an empty list. *)
Theorem C48_moved_partial : forall fuel ops w op this other xs,
  does_all world0 ops w -> length ops < fuel -> this <> other -> w_lists w other = Some xs ->
  (op = MoveNew this other /\ w_lists w this = None) \/ (op = MoveAssign this other /\ w_lists w this = Some []) ->
  exists h, run_ops fuel heap0 (ops ++ [op]) = Ok h /\ shows fuel h this xs /\ shows fuel h other [] /\
    (forall l ys, l <> this -> l <> other -> w_lists w l = Some ys -> shows fuel h l ys) /\
    (forall n, h (HN n) <> None <-> node_exists w n).
Proof. exact list_moved. Qed.
Print Assumptions C48_moved_partial.

(** Assignment over any list with elements: they are neither freed nor in any list. *)
Theorem C48_refuted : forall fuel ops w this other z zs xs,
  does_all world0 ops w -> length ops <= fuel -> this <> other ->
  w_lists w this = Some (z :: zs) -> w_lists w other = Some xs ->
  exists h, run_ops fuel heap0 (ops ++ [MoveAssign this other]) = Ok h /\
    l_elements fuel h this = Ok xs /\ l_elements fuel h other = Ok [] /\
    forall n, In n (z :: zs) -> h (HN n) <> None /\
      forall l ys, l_elements fuel h l = Ok ys -> ~ In n ys.
Proof. exact assign_loses. Qed.
Print Assumptions C48_refuted.

Example C48_case : exists w, does_all world0 [NewList 0; EmplaceFront 0 1; NewList 2; EmplaceFront 2 3] w /\
  w_lists w 0 = Some [1] /\ w_lists w 2 = Some [3].
Proof.
  eexists. split; [|split].
  - econstructor; [apply D_NewList; reflexivity|].
    econstructor; [apply (D_EmplaceFront _ 0 1 []); [reflexivity|]|].
    { intros [[]|([|l] & H)]; cbn in H; destruct H. }
    econstructor; [apply D_NewList; reflexivity|].
    econstructor; [apply (D_EmplaceFront _ 2 3 []); [reflexivity|]|].
    { intros [[]|([|[|[|l]]] & H)]; cbn in H; try destruct H; try discriminate; contradiction. }
    constructor.
  - reflexivity.
  - reflexivity.
Qed.
(** Later the lost element is still there when both lists have been destroyed. *)
Example C48_leak : exists h,
  run_ops 8 heap0 [NewList 0; EmplaceFront 0 1; NewList 2; EmplaceFront 2 3; MoveAssign 0 2; DestroyList 0; DestroyList 2] = Ok h /\
  h (HN 1) <> None /\ h (HN 3) = None /\ h (HL 0) = None /\ h (HL 2) = None.
Proof. eexists. split; [reflexivity|]. repeat split. discriminate. Qed.

(** * C49 list::back: false *)

(** It dereferences the end iterator, whatever the list. *)
Theorem C49_refuted : forall h l, l_back h l = Undef.
Proof. exact back_undefined. Qed.
Print Assumptions C49_refuted.

Example C49_case : exists h, run_ops 3 heap0 [NewList 0; EmplaceFront 0 1; EmplaceFront 0 2] = Ok h /\
  l_elements 3 h 0 = Ok [2; 1] /\ l_front h 0 = Ok 2 /\ l_back h 0 = Undef.
Proof. eexists. repeat split. Qed.

(** * C59 Ownership of executions *)

(** Under any allowed program no frame is destroyed twice, and each execution is either
    destroyed and owned by no object, or not destroyed and owned by exactly one. *)
Theorem C59_owned_once : forall ops, allowed ops ->
  exists m, run_cops cmem0 ops = Ok m /\
    (forall o, ob m o <> None <-> In o (objects ops)) /\
    NoDup (freed m) /\
    (forall x, In x (freed m) -> In x (started ops)) /\
    (forall o x, owns m o x -> In x (started ops)) /\
    (forall x, In x (started ops) ->
       (In x (freed m) /\ forall o, ~ owns m o x) \/
       (~ In x (freed m) /\ exists o, owns m o x /\ forall o', owns m o' x -> o' = o)).
Proof. exact ownership. Qed.
Print Assumptions C59_owned_once.

Theorem C59_all_destroyed : forall ops m,
  allowed ops -> objects ops = [] -> run_cops cmem0 ops = Ok m ->
  NoDup (freed m) /\ forall x, In x (freed m) <-> In x (started ops).
Proof. exact all_destroyed. Qed.
Print Assumptions C59_all_destroyed.

(** done(), result() and tick() act on the execution the object owns; of a moved-from object
    result() and tick() do nothing, but done() is undefined. *)
Theorem C59_queries : forall ops m o, allowed ops -> run_cops cmem0 ops = Ok m ->
  (forall x, owns m o x -> c_done m o = Ok x /\ c_result m o = Ok (Some x) /\ c_tick m o = Ok (Some x)) /\
  (In o (objects ops) -> (forall x, ~ owns m o x) ->
     c_done m o = Undef /\ c_result m o = Ok None /\ c_tick m o = Ok None) /\
  (~ In o (objects ops) -> c_done m o = Undef /\ c_result m o = Undef /\ c_tick m o = Undef).
Proof. exact queries. Qed.
Print Assumptions C59_queries.

Definition some_cops : list cop :=
  [CStart 0 10; CStart 1 11; CMoveAssign 0 1; CMoveNew 2 1; CMoveAssign 2 2; CDestroy 0; CDestroy 1; CDestroy 2].
Example C59_case : allowed some_cops /\ objects some_cops = [] /\
  exists m, run_cops cmem0 some_cops = Ok m /\ freed m = [10; 11].
Proof.
  split; [|split; [reflexivity|eexists; split; reflexivity]].
  split; [cbn; intuition lia|]. cbn. repeat constructor; cbn; intuition lia.
Qed.

Example C59_case_queries : let ops := [CStart 0 10; CMoveNew 1 0] in allowed ops /\ In 0 (objects ops) /\
  exists m, run_cops cmem0 ops = Ok m /\ owns m 1 10 /\ forall x, ~ owns m 0 x.
Proof.
  split; [split; [cbn; intuition lia|cbn; repeat constructor; cbn; intuition lia]|]. split; [cbn; auto|].
  eexists. split; [reflexivity|]. split; [reflexivity|]. intros x H. discriminate H.
Qed.

(** * C63 The graph in memory *)

(** insert_set on an empty graph makes calls of graph::emplace and add_edge only; made in
    memory, they leave a graph that shows exactly the nodes and edges of the model of
    src/dag.cpp on which the theorems about executions are proved, in the same order, and
    whose destruction frees everything. *)
Theorem C63_built_in_memory : forall st ts filt addr ord1 ord2 d n g ea,
  some_order ord1 -> some_order ord2 -> fresh_nodes dag0 addr (selected st ts filt) ->
  (forall i j, ea i = ea j -> i = j) ->
  insert_set dag0 st ts filt addr ord1 ord2 = Built (d, n) ->
  exists cs, fold_left apply_call cs dag0 = d /\
    forall fuel, length cs + 2 <= fuel ->
    exists m m', run_gops fuel gmem0 (GNew g :: in_memory g ea 0 cs) = Ok m /\ holds_graph fuel m g d /\
                 g_destroy fuel m g = Ok m' /\ all_freed m'.
Proof. exact built_in_memory. Qed.
Print Assumptions C63_built_in_memory.

Example C63_case : some_order (fun l : list (string * tid) => l) /\ some_order (fun l : list tid => l) /\
  fresh_nodes dag0 (fun t => t) (selected demo_store demo_set "") /\ (forall i j, 2 * i = 2 * j -> i = j) /\
  exists d n, insert_set dag0 demo_store demo_set "" (fun t => t) (fun l => l) (fun l => l) = Built (d, n) /\
    length (d_nodes d) = 6.
Proof.
  split; [intros l; apply Permutation.Permutation_refl|]. split; [intros l; apply Permutation.Permutation_refl|].
  split; [split; [intros x y _ _ H; exact H|intros x _ []]|]. split; [intros i j; lia|].
  assert (B : match insert_set dag0 demo_store demo_set "" (fun t => t) (fun l => l) (fun l => l) with
              | Built (d, _) => length (d_nodes d) = 6 | _ => False end) by (vm_compute; reflexivity).
  destruct (insert_set _ _ _ _ _ _ _) as [[d n]| |]; [|destruct B|destruct B]. exists d, n. split; [reflexivity|exact B].
Qed.
