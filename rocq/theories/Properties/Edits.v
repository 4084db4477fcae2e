(** Graphs made and changed by hand before they are executed: C84. *)
From Coq Require Import String Relations Permutation Lia.
From Verif Require Import Model.Common Model.Records Model.Jobs Model.TaskSet Model.Dag Model.Heap
     Model.Sched Model.Exec Model.ExecSet Spec.Graph Spec.Trace Spec.Tasks Spec.Lists Spec.Edits
     Properties.Demo Proofs.DemoFacts Proofs.TaskFacts Proofs.EditFacts.
Open Scope string_scope.
Open Scope nat_scope.
Open Scope list_scope.

(** * C84 Customised graphs *)

(** However a graph was made with emplace, add_edge and clear_if, it is one on which the
    theorems about executions apply.  In memory the same calls are defined, show exactly this
    graph, and destroying it frees everything. *)
Theorem C84_graph : forall es d g ea fuel,
  edited dag0 es d -> (forall i j, ea i = ea j -> i = j) -> List.length es + 2 <= fuel ->
  wf_dag d /\
  exists m m', run_gops fuel gmem0 (GNew g :: edits_in_memory g ea 0 es) = Ok m /\ holds_graph fuel m g d /\
               g_destroy fuel m g = Ok m' /\ all_freed m'.
Proof.
  intros es d g ea fuel H Hea Hf. split; [exact (edited_wf _ _ _ H empty_wf)|].
  exact (edited_in_memory es d g ea fuel H Hea Hf).
Qed.
Print Assumptions C84_graph.

(** insert_set on such a graph gives such a graph. *)
Theorem C84_insert_set : forall es g st ts filt addr ord1 ord2 g' n,
  edited dag0 es g -> some_order ord1 -> some_order ord2 -> fresh_nodes g addr (selected st ts filt) ->
  insert_set g st ts filt addr ord1 ord2 = Built (g', n) -> exists es', edited dag0 (es ++ es') g'.
Proof.
  intros es g st ts filt addr ord1 ord2 g' n H Ho1 Ho2 Hfr E.
  destruct (insertion_edits g st ts filt addr ord1 ord2 g' n Ho1 Ho2 (edited_wf _ _ _ H empty_wf) Hfr E) as (cs & B).
  exists (map Made cs). exact (edited_app _ _ _ _ _ H B).
Qed.
Print Assumptions C84_insert_set.

(** Removed nodes: an execution of the rest leaves them alone and records each of the others
    once; no cycle appears. *)
Theorem C84_removed : forall c f z s,
  wf_dag (c_dag c) -> reachable (trimmed c f) z s ->
  (acyclic (c_dag c) -> result s <> RThrow ExcCycle) /\
  (forall er, result s = RRecord er ->
     Permutation (map r_node (er_runs er)) (filter (fun n => negb (f n)) (node_ids (c_dag c)))) /\
  (forall n, f n = true -> ~ In (EEnque n) (trace s) /\ ~ In (EAsk n) (trace s) /\ ~ In (EBegin n) (trace s)).
Proof. exact trimmed_runs. Qed.
Print Assumptions C84_removed.

(** What two remaining nodes were told about each other still holds. *)
Theorem C84_order_kept : forall c f z s a b pre post,
  wf_dag (c_dag c) -> reachable (trimmed c f) z s -> runs_after (c_dag c) a b -> f b = false ->
  trace s = pre ++ EBegin a :: post ->
  recorded pre b /\ (In (EBegin b) pre -> exists o, In (EEnd b o) pre) /\ ~ In (EBegin b) post.
Proof. exact trimmed_order. Qed.
Print Assumptions C84_order_kept.

Theorem C84_failure_kept : forall c f z s a b rb,
  wf_dag (c_dag c) -> requires_after (c_dag c) -> reachable (trimmed c f) z s -> requires (c_dag c) a b ->
  In rb (records (trace s)) -> r_node rb = b -> is_bad (r_status rb) = true ->
  ~ In (EBegin a) (trace s).
Proof. exact trimmed_failed. Qed.
Print Assumptions C84_failure_kept.

(** An edge added to a graph without cycles makes one exactly if it is a run-after edge and
    its target was already, directly or not, to run after its source. *)
Theorem C84_edge_cycle : forall d a b k, acyclic d ->
  (has_after_cycle (add_edge d a b k) <-> k = AFTER /\ clos_refl_trans nid (runs_after d) b a).
Proof. exact joined_cycle. Qed.
Print Assumptions C84_edge_cycle.

(** The graph of Demo.v without lib (2), every task invalidated. *)
Definition all_inval : config := Config demo_dag 3 demo_tasks (fun _ => IvRet true "").
Definition not_lib (n : nid) : bool := n =? 2.
Definition no_lib : config := trimmed all_inval not_lib.
Definition no_lib_end : state := go no_lib (drive no_lib (fun n => if n =? 3 then failing else ok) 60 (init 0)).
Definition no_lib_early : state :=
  go no_lib [LTick; LCtl; LTick; LCtl; LCtl; LCtl; LTick; LCtl; LCtl; LCtl; LBegin 3; LBegin 1].

(** What went through a removed node does not: app (3) was to run after gen (1), through lib.
    It begins before gen does. *)
Theorem C84_through_removed : exists c f s a b pre post,
  wf_dag (c_dag c) /\ reachable (trimmed c f) 0 s /\ f a = false /\ f b = false /\
  clos_trans nid (runs_after (c_dag c)) a b /\
  trace s = pre ++ EBegin a :: post /\ In (EBegin b) post.
Proof.
  exists all_inval, not_lib, no_lib_early, 3, 1.
  assert (E : exists pre, trace no_lib_early = pre ++ EBegin 3 :: [EBegin 1]).
  { exists (removelast (removelast (trace no_lib_early))). vm_compute. reflexivity. }
  destruct E as [pre E]. exists pre, [EBegin 1].
  split; [exact wf_demo|]. split; [apply go_reachable; vm_compute; reflexivity|].
  split; [reflexivity|]. split; [reflexivity|].
  split; [econstructor 2; (apply t_step; find_in)|]. split; [exact E|]. left. reflexivity.
Qed.
Print Assumptions C84_through_removed.

Example C84_case :
  wf_dag (c_dag all_inval) /\ acyclic (c_dag all_inval) /\ requires_after (c_dag all_inval) /\
  reachable (trimmed all_inval not_lib) 0 no_lib_end /\
  (exists er, result no_lib_end = RRecord er /\
     map (fun r => (r_node r, r_status r)) (er_runs er) = [(1, OK); (3, FAIL); (4, OK); (5, DEPF); (6, OK)]) /\
  (exists pre post, trace no_lib_end = pre ++ EBegin 4 :: post) /\ runs_after (c_dag all_inval) 4 1 /\
  requires (c_dag all_inval) 5 3.
Proof.
  split; [exact wf_demo|]. split; [exact acyclic_demo|]. split; [exact req_after_demo|].
  split; [apply go_reachable; vm_compute; reflexivity|].
  split; [eexists; split; vm_compute; reflexivity|].
  split; [apply in_split; find_in|]. split; find_in.
Qed.

(** Nodes a, b, c; a after b after c; b removed; a new node at its address, after a. *)
Definition some_edits : list edit :=
  [Made (Emplace 1 "a" 1); Made (Emplace 2 "b" 2); Made (AddEdge 1 2 AFTER); Made (Emplace 3 "c" 3);
   Made (AddEdge 2 3 AFTER); Removed (fun n => n =? 2); Made (Emplace 2 "d" 4); Made (AddEdge 2 1 AFTER)].
Definition some_graph : dag := Dag [DNode 2 "d" 4; DNode 3 "c" 3; DNode 1 "a" 1] [Edge 2 1 AFTER].
Example C84_case_edits : edited dag0 some_edits some_graph /\
  (exists g' n, insert_set some_graph demo_store demo_set "lib" (fun t => t + 10) (fun l => l) (fun l => l) = Built (g', n)) /\
  fresh_nodes some_graph (fun t => t + 10) (selected demo_store demo_set "lib") /\ acyclic some_graph /\
  has_after_cycle (add_edge some_graph 1 2 AFTER) /\ acyclic (add_edge some_graph 1 3 AFTER).
Proof.
  split; [repeat (econstructor; [cbn; intuition discriminate|]); apply ed_nil|].
  split; [eexists; eexists; vm_compute; reflexivity|].
  split; [split; [intros x y _ _ H; lia|]; intros a _; cbn; lia|].
  assert (A : acyclic some_graph).
  { intros [n Hn]. assert (G : forall x y, clos_trans nid (runs_after some_graph) x y -> x = 2 /\ y = 1).
    { intros x y H. induction H as [x y [H|[]]|x y z H1 IH1 H2 IH2]; [injection H as <- <-; auto|lia]. }
    destruct (G _ _ Hn). lia. }
  split; [exact A|]. split.
  - apply C84_edge_cycle; [exact A|]. split; [reflexivity|]. apply rt_step. left. reflexivity.
  - intros H. apply C84_edge_cycle in H; [|exact A]. destruct H as [_ H].
    assert (G : forall x y, clos_refl_trans nid (runs_after some_graph) x y -> x = y \/ (x = 2 /\ y = 1)).
    { intros x y R. induction R as [x y [R|[]]|x|x y z H1 IH1 H2 IH2]; [injection R as <- <-; auto|auto|lia]. }
    destruct (G _ _ H); lia.
Qed.
