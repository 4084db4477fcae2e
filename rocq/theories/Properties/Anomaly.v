(** How many ticks another number of threads costs (C114). *)
From Coq Require Import String Relations Lia.
From Verif Require Import Model.Common Model.Records Model.Jobs Model.TaskSet Model.Dag
     Model.Sched Model.Exec Model.ExecSet Spec.Graph Spec.Trace Spec.Tasks Spec.Parallel Spec.Constraints Properties.Demo
     Proofs.VisitFacts Proofs.ConstraintFacts Proofs.ConstraintDemo.
Open Scope string_scope.
Open Scope nat_scope.
Open Scope list_scope.

(** C114: a completed execution has at least two ticks more than the jobs of tasks that run one after
    the other were polled, and the polls of all jobs are shared among the threads.  With one thread
    this is exact (C13_one_thread). *)
Theorem C114_at_least : forall c z ls s er,
  wf_dag (c_dag c) -> run_labels c (init z) ls = Some s -> result s = RRecord er -> node_ids (c_dag c) <> [] ->
  (forall l, incl l (node_ids (c_dag c)) -> in_sequence (c_dag c) l -> all_polls (trace s) l + 2 <= ticks ls) /\
  all_polls (trace s) (node_ids (c_dag c)) + 2 * Nat.max 1 (c_threads c) <= Nat.max 1 (c_threads c) * ticks ls.
Proof. exact least_ticks_sharp. Qed.
Print Assumptions C114_at_least.

(** Two completed executions of the same graph: if no two tasks share a resource in the first one, and
    no job is found running by more polls than in the second one, then the first one has at most three
    times as many ticks, provided it has not fewer threads.  At most twice as many, if it has a
    thread for each task or executes the jobs in tick(). *)
Theorem C114_factor : forall c z ls s er c' z' ls' s' er',
  wf_dag (c_dag c) -> c_dag c' = c_dag c ->
  (forall v u r, In v (node_ids (c_dag c)) -> In u (node_ids (c_dag c)) -> v <> u -> In r (node_res c v) -> ~ In r (node_res c u)) ->
  run_labels c (init z) ls = Some s -> result s = RRecord er ->
  run_labels c' (init z') ls' = Some s' -> result s' = RRecord er' ->
  (forall n, In n (node_ids (c_dag c)) -> polls (trace s) n <= polls (trace s') n) ->
  c_threads c * ticks ls <= (2 * c_threads c + Nat.max 1 (c_threads c')) * ticks ls' /\
  (0 < c_threads c -> c_threads c' <= c_threads c -> ticks ls <= 3 * ticks ls') /\
  (c_threads c = 0 \/ List.length (node_ids (c_dag c)) <= c_threads c -> ticks ls <= 2 * ticks ls').
Proof. exact other_threads. Qed.
Print Assumptions C114_factor.

(** The same of two task sets, wherever the nodes of the tasks are in memory: the second execution has the
    selected tasks of the first one, and perhaps more, with their constraints, and perhaps more.  So neither
    moving the nodes, nor leaving out tasks, run_after or resources, nor more threads makes an execution more
    than three times as long. *)
Theorem C114_task_sets : forall st ts filt iv addr c z ls s er st' ts' filt' iv' addr' c' z' ls' s' er',
  execution_of st ts filt iv addr c -> execution_of st' ts' filt' iv' addr' c' ->
  (forall t, selected st ts filt t -> selected st' ts' filt' t) ->
  (forall a b, selected_after st ts filt a b -> task_after st' a b) ->
  (forall a b r, selected st ts filt a -> selected st ts filt b -> a <> b -> In r (t_resources (st_get st a)) -> ~ In r (t_resources (st_get st b))) ->
  run_labels c (init z) ls = Some s -> result s = RRecord er ->
  run_labels c' (init z') ls' = Some s' -> result s' = RRecord er' ->
  (forall t, selected st ts filt t -> polls (trace s) (addr t) <= polls (trace s') (addr' t)) ->
  c_threads c * ticks ls <= (2 * c_threads c + Nat.max 1 (c_threads c')) * ticks ls' /\
  (0 < c_threads c -> c_threads c' <= c_threads c -> ticks ls <= 3 * ticks ls') /\
  (c_threads c = 0 \/ List.length (node_ids (c_dag c)) <= c_threads c -> ticks ls <= 2 * ticks ls').
Proof. exact fewer_constraints. Qed.
Print Assumptions C114_task_sets.

(** * A concrete case *)

(** A history in which the job of [n] is polled [d n] times before it ends. *)
Fixpoint paced (c : config) (d : nid -> nat) (k : nat) (s : state) : list label :=
  match k with
  | O => []
  | S k =>
      if done s then []
      else match first_step c s (map LBegin (node_ids (c_dag c)) ++
                                 map (fun n => LEnd n ok) (filter (fun n => d n <=? polls (trace s) n) (node_ids (c_dag c))) ++ [LCtl; LTick]) with
           | Some (l, s') => l :: paced c d k s'
           | None => []
           end
  end.

(** Five tasks without resources: 4 runs after 3 and 5 after 2. *)
Definition odd (k : nat) : config :=
  Config (Dag [DNode 1 "a" 1; DNode 2 "b" 1; DNode 3 "c" 1; DNode 4 "d" 1; DNode 5 "e" 1] [Edge 4 3 AFTER; Edge 5 2 AFTER]) k
         demo_tasks (fun _ => IvRet true "").
Definition odd_polls (n : nid) : nat := match n with 1 => 2 | 2 => 2 | 3 => 1 | 5 => 2 | _ => 0 end.
Definition odd_labels (k : nat) : list label := paced (odd k) odd_polls 200 (init 0).

Lemma odd_wf k : wf_dag (c_dag (odd k)).
Proof.
  split; [cbn; repeat constructor; cbn; intuition discriminate|].
  intros e [<-|[<-|[]]]; cbn; auto 10.
Qed.
Lemma odd_res k v u r : In v (node_ids (c_dag (odd k))) -> In u (node_ids (c_dag (odd k))) -> v <> u ->
  In r (node_res (odd k) v) -> ~ In r (node_res (odd k) u).
Proof. intros Hv _ _ Hr. exfalso. cbn in Hv. destruct Hv as [<-|[<-|[<-|[<-|[<-|[]]]]]]; exact Hr. Qed.
Lemma odd_run k : k = 2 \/ k = 3 -> exists s er, run_labels (odd k) (init 0) (odd_labels k) = Some s /\ result s = RRecord er /\
  map (polls (trace s)) [1; 2; 3; 4; 5] = [2; 2; 1; 0; 2].
Proof. intros [->| ->]; do 2 eexists; (split; [vm_compute; reflexivity|]; split; vm_compute; reflexivity). Qed.

(** More threads are not always better: with a third thread, the same jobs, of the same lengths, take a tick more. *)
Theorem C114_more_threads_slower : exists c z ls s er c' z' ls' s' er',
  wf_dag (c_dag c) /\ c_dag c' = c_dag c /\ c_task c' = c_task c /\ c_inval c' = c_inval c /\
  (forall v r, In v (node_ids (c_dag c)) -> ~ In r (node_res c v)) /\
  run_labels c (init z) ls = Some s /\ result s = RRecord er /\
  run_labels c' (init z') ls' = Some s' /\ result s' = RRecord er' /\
  (forall n, In n (node_ids (c_dag c)) -> polls (trace s) n = polls (trace s') n) /\
  0 < c_threads c' /\ c_threads c' < c_threads c /\ ticks ls' < ticks ls.
Proof.
  destruct (odd_run 3 (or_intror eq_refl)) as (s & er & A1 & A2 & A3). destruct (odd_run 2 (or_introl eq_refl)) as (s' & er' & B1 & B2 & B3).
  exists (odd 3), 0%Z, (odd_labels 3), s, er, (odd 2), 0%Z, (odd_labels 2), s', er'.
  split; [apply odd_wf|]. split; [reflexivity|]. split; [reflexivity|]. split; [reflexivity|].
  split; [intros v r Hv Hr; cbn in Hv; destruct Hv as [<-|[<-|[<-|[<-|[<-|[]]]]]]; exact Hr|].
  split; [exact A1|]. split; [exact A2|]. split; [exact B1|]. split; [exact B2|].
  split; [|split; [cbn; lia|split; [cbn; lia|apply Nat.ltb_lt; vm_compute; reflexivity]]].
  intros n Hn. cbn [map] in A3, B3. injection A3 as P1 P2 P3 P4 P5. injection B3 as Q1 Q2 Q3 Q4 Q5.
  cbn in Hn. destruct Hn as [<-|[<-|[<-|[<-|[<-|[]]]]]]; lia.
Qed.
Print Assumptions C114_more_threads_slower.

(** These executions meet the hypotheses of both bounds: 9 ticks with two threads, 10 with three. *)
Example C114_case : exists s er s' er',
  run_labels (odd 3) (init 0) (odd_labels 3) = Some s /\ result s = RRecord er /\
  run_labels (odd 2) (init 0) (odd_labels 2) = Some s' /\ result s' = RRecord er' /\
  ticks (odd_labels 3) = 10 /\ ticks (odd_labels 2) = 9 /\
  ticks (odd_labels 3) <= 3 * ticks (odd_labels 2) /\
  all_polls (trace s) [5; 2] = 6 /\ 6 + 2 <= ticks (odd_labels 3).
Proof.
  destruct (odd_run 3 (or_intror eq_refl)) as (s & er & A1 & A2 & A3). destruct (odd_run 2 (or_introl eq_refl)) as (s' & er' & B1 & B2 & B3).
  exists s, er, s', er'. split; [exact A1|]. split; [exact A2|]. split; [exact B1|]. split; [exact B2|].
  split; [vm_compute; reflexivity|]. split; [vm_compute; reflexivity|].
  pose proof A3 as A3'. cbn [map] in A3, B3. injection A3 as P1 P2 P3 P4 P5. injection B3 as Q1 Q2 Q3 Q4 Q5.
  assert (E : all_polls (trace s) [5; 2] = 6) by (unfold all_polls, list_sum; cbn [map fold_right]; rewrite P2, P5; reflexivity).
  split; [|split; [exact E|]].
  - apply (C114_factor (odd 3) 0 (odd_labels 3) s er (odd 2) 0 (odd_labels 2) s' er' (odd_wf 3) eq_refl); try assumption.
    + apply odd_res.
    + intros n Hn. cbn in Hn. destruct Hn as [<-|[<-|[<-|[<-|[<-|[]]]]]]; lia.
    + cbn. lia.
    + cbn. lia.
  - rewrite <- E. apply (proj1 (C114_at_least (odd 3) 0 (odd_labels 3) s er (odd_wf 3) A1 A2 ltac:(discriminate))).
    + intros n [<-|[<-|[]]]; cbn; auto 10.
    + split; [apply t_step; cbn; auto|exact I].
Qed.

(** c (3) depends on a (1).  At first b (2) is to run after a and shares a resource with c; then neither, the nodes
    are elsewhere, and there is a third thread.  b is found running twice, c once. *)
Definition abc_polls (t : tid) : nat := match t with 2 => 2 | 3 => 1 | _ => 0 end.
Definition loose_labels : list label := paced loose (fun n => abc_polls (away n)) 200 (init 0).
Definition tight_labels : list label := paced tight abc_polls 200 (init 0).
Example C114_case_sets : exists s er s' er',
  execution_of loose_store abc "" changed away loose /\ execution_of tight_store abc "" changed (fun t => t) tight /\
  c_threads loose = 3 /\ c_threads tight = 2 /\
  run_labels loose (init 0) loose_labels = Some s /\ result s = RRecord er /\
  run_labels tight (init 0) tight_labels = Some s' /\ result s' = RRecord er' /\
  map (fun t => polls (trace s) (away t)) [1; 2; 3] = [0; 2; 1] /\ map (fun t => polls (trace s') t) [1; 2; 3] = [0; 2; 1] /\
  ticks loose_labels = 7 /\ ticks tight_labels = 8 /\ ticks loose_labels <= 2 * ticks tight_labels.
Proof.
  assert (A : exists s er, run_labels loose (init 0) loose_labels = Some s /\ result s = RRecord er /\
    map (fun t => polls (trace s) (away t)) [1; 2; 3] = [0; 2; 1])
    by (do 2 eexists; split; [vm_compute; reflexivity|]; split; vm_compute; reflexivity).
  assert (B : exists s er, run_labels tight (init 0) tight_labels = Some s /\ result s = RRecord er /\
    map (fun t => polls (trace s) t) [1; 2; 3] = [0; 2; 1])
    by (do 2 eexists; split; [vm_compute; reflexivity|]; split; vm_compute; reflexivity).
  destruct A as (s & er & A1 & A2 & A3). destruct B as (s' & er' & B1 & B2 & B3). exists s, er, s', er'.
  split; [exact exec_loose|]. split; [exact exec_tight|]. split; [vm_compute; reflexivity|]. split; [vm_compute; reflexivity|].
  split; [exact A1|]. split; [exact A2|]. split; [exact B1|]. split; [exact B2|]. split; [exact A3|]. split; [exact B3|].
  split; [vm_compute; reflexivity|]. split; [vm_compute; reflexivity|].
  apply (C114_task_sets loose_store abc "" changed away loose 0 loose_labels s er tight_store abc "" changed (fun t => t) tight 0 tight_labels s' er'
           exec_loose exec_tight); try assumption.
  - intros t. apply fewer_selected, loose_fewer.
  - intros a b (Sa & _ & H). destruct (loose_fewer a) as (_ & D1 & D2 & _). destruct H as [H|H]; [left; apply D1, H|right; apply D2, H].
  - intros a b r Sa _ _ H. exfalso. apply loose_selected in Sa. destruct a as [|[|[|[|a]]]]; try lia; exact H.
  - intros t St. apply loose_selected in St. cbn [map] in A3, B3. injection A3 as P1 P2 P3. injection B3 as Q1 Q2 Q3.
    assert (G : t = 1 \/ t = 2 \/ t = 3) by lia. destruct G as [->|[->| ->]]; lia.
  - right. apply Nat.leb_le. vm_compute. reflexivity.
Qed.
