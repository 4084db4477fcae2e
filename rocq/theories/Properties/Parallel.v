(** The number of ticks of a parallel execution (C90). *)
From Coq Require Import String Relations Lia.
From Verif Require Import Model.Common Model.Records Model.Jobs Model.TaskSet Model.Dag
     Model.Sched Model.Exec Spec.Graph Spec.Trace Spec.Parallel Proofs.ParallelFacts Properties.Demo.
Open Scope string_scope.
Open Scope nat_scope.
Open Scope list_scope.

(** C90: a completed execution needs at most one tick() per task, two more, one for each
    poll of the jobs on some chain of tasks that hold up each other, and [busy] ticks in
    which all threads are taken.  The latter are shared among the threads.  There are none
    if there are as many threads as tasks (0: jobs are executed by tick() itself). *)
Theorem C90_ticks : forall c z ls s er,
  wf_dag (c_dag c) -> run_labels c (init z) ls = Some s -> result s = RRecord er ->
  let ids := node_ids (c_dag c) in
  exists l busy, chain c (trace s) l /\ NoDup l /\ incl l ids /\
    ticks ls <= List.length ids + 2 + busy + all_polls (trace s) l /\
    c_threads c * busy <= all_polls (trace s) ids /\
    (c_threads c = 0 \/ List.length ids <= c_threads c -> busy = 0).
Proof. exact parallel_ticks. Qed.
Print Assumptions C90_ticks.

(** In particular: if no two tasks share a resource, no more than [depth] tasks run one after
    the other, and each job is found running by at most [d] polls. *)
Theorem C90_bound : forall c z ls s er depth d,
  wf_dag (c_dag c) -> run_labels c (init z) ls = Some s -> result s = RRecord er ->
  (forall v u r, In v (node_ids (c_dag c)) -> In u (node_ids (c_dag c)) -> v <> u -> In r (node_res c v) -> ~ In r (node_res c u)) ->
  (forall l, incl l (node_ids (c_dag c)) -> in_sequence (c_dag c) l -> List.length l <= depth) ->
  (forall n, In n (node_ids (c_dag c)) -> polls (trace s) n <= d) ->
  let N := List.length (node_ids (c_dag c)) in
  c_threads c * ticks ls <= c_threads c * (N + 2 + depth * S d) + N * S d /\
  (c_threads c = 0 \/ N <= c_threads c -> ticks ls <= N + 2 + depth * S d).
Proof. exact parallel_bound. Qed.
Print Assumptions C90_bound.

(** * A concrete case *)

(** A history in which each job is polled [d] times before it ends. *)
Fixpoint slowly (c : config) (d k : nat) (s : state) : list label :=
  match k with
  | O => []
  | S k =>
      if done s then []
      else match first_step c s (map LBegin (node_ids (c_dag c)) ++
                                 map (fun n => LEnd n ok) (filter (fun n => d <=? polls (trace s) n) (node_ids (c_dag c))) ++ [LCtl; LTick]) with
           | Some (l, s') => l :: slowly c d k s'
           | None => []
           end
  end.

(** Five tasks without resources; 2 runs after 1 and 3 after 2. *)
Definition five (k : nat) : config :=
  Config (Dag [DNode 1 "a" 1; DNode 2 "b" 1; DNode 3 "c" 1; DNode 4 "d" 1; DNode 5 "e" 1] [Edge 2 1 AFTER; Edge 3 2 AFTER]) k
         demo_tasks (fun _ => IvRet true "").
Definition five_labels (k : nat) : list label := slowly (five k) 4 200 (init 0).

Lemma five_wf k : wf_dag (c_dag (five k)).
Proof.
  split; [cbn; repeat constructor; cbn; intuition discriminate|].
  intros e [<-|[<-|[]]]; cbn; auto 6.
Qed.
Lemma five_res k v u r : In v (node_ids (c_dag (five k))) -> In u (node_ids (c_dag (five k))) -> v <> u ->
  In r (node_res (five k) v) -> ~ In r (node_res (five k) u).
Proof. intros Hv _ _ Hr. exfalso. cbn in Hv. destruct Hv as [<-|[<-|[<-|[<-|[<-|[]]]]]]; exact Hr. Qed.
Lemma five_after k t u : clos_trans nid (runs_after (c_dag (five k))) t u -> u < t <= 3.
Proof.
  induction 1 as [a b [H|[H|[]]]|a b d _ IH1 _ IH2]; try (injection H as <- <-; lia). lia.
Qed.
Lemma five_depth k l : incl l (node_ids (c_dag (five k))) -> in_sequence (c_dag (five k)) l -> List.length l <= 3.
Proof.
  assert (G : forall l t, 1 <= t -> incl l [1; 2; 3; 4; 5] -> in_sequence (c_dag (five k)) (t :: l) -> List.length l < t /\ (l <> [] -> t <= 3)).
  { clear l. induction l as [|u l IH]; intros t Ht Hi Hs; [cbn; split; [lia|congruence]|]. destruct Hs as [H1 H2]. apply five_after in H1.
    assert (1 <= u) by (destruct (Hi u (or_introl eq_refl)) as [<-|[<-|[<-|[<-|[<-|[]]]]]]; lia).
    destruct (IH u) as [H3 _]; [assumption|intros x Hx; apply Hi; right; exact Hx|exact H2|]. cbn. lia. }
  destruct l as [|t l]; intros Hi Hs; [cbn; lia|].
  destruct (G l t) as [H1 H2]; [|intros x Hx; apply Hi; right; exact Hx|exact Hs|].
  - pose proof (Hi t (or_introl eq_refl)) as Hin. cbn in Hin. destruct Hin as [<-|[<-|[<-|[<-|[<-|[]]]]]]; lia.
  - destruct l as [|x l]; [cbn; lia|]. assert (t <= 3) by (apply H2; discriminate). cbn [List.length] in *. unfold nid in *. lia.
Qed.

(** With two threads and with five; 25 polls would be needed one job after the other. *)
Example C90_case : exists s2 er2 s5 er5,
  run_labels (five 2) (init 0) (five_labels 2) = Some s2 /\ result s2 = RRecord er2 /\ map (polls (trace s2)) [1; 2; 3; 4; 5] = [4; 4; 4; 4; 4] /\
  2 * ticks (five_labels 2) <= 2 * (5 + 2 + 3 * 5) + 5 * 5 /\
  run_labels (five 5) (init 0) (five_labels 5) = Some s5 /\ result s5 = RRecord er5 /\ map (polls (trace s5)) [1; 2; 3; 4; 5] = [4; 4; 4; 4; 4] /\
  ticks (five_labels 5) <= 5 + 2 + 3 * 5 /\ ticks (five_labels 2) = 17 /\ ticks (five_labels 5) = 17.
Proof.
  assert (R : forall k, k = 2 \/ k = 5 -> exists s er, run_labels (five k) (init 0) (five_labels k) = Some s /\ result s = RRecord er /\
    map (polls (trace s)) [1; 2; 3; 4; 5] = [4; 4; 4; 4; 4]).
  { intros k [->| ->]; do 2 eexists; (split; [vm_compute; reflexivity|]; split; vm_compute; reflexivity). }
  destruct (R 2 (or_introl eq_refl)) as (s2 & er2 & A1 & A2 & A3). destruct (R 5 (or_intror eq_refl)) as (s5 & er5 & B1 & B2 & B3).
  assert (P : forall k s, map (polls (trace s)) [1; 2; 3; 4; 5] = [4; 4; 4; 4; 4] -> forall n, In n (node_ids (c_dag (five k))) -> polls (trace s) n <= 4).
  { intros k s H n Hn. cbn [map] in H. injection H as H1 H2 H3 H4 H5. cbn in Hn. destruct Hn as [<-|[<-|[<-|[<-|[<-|[]]]]]]; lia. }
  exists s2, er2, s5, er5. split; [exact A1|]. split; [exact A2|]. split; [exact A3|].
  split; [apply (C90_bound (five 2) 0 (five_labels 2) s2 er2 3 4 (five_wf 2) A1 A2 (five_res 2) (five_depth 2) (P 2 s2 A3))|].
  split; [exact B1|]. split; [exact B2|]. split; [exact B3|].
  split; [|split; vm_compute; reflexivity].
  apply (C90_bound (five 5) 0 (five_labels 5) s5 er5 3 4 (five_wf 5) B1 B2 (five_res 5) (five_depth 5) (P 5 s5 B3)). right. cbn. lia.
Qed.

(** Three tasks, none after another, that need the same resource: they are executed one after
    the other, so the premise on resources is needed. *)
Definition three_tasks (t : tid) : task := Task true [] [] [] [7] false.
Definition three : config :=
  Config (Dag [DNode 1 "a" 1; DNode 2 "b" 2; DNode 3 "c" 3] []) 3 three_tasks (fun _ => IvRet true "").
Definition three_labels : list label := slowly three 4 200 (init 0).

Theorem C90_needs_resources : exists c z ls s er depth d,
  wf_dag (c_dag c) /\ run_labels c (init z) ls = Some s /\ result s = RRecord er /\
  (forall l, incl l (node_ids (c_dag c)) -> in_sequence (c_dag c) l -> List.length l <= depth) /\
  (forall n, In n (node_ids (c_dag c)) -> polls (trace s) n <= d) /\
  let N := List.length (node_ids (c_dag c)) in
  N <= c_threads c /\ N + 2 + depth * S d < ticks ls.
Proof.
  assert (R : exists s er, run_labels three (init 0) three_labels = Some s /\ result s = RRecord er /\
    map (polls (trace s)) [1; 2; 3] = [4; 4; 4]) by (do 2 eexists; split; [vm_compute; reflexivity|]; split; vm_compute; reflexivity).
  destruct R as (s & er & A1 & A2 & A3).
  exists three, 0%Z, three_labels, s, er, 1, 4.
  split; [split; [cbn; repeat constructor; cbn; intuition discriminate|intros e []]|].
  split; [exact A1|]. split; [exact A2|].
  split; [|split; [|split; [cbn; lia|apply Nat.ltb_lt; vm_compute; reflexivity]]].
  - intros l _ Hs. destruct l as [|t [|u l]]; [cbn; lia|cbn; lia|]. destruct Hs as [H _]. exfalso.
    induction H as [a b []|a b d _ IH _ _]. exact IH.
  - intros n Hn. cbn [map] in A3. injection A3 as H1 H2 H3. cbn in Hn. destruct Hn as [<-|[<-|[<-|[]]]]; lia.
Qed.
Print Assumptions C90_needs_resources.
