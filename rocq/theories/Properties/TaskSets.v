(** Task sets and the graphs and executions made of them: C17, C18, C19, C20, C54, C60, and
    C01, C02, C03, C05, C10, C55 for executions of task sets. *)
From Coq Require Import String Relations Permutation Sorted.
From Verif Require Import Model.Common Model.Records Model.Jobs Model.TaskSet Model.Dag
     Model.Sched Model.Exec Model.ExecSet Spec.Graph Spec.Trace Spec.Tasks
     Properties.Demo Proofs.DemoFacts Proofs.TaskFacts Proofs.BuildProps Proofs.SetExec.
Open Scope string_scope.
Open Scope nat_scope.
Open Scope list_scope.

(** * C19 Full task names *)
Theorem C19_visit_order : forall ts,
  ordered ts ->
  exists vs, for_each_task ts = map (fun pt => (full_name (fst pt), snd pt)) vs /\
             (forall p t, In (p, t) vs <-> holds ts p t) /\
             StronglySorted comes_before (map fst vs) /\ NoDup (map fst vs).
Proof. exact visit_order. Qed.
Print Assumptions C19_visit_order.

Theorem C19_names_distinct : forall p q,
  plain p -> plain q -> full_name p = full_name q -> p = q.
Proof. exact full_name_inj. Qed.
Print Assumptions C19_names_distinct.

(** With a slash in a component two places can have one name. *)
Theorem C19_slash_ambiguous : exists ts p q t u,
  ordered ts /\ owned ts /\ holds ts p t /\ holds ts q u /\ t <> u /\ full_name p = full_name q.
Proof.
  exists (TaskSet [("a/b", 1)] [("a", TaskSet [("b", 2)] [])]), ["a/b"], ["a"; "b"], 1, 2.
  split; [|split; [|split; [repeat constructor|split]]].
  - constructor; [repeat constructor..|]. intros name s [E|[]]. inversion E; subst.
    constructor; [repeat constructor..|]. intros ? ? [].
  - apply owned_visited. repeat constructor; cbn; intuition discriminate.
  - eapply holds_below; [left; reflexivity|]. constructor. left. reflexivity.
  - split; [discriminate|reflexivity].
Qed.
Print Assumptions C19_slash_ambiguous.

Lemma demo_ordered : ordered demo_set.
Proof.
  constructor; [repeat constructor..|]. intros name s [E|[]]. inversion E; subst.
  constructor; [repeat constructor..|]. intros ? ? [].
Qed.
Lemma demo_owned : owned demo_set.
Proof. apply owned_visited. repeat constructor; cbn; intuition discriminate. Qed.

Example C19_case :
  ordered demo_set /\ plain ["src"; "lib"] /\
  for_each_task demo_set = [("//app", 3); ("//doc", 4); ("//gen", 1); ("//src/lib", 2); ("//src/lint", 6); ("//src/test", 5)].
Proof.
  split; [exact demo_ordered|]. split; [|reflexivity]. intros c [<-|[<-|[]]]; reflexivity.
Qed.

(** * C20 Bulk dependency helpers *)
Theorem C20_for_each_add_dep : forall st ts dep,
  ordered ts -> owned ts ->
  let st' := for_each_add_dep st ts dep in
  st_dom st' = st_dom st /\
  (forall x p, holds ts p x -> x <> dep ->
     let y := st_get st x in
     st_get st' x = Task (t_has_job y) (t_depends_on y ++ [dep]) (t_run_after y) (t_invalidated_by y)
                         (t_resources y) (t_hidden y)) /\
  (forall x, ~ (exists p, holds ts p x) \/ x = dep -> st_get st' x = st_get st x).
Proof. exact for_each_add_dep_spec. Qed.
Print Assumptions C20_for_each_add_dep.

Theorem C20_run_each_after : forall st ts t,
  ordered ts -> owned ts ->
  let st' := run_each_after st ts t in
  st_dom st' = st_dom st /\
  (forall x p, holds ts p x -> x <> t ->
     let y := st_get st x in
     st_get st' x = Task (t_has_job y) (t_depends_on y) (t_run_after y ++ [t]) (t_invalidated_by y)
                         (t_resources y) (t_hidden y)) /\
  (forall x, ~ (exists p, holds ts p x) \/ x = t -> st_get st' x = st_get st x).
Proof. exact run_each_after_spec. Qed.
Print Assumptions C20_run_each_after.

Theorem C20_add_dep_to_each : forall st t ts,
  ordered ts -> owned ts ->
  let st' := add_dep_to_each st t ts in
  let x := st_get st t in
  st_dom st' = st_dom st /\
  (forall y, y <> t -> st_get st' y = st_get st y) /\
  exists l, l = filter (fun d => negb (d =? t)) (map snd (for_each_task ts)) /\
    NoDup l /\ (forall d, In d l <-> d <> t /\ exists p, holds ts p d) /\
    st_get st' t = Task (t_has_job x) (t_depends_on x ++ l) (t_run_after x) (t_invalidated_by x)
                        (t_resources x) (t_hidden x).
Proof. exact add_dep_to_each_spec. Qed.
Print Assumptions C20_add_dep_to_each.

Theorem C20_run_after_all_of : forall st t ts,
  ordered ts -> owned ts ->
  let st' := run_after_all_of st t ts in
  let x := st_get st t in
  st_dom st' = st_dom st /\
  (forall y, y <> t -> st_get st' y = st_get st y) /\
  exists l, l = filter (fun d => negb (d =? t)) (map snd (for_each_task ts)) /\
    NoDup l /\ (forall d, In d l <-> d <> t /\ exists p, holds ts p d) /\
    st_get st' t = Task (t_has_job x) (t_depends_on x) (t_run_after x ++ l) (t_invalidated_by x)
                        (t_resources x) (t_hidden x).
Proof. exact run_after_all_of_spec. Qed.
Print Assumptions C20_run_after_all_of.

Theorem C20_invalidated_by_all_of : forall st t ts,
  ordered ts -> owned ts ->
  let st' := invalidated_by_all_of st t ts in
  let x := st_get st t in
  st_dom st' = st_dom st /\
  (forall y, y <> t -> st_get st' y = st_get st y) /\
  exists l, l = filter (fun d => negb (d =? t)) (map snd (for_each_task ts)) /\
    NoDup l /\ (forall d, In d l <-> d <> t /\ exists p, holds ts p d) /\
    st_get st' t = Task (t_has_job x) (t_depends_on x) (t_run_after x) (t_invalidated_by x ++ l)
                        (t_resources x) (t_hidden x).
Proof. exact invalidated_by_all_of_spec. Qed.
Print Assumptions C20_invalidated_by_all_of.

(** lint is in the set itself. *)
Example C20_case :
  ordered demo_set /\ owned demo_set /\
  map (fun t => t_depends_on (st_get (for_each_add_dep demo_store demo_set 6) t)) [1; 2; 3; 4; 5; 6] =
    [[6]; [1; 6]; [2; 6]; [6]; [3; 6]; []] /\
  t_run_after (st_get (run_after_all_of demo_store 6 demo_set) 6) = [3; 4; 1; 2; 5].
Proof. split; [exact demo_ordered|]. split; [exact demo_owned|]. split; reflexivity. Qed.

(** * C60 Adding a common dependency keeps the set executable *)
Theorem C60_add_dep_keeps_acyclic : forall st ts dep,
  ordered ts -> owned ts -> ~ task_cyclic st ->
  (forall x p, holds ts p x -> x <> dep -> ~ clos_trans tid (task_after st) dep x) ->
  ~ task_cyclic (for_each_add_dep st ts dep).
Proof. exact add_dep_keeps_acyclic. Qed.
Print Assumptions C60_add_dep_keeps_acyclic.

Theorem C60_add_dep_makes_cycle : forall st ts dep x p,
  ordered ts -> owned ts -> holds ts p x -> x <> dep -> clos_trans tid (task_after st) dep x ->
  task_cyclic (for_each_add_dep st ts dep).
Proof. exact add_dep_makes_cycle. Qed.
Print Assumptions C60_add_dep_makes_cycle.

(** lint depends on nothing, gen neither; app runs after gen. *)
Example C60_case :
  ordered demo_set /\ owned demo_set /\ ~ task_cyclic demo_store /\
  (forall x p, holds demo_set p x -> x <> 6 -> ~ clos_trans tid (task_after demo_store) 6 x) /\
  holds demo_set ["gen"] 1 /\ clos_trans tid (task_after demo_store) 3 1.
Proof.
  split; [exact demo_ordered|]. split; [exact demo_owned|].
  assert (Hst : forall a b, task_after demo_store a b -> (a = 2 /\ b = 1) \/ (a = 3 /\ b = 2) \/ (a = 4 /\ b = 1) \/ (a = 5 /\ b = 3)).
  { intros a b [H|H]; do 7 (destruct a as [|a]; [cbn in H; intuition|]); destruct H. }
  assert (Hlt : forall a b, clos_trans tid (task_after demo_store) a b -> b < a).
  { intros a b H. induction H as [a b H|a b d _ I1 _ I2]; [|eapply Nat.lt_trans; eassumption].
    apply Hst in H. destruct H as [[-> ->]|[[-> ->]|[[-> ->]|[-> ->]]]]; repeat constructor. }
  split; [|split; [|split; [constructor; cbn; auto|]]].
  - intros [t Ht]. apply Hlt in Ht. now apply Nat.lt_irrefl in Ht.
  - intros x p _ _ H. apply clos_trans_t1n in H. destruct H as [y H|y z H _]; apply Hst in H;
      destruct H as [[E _]|[[E _]|[[E _]|[E _]]]]; discriminate.
  - eapply t_trans with 2; apply t_step; left; cbn; auto.
Qed.

(** * C17 Filter selects exactly the matching tasks and their dependencies *)
Theorem C17_selects_exactly : forall g0 st ts filt addr ord1 ord2 g n,
  some_order ord1 -> some_order ord2 -> owned ts ->
  insert_set g0 st ts filt addr ord1 ord2 = Built (g, n) ->
  exists new, d_nodes g = new ++ d_nodes g0 /\ NoDup (map n_task new) /\
    (forall t, In t (map n_task new) <-> selected st ts filt t) /\
    (forall x, In x new ->
       n_id x = addr (n_task x) /\
       (forall p, holds ts p (n_task x) -> n_name x = full_name p) /\
       (~ (exists p, holds ts p (n_task x)) -> n_name x = "")).
Proof. intros. eapply selects_exactly; eassumption. Qed.
Print Assumptions C17_selects_exactly.

(** It is built unless a selected task no longer exists, whatever cycles there are. *)
Theorem C17_defined : forall g0 st ts filt addr ord1 ord2,
  some_order ord1 -> some_order ord2 ->
  ((exists r, insert_set g0 st ts filt addr ord1 ord2 = Built r) <-> live st (selected st ts filt)).
Proof. intros. now apply insert_set_defined. Qed.
Print Assumptions C17_defined.

(** Otherwise the behaviour is undefined; there is no third case. *)
Theorem C17_undefined : forall g0 st ts filt addr ord1 ord2,
  some_order ord1 -> some_order ord2 ->
  (insert_set g0 st ts filt addr ord1 ord2 = BuildUB <-> exists t, selected st ts filt t /\ ~ In t (st_dom st)) /\
  insert_set g0 st ts filt addr ord1 ord2 <> BuildFuel.
Proof. exact insert_set_undefined. Qed.
Print Assumptions C17_undefined.

Theorem C17_exec_undefined : forall st ts threads filt iv addr ord1 ord2,
  some_order ord1 -> some_order ord2 ->
  (exec_set st ts threads filt iv addr ord1 ord2 = BuildUB <-> exists t, selected st ts filt t /\ ~ In t (st_dom st)) /\
  exec_set st ts threads filt iv addr ord1 ord2 <> BuildFuel.
Proof. exact exec_set_undefined. Qed.
Print Assumptions C17_exec_undefined.

(** The result is a graph on which the theorems about executions apply. *)
Theorem C17_well_formed : forall g0 st ts filt addr ord1 ord2 g n,
  some_order ord1 -> some_order ord2 -> insert_set g0 st ts filt addr ord1 ord2 = Built (g, n) ->
  wf_dag g0 -> fresh_nodes g0 addr (selected st ts filt) -> wf_dag g.
Proof. intros. eapply built_wf; eassumption. Qed.
Print Assumptions C17_well_formed.

(** Filter "lib" selects lib and gen; a second set is added to the same graph. *)
Example C17_case : exists g1 g2,
  owned demo_set /\ some_order (fun l : list tid => l) /\
  insert_set dag0 demo_store demo_set "lib" (fun t => t) (fun l => l) (fun l => l) = Built (g1, 0) /\
  wf_dag g1 /\ map n_name (d_nodes g1) = ["//gen"; "//src/lib"] /\
  insert_set g1 demo_store demo_set "/lint" (fun t => t + 10) (fun l => l) (fun l => l) = Built (g2, 0) /\
  wf_dag g2 /\ map n_name (d_nodes g2) = ["//src/lint"; "//gen"; "//src/lib"].
Proof.
  eexists. eexists. split; [exact demo_owned|]. split; [intros l; apply Permutation_refl|].
  split; [vm_compute; reflexivity|]. split; [apply wf_dagb_wf; vm_compute; reflexivity|].
  split; [reflexivity|]. split; [vm_compute; reflexivity|].
  split; [apply wf_dagb_wf; vm_compute; reflexivity|reflexivity].
Qed.

(** A cycle of depends_on is no obstacle to building. *)
Example C17_case_cycle : exists g,
  insert_set dag0 (Store [1; 2] (fun t => Task true [3 - t] [] [] [] false))
             (TaskSet [("a", 1)] []) "a" (fun t => t) (fun l => l) (fun l => l) = Built (g, 1) /\
  node_ids g = [2; 1].
Proof. eexists. split; vm_compute; reflexivity. Qed.

(** A task depends on one that was destroyed. *)
Example C17_case_destroyed :
  exec_set (Store [2] (fun t => Task true (if t =? 2 then [1] else []) [] [] [] false)) (TaskSet [("b", 2)] []) 1 "b"
           (fun _ => IvRet true "") (fun t => t) (fun l => l) (fun l => l) = BuildUB.
Proof. reflexivity. Qed.

(** * C18 Edges mirror the declared relations *)
Theorem C18_edges_declared : forall g0 st ts filt addr ord1 ord2 g n,
  some_order ord1 -> some_order ord2 -> insert_set g0 st ts filt addr ord1 ord2 = Built (g, n) ->
  exists l, NoDup l /\ (forall t, In t l <-> selected st ts filt t) /\
    Permutation (d_edges g) (flat_map (declared_edges st addr l) l ++ d_edges g0).
Proof. intros. eapply edges_declared; eassumption. Qed.
Print Assumptions C18_edges_declared.

Theorem C18_requires_runs_after : forall g0 st ts filt addr ord1 ord2 g n,
  some_order ord1 -> some_order ord2 -> insert_set g0 st ts filt addr ord1 ord2 = Built (g, n) ->
  requires_after g0 -> requires_after g.
Proof. intros. eapply built_requires_after; eassumption. Qed.
Print Assumptions C18_requires_runs_after.

Theorem C18_requires_inval_by : forall g0 st ts filt addr ord1 ord2 g n,
  some_order ord1 -> some_order ord2 -> insert_set g0 st ts filt addr ord1 ord2 = Built (g, n) ->
  (forall a b, requires g0 a b -> inval_by g0 a b) -> forall a b, requires g a b -> inval_by g a b.
Proof. intros. eapply built_requires_inval; eassumption. Qed.
Print Assumptions C18_requires_inval_by.

Example C18_case : exists g,
  insert_set dag0 demo_store demo_set "/doc" (fun t => t) (fun l => l) (fun l => l) = Built (g, 0) /\
  d_edges g = [] /\ List.length (d_edges demo_dag) = 10.
Proof. eexists. split; [vm_compute; reflexivity|]. split; vm_compute; reflexivity. Qed.

(** * C54 Dependencies outside the task set *)

(** The map insert_set iterates over grows during the loop by one key for each selected task
    outside the set. *)
Theorem C54_insertions_while_iterating : forall g0 st ts filt addr ord1 ord2 g n,
  some_order ord1 -> some_order ord2 -> insert_set g0 st ts filt addr ord1 ord2 = Built (g, n) ->
  exists l, NoDup l /\ (forall t, In t l <-> selected st ts filt t /\ ~ exists p, holds ts p t) /\
            n = List.length l.
Proof. intros. eapply insertions_while_iterating; eassumption. Qed.
Print Assumptions C54_insertions_while_iterating.

(** Whatever number of buckets the map has while it holds the one task of the set (with the
    standard maximum load of one element per bucket): the loop can be made to insert so many
    keys that it must be rehashed, which invalidates the iterator of the loop. *)
Theorem C54_refuted : forall buckets,
  exists st ts g n, ordered ts /\ owned ts /\ live st (selected st ts "") /\
    insert_set dag0 st ts "" (fun t => t) (fun l => l) (fun l => l) = Built (g, n) /\
    List.length (for_each_task ts) = 1 /\ buckets < List.length (for_each_task ts) + n.
Proof. exact rehash_while_iterating. Qed.
Print Assumptions C54_refuted.

(** With no dependencies outside the set nothing is inserted. *)
Theorem C54_closed_set_partial : forall g0 st ts filt addr ord1 ord2 g n,
  some_order ord1 -> some_order ord2 -> insert_set g0 st ts filt addr ord1 ord2 = Built (g, n) ->
  (forall a b, (exists p, holds ts p a) -> depends_on st a b -> exists p, holds ts p b) -> n = 0.
Proof. exact closed_set. Qed.
Print Assumptions C54_closed_set_partial.

Example C54_case : exists g,
  insert_set dag0 demo_store demo_set "" (fun t => t) (fun l => l) (fun l => l) = Built (g, 0) /\
  forall a b, (exists p, holds demo_set p a) -> depends_on demo_store a b -> exists p, holds demo_set p b.
Proof.
  eexists. split; [vm_compute; reflexivity|]. intros a b _ H. apply visited_holds. unfold depends_on in H.
  do 7 (destruct a as [|a]; [cbn in H; cbn; intuition|]). destruct H.
Qed.

(** * Executions of task sets *)
Definition set_demo : config :=
  match exec_set demo_store demo_set 2 "" demo_inval (fun t => t) (fun l => l) (fun l => l) with
  | Built c => c
  | _ => demo 2
  end.
Lemma exec_set_demo : execution_of demo_store demo_set "" demo_inval (fun t => t) set_demo.
Proof.
  exists 2, (fun l => l), (fun l => l).
  split; [intros l; apply Permutation_refl|]. split; [intros l; apply Permutation_refl|].
  split; [exact demo_ordered|]. split; [exact demo_owned|].
  split; [split; [auto|intros a _ []]|]. vm_compute. reflexivity.
Qed.
Definition set_end (o : nid -> job_outcome) : state := go set_demo (drive set_demo o 60 (init 0)).
Lemma reach_set_end : reachable set_demo 0 (set_end all_ok).
Proof. apply go_reachable. vm_compute. reflexivity. Qed.
Lemma reach_set_fail : reachable set_demo 0 (set_end lib_fails).
Proof. apply go_reachable. vm_compute. reflexivity. Qed.
Lemma selected_demo t : In t [1; 2; 3; 4; 5; 6] -> selected demo_store demo_set "" t.
Proof.
  intros H. assert (Hh : exists p, holds demo_set p t) by (apply visited_holds; vm_compute; cbn in H; tauto).
  destruct Hh as [p Hp]. exists p, t. split; [exact Hp|]. split; [now exists "", (full_name p)|apply rt_refl].
Qed.

Lemma selected_only t : selected demo_store demo_set "" t -> In t [1; 2; 3; 4; 5; 6].
Proof.
  intros (p & r & Hp & _ & H). assert (Hr : In r (visited demo_set)) by (apply visited_holds; eauto).
  apply clos_rt_rtn1 in H. induction H as [|a b H _ IH]; [revert Hr; vm_compute; intuition|].
  unfold depends_on in H. cbn in IH. repeat destruct IH as [<-|IH]; try destruct IH; revert H; vm_compute; intuition.
Qed.

(** C01: one record for each selected task and no other, under its full name. *)
Theorem C01_of_task_set : forall st ts filt iv addr c z s er,
  execution_of st ts filt iv addr c -> reachable c z s -> result s = RRecord er ->
  NoDup (map r_task (er_runs er)) /\
  (forall t, In t (map r_task (er_runs er)) <-> selected st ts filt t) /\
  er_total er = List.length (er_runs er) /\
  (forall r, In r (er_runs er) -> r_node r = addr (r_task r) /\
     forall p, holds ts p (r_task r) -> r_name r = full_name p).
Proof. intros. eapply set_recorded_once; eassumption. Qed.
Print Assumptions C01_of_task_set.

(** C02 *)
Theorem C02_of_task_set : forall st ts filt iv addr c z s a b pre post,
  execution_of st ts filt iv addr c -> reachable c z s ->
  selected_after st ts filt a b -> trace s = pre ++ EBegin (addr a) :: post ->
  recorded pre (addr b) /\ (In (EBegin (addr b)) pre -> exists o, In (EEnd (addr b) o) pre) /\
  ~ In (EBegin (addr b)) post.
Proof. intros. eapply set_order; eassumption. Qed.
Print Assumptions C02_of_task_set.

(** C03 *)
Theorem C03_of_task_set : forall st ts filt iv addr c z s pre post a b r,
  execution_of st ts filt iv addr c -> reachable c z s -> trace s = pre ++ post ->
  selected st ts filt a -> selected st ts filt b ->
  In (addr a) (running pre) -> In (addr b) (running pre) ->
  In r (t_resources (st_get st a)) -> In r (t_resources (st_get st b)) -> a = b.
Proof. intros. eapply set_resource_exclusion; eassumption. Qed.
Print Assumptions C03_of_task_set.

(** C05 *)
Theorem C05_of_task_set : forall st ts filt iv addr c z s a b rb,
  execution_of st ts filt iv addr c -> reachable c z s -> selected st ts filt a ->
  clos_trans tid (depends_on st) a b ->
  In rb (records (trace s)) -> r_node rb = addr b -> is_bad (r_status rb) = true ->
  ~ In (EBegin (addr a)) (trace s) /\
  (forall ra, In ra (records (trace s)) -> r_node ra = addr a -> r_status ra = DEPF) /\
  (forall er, result s = RRecord er ->
     exists ra, In ra (er_runs er) /\ r_node ra = addr a /\ r_status ra = DEPF).
Proof. intros. eapply set_failed_blocks; eassumption. Qed.
Print Assumptions C05_of_task_set.

(** C10 *)
Theorem C10_of_task_set : forall st ts filt iv addr c z s0 s,
  execution_of st ts filt iv addr c -> reachable c z s0 -> s_pc s0 = Created ->
  step c s0 LTick = Some s ->
  (result s = RThrow ExcCycle <-> exists t, clos_trans tid (selected_after st ts filt) t t).
Proof. intros. eapply set_cycle_detected; eassumption. Qed.
Print Assumptions C10_of_task_set.

(** C55, for the graph and for the task set *)
Theorem C55_skip_closed_inval : forall c z s er a b,
  wf_dag (c_dag c) -> requires_after (c_dag c) -> reachable c z s -> result s = RRecord er ->
  (forall a b, requires (c_dag c) a b -> inval_by (c_dag c) a b) ->
  clos_trans nid (fun x y => inval_by (c_dag c) x y) a b ->
  (exists r, In r (er_runs er) /\ r_node r = a /\ r_status r = SKIP) ->
  exists r, In r (er_runs er) /\ r_node r = b /\ r_status r = SKIP.
Proof. exact skip_closed_inval. Qed.
Print Assumptions C55_skip_closed_inval.

Theorem C55_of_task_set : forall st ts filt iv addr c z s er a b,
  execution_of st ts filt iv addr c -> reachable c z s -> result s = RRecord er ->
  clos_trans tid (selected_inval st ts filt) a b ->
  (exists r, In r (er_runs er) /\ r_task r = a /\ r_status r = SKIP) ->
  exists r, In r (er_runs er) /\ r_task r = b /\ r_status r = SKIP.
Proof. intros. eapply set_skip_closed; eassumption. Qed.
Print Assumptions C55_of_task_set.

Example task_set_case :
  execution_of demo_store demo_set "" demo_inval (fun t => t) set_demo /\
  reachable set_demo 0 (set_end lib_fails) /\
  (exists er, result (set_end lib_fails) = RRecord er /\
     map (fun r => (r_name r, r_status r)) (er_runs er) =
       [("//gen", OK); ("//src/lib", FAIL); ("//app", DEPF); ("//doc", SKIP); ("//src/test", DEPF); ("//src/lint", OK)]) /\
  selected_after demo_store demo_set "" 4 1 /\ selected demo_store demo_set "" 5 /\
  clos_trans tid (depends_on demo_store) 5 2 /\
  (exists pre post, trace (set_end lib_fails) = pre ++ EBegin 2 :: post).
Proof.
  split; [exact exec_set_demo|]. split; [exact reach_set_fail|].
  split; [eexists; split; vm_compute; reflexivity|].
  split; [split; [apply selected_demo; cbn; auto|split; [apply selected_demo; cbn; auto|right; cbn; auto]]|].
  split; [apply selected_demo; cbn; auto 10|].
  split; [eapply t_trans with 3; apply t_step; cbn; auto|]. apply in_split. find_in.
Qed.

(** The skipped task doc ... of a set in which nothing is invalidated. *)
Example C55_case_set : exists c s er,
  execution_of demo_store demo_set "" (fun _ => IvRet false "") (fun t => t) c /\
  reachable c 0 s /\ result s = RRecord er /\ selected_inval demo_store demo_set "" 2 1 /\
  exists r, In r (er_runs er) /\ r_task r = 2 /\ r_status r = SKIP.
Proof.
  set (c := match exec_set demo_store demo_set 2 "" (fun _ => IvRet false "") (fun t => t) (fun l => l) (fun l => l) with
            | Built c => c | _ => demo 2 end).
  set (s := go c (drive c all_ok 60 (init 0))).
  assert (E : exists er, result s = RRecord er) by (eexists; vm_compute; reflexivity).
  destruct E as [er E]. exists c, s, er. split.
  { exists 2, (fun l => l), (fun l => l).
    split; [intros l; apply Permutation_refl|]. split; [intros l; apply Permutation_refl|].
    split; [exact demo_ordered|]. split; [exact demo_owned|].
    split; [split; [auto|intros a _ []]|]. vm_compute. reflexivity. }
  split; [apply go_reachable; vm_compute; reflexivity|]. split; [exact E|].
  split; [split; [apply selected_demo; cbn; auto|split; [apply selected_demo; cbn; auto|left; cbn; auto]]|].
  exists (nth 1 (er_runs er) (RunRecord 0 0 "" OK 0 0 0 [])).
  revert E. vm_compute. intros E. inversion E. cbn. intuition.
Qed.

(** For C03: lib and app use resource 7, and app is executed at some instant. *)
Example C03_case_set : exists pre post,
  trace (set_end all_ok) = pre ++ post /\ selected demo_store demo_set "" 2 /\ selected demo_store demo_set "" 3 /\
  In 3 (running pre) /\ In 7 (t_resources (st_get demo_store 2)) /\ In 7 (t_resources (st_get demo_store 3)).
Proof.
  exists (firstn 40 (trace (set_end all_ok))), (skipn 40 (trace (set_end all_ok))).
  split; [symmetry; apply firstn_skipn|]. split; [apply selected_demo; cbn; auto|].
  split; [apply selected_demo; cbn; auto|]. split; [find_in|]. split; find_in.
Qed.

(** For C10: two tasks that depend on each other. *)
Definition cyclic_store : store := Store [1; 2] (fun t => Task true [3 - t] [] [] [] false).
Definition cyclic_set : task_set := TaskSet [("a", 1); ("b", 2)] [].
Example C10_case_set : exists c s,
  execution_of cyclic_store cyclic_set "" demo_inval (fun t => t) c /\
  reachable c 0 (init 0) /\ s_pc (init 0) = Created /\ step c (init 0) LTick = Some s /\
  result s = RThrow ExcCycle /\ clos_trans tid (selected_after cyclic_store cyclic_set "") 1 1.
Proof.
  assert (Hh : forall t, In t [1; 2] -> selected cyclic_store cyclic_set "" t).
  { intros t H. assert (Hp : exists p, holds cyclic_set p t) by (apply visited_holds; vm_compute; cbn in H; tauto).
    destruct Hp as [p Hp]. exists p, t. split; [exact Hp|]. split; [now exists "", (full_name p)|apply rt_refl]. }
  eexists. eexists. split.
  { exists 2, (fun l => l), (fun l => l).
    split; [intros l; apply Permutation_refl|]. split; [intros l; apply Permutation_refl|].
    split; [constructor; [repeat constructor..|intros ? ? []]|].
    split; [apply owned_visited; repeat constructor; cbn; intuition discriminate|].
    split; [split; [auto|intros a _ []]|]. vm_compute. reflexivity. }
  split; [exists []; reflexivity|]. split; [reflexivity|]. split; [reflexivity|]. split; [vm_compute; reflexivity|].
  eapply t_trans with 2; apply t_step; (split; [apply Hh; cbn; auto|split; [apply Hh; cbn; auto|left; cbn; auto]]).
Qed.

(** For C55 on graphs: the demo graph, where nothing is invalidated. *)
Example C55_case_graph : exists s er,
  let c := Config demo_dag 2 demo_tasks (fun _ => IvRet false "") in
  wf_dag (c_dag c) /\ requires_after (c_dag c) /\ reachable c 0 s /\ result s = RRecord er /\
  (forall a b, requires (c_dag c) a b -> inval_by (c_dag c) a b) /\
  clos_trans nid (fun x y => inval_by (c_dag c) x y) 3 1 /\
  exists r, In r (er_runs er) /\ r_node r = 3 /\ r_status r = SKIP.
Proof.
  set (c := Config demo_dag 2 demo_tasks (fun _ => IvRet false "")).
  set (s := go c (drive c all_ok 60 (init 0))).
  assert (E : exists er, result s = RRecord er) by (eexists; vm_compute; reflexivity).
  destruct E as [er E]. exists s, er. cbv zeta.
  split; [exact wf_demo|]. split; [exact req_after_demo|].
  split; [apply go_reachable; vm_compute; reflexivity|]. split; [exact E|].
  split.
  { intros a b H. unfold requires in H. unfold inval_by. revert H. vm_compute.
    intros H; repeat (destruct H as [H|H]; [inversion H; subst; auto 20|]); destruct H. }
  split; [eapply t_trans with 2; apply t_step; find_in|].
  exists (nth 2 (er_runs er) (RunRecord 0 0 "" OK 0 0 0 [])).
  revert E. vm_compute. intros E. inversion E. cbn. intuition.
Qed.
