(** The use of the job objects, and graphs filled by several calls of insert_set: C78, C79. *)
From Coq Require Import String Relations Permutation.
From Verif Require Import Model.Common Model.Records Model.Jobs Model.TaskSet Model.Dag
     Model.Sched Model.Exec Model.ExecSet Spec.Graph Spec.Trace Spec.Tasks Spec.JobUse
     Properties.Demo Properties.TaskSets Proofs.DemoFacts Proofs.TaskFacts Proofs.JobUse.
Open Scope string_scope.
Open Scope nat_scope.
Open Scope list_scope.

(** * C78 A job object is used once, by one thread at a time *)

(** Whatever has happened so far: the calls on the job of a task are the beginning of
    "is_invalidated, run entered, run left"; jobs of other tasks are not touched. *)
Theorem C78_used_once : forall st ts filt iv addr c z s t,
  execution_of st ts filt iv addr c -> reachable c z s ->
  begins_with one_use (job_calls (c_dag c) t (trace s)) /\
  (job_calls (c_dag c) t (trace s) <> [] -> selected st ts filt t).
Proof. intros. eapply set_calls_once; eassumption. Qed.
Print Assumptions C78_used_once.

(** At the end: all three if the record says the task was executed, the first if not. *)
Theorem C78_finished : forall st ts filt iv addr c z s er r,
  execution_of st ts filt iv addr c -> reachable c z s -> result s = RRecord er -> In r (er_runs er) ->
  job_calls (c_dag c) (r_task r) (trace s) =
  match r_status r with OK | FAIL => one_use | SKIP | DEPF => [CallAsk] end.
Proof. intros. eapply set_calls_finished; eassumption. Qed.
Print Assumptions C78_finished.

(** For any graph: a task with a single node. *)
Theorem C78_of_graph : forall c z s n,
  wf_dag (c_dag c) -> reachable c z s ->
  (forall m, In m (node_ids (c_dag c)) -> node_task (c_dag c) m = node_task (c_dag c) n -> m = n) ->
  begins_with one_use (job_calls (c_dag c) (node_task (c_dag c) n) (trace s)).
Proof. exact calls_once. Qed.
Print Assumptions C78_of_graph.

Example C78_case :
  execution_of demo_store demo_set "" demo_inval (fun t => t) set_demo /\
  reachable set_demo 0 (set_end lib_fails) /\
  (exists er, result (set_end lib_fails) = RRecord er /\
     map (fun r => (r_task r, r_status r, job_calls (c_dag set_demo) (r_task r) (trace (set_end lib_fails)))) (er_runs er) =
     [(1, OK, one_use); (2, FAIL, one_use); (3, DEPF, [CallAsk]); (4, SKIP, [CallAsk]); (5, DEPF, [CallAsk]); (6, OK, one_use)]).
Proof.
  split; [exact exec_set_demo|]. split; [exact reach_set_fail|].
  eexists. split; vm_compute; reflexivity.
Qed.

(** * C79 Graphs filled by several calls of insert_set *)

(** Each call adds one node for every task it picks, and connects the nodes it added as the
    tasks say; nothing connects nodes of different calls.  The result is a graph on which the
    theorems about executions apply. *)
Theorem C79_graph : forall st js g,
  assembled st js g ->
  wf_dag g /\ requires_after g /\ (forall a b, requires g a b -> inval_by g a b) /\
  (forall i t, In i js -> picks st i t ->
     In (i_addr i t) (node_ids g) /\ node_task g (i_addr i t) = t /\
     (forall p, holds (i_set i) p t -> node_name g (i_addr i t) = full_name p)) /\
  (forall n, In n (node_ids g) -> exists i t, In i js /\ picks st i t /\ n = i_addr i t) /\
  (forall i j t u, In i js -> In j js -> picks st i t -> picks st j u ->
     i_addr i t = i_addr j u -> i = j /\ t = u) /\
  (forall a b k, In (Edge a b k) (d_edges g) <->
     exists i x y, In i js /\ picks st i x /\ picks st i y /\ a = i_addr i x /\ b = i_addr i y /\
       (depends_on st x y \/ (k = AFTER /\ In y (t_run_after (st_get st x))) \/
        (k = INVALIDATED_BY /\ In y (t_invalidated_by (st_get st x))))).
Proof. exact assembled_facts. Qed.
Print Assumptions C79_graph.

(** A finished execution has as many records of a task as there are calls that pick it. *)
Theorem C79_records : forall st js g threads iv z s er t l,
  assembled st js g -> reachable (exec_graph st g threads iv) z s -> result s = RRecord er ->
  NoDup l -> (forall i, In i l <-> In i js /\ picks st i t) ->
  List.length (filter (fun r => r_task r =? t) (er_runs er)) = List.length l.
Proof. intros st js g threads iv z s er t l HA. exact (assembled_records st js g threads iv HA z s er t l). Qed.
Print Assumptions C79_records.

(** What the tasks declare is respected within one call. *)
Theorem C79_order_within : forall st js g threads iv z s i a b pre post,
  assembled st js g -> reachable (exec_graph st g threads iv) z s ->
  In i js -> picks st i a -> picks st i b -> task_after st a b ->
  trace s = pre ++ EBegin (i_addr i a) :: post ->
  recorded pre (i_addr i b) /\
  (In (EBegin (i_addr i b)) pre -> exists o, In (EEnd (i_addr i b) o) pre) /\
  ~ In (EBegin (i_addr i b)) post.
Proof. intros st js g threads iv z s i a b pre post HA. exact (assembled_order st js g threads iv HA z s i a b pre post). Qed.
Print Assumptions C79_order_within.

Theorem C79_failed_within : forall st js g threads iv z s i a b rb,
  assembled st js g -> reachable (exec_graph st g threads iv) z s ->
  In i js -> picks st i a -> clos_trans tid (depends_on st) a b ->
  In rb (records (trace s)) -> r_node rb = i_addr i b -> is_bad (r_status rb) = true ->
  ~ In (EBegin (i_addr i a)) (trace s).
Proof. intros st js g threads iv z s i a b rb HA. exact (assembled_failed st js g threads iv HA z s i a b rb). Qed.
Print Assumptions C79_failed_within.

(** If no task is picked by two calls, each job is used once, as in C78. *)
Theorem C79_used_once_partial : forall st js g threads iv z s,
  assembled st js g ->
  (forall i j t, In i js -> In j js -> picks st i t -> picks st j t -> i = j) ->
  reachable (exec_graph st g threads iv) z s ->
  (forall t, (exists i, In i js /\ picks st i t) -> begins_with one_use (job_calls g t (trace s))) /\
  (forall er, result s = RRecord er -> NoDup (map r_task (er_runs er))).
Proof. intros st js g threads iv z s HA. exact (assembled_disjoint st js g threads iv HA z s). Qed.
Print Assumptions C79_used_once_partial.

(** Calls with the filters "lib", "doc" and "app" on the set of Demo.v. *)
Definition ins (f : string) (k : nat) : insertion := Insertion demo_set f (fun t => t + k).
Definition add (g : dag) (i : insertion) : dag :=
  match insert_set g demo_store (i_set i) (i_filter i) (i_addr i) (fun l => l) (fun l => l) with
  | Built (g, _) => g
  | _ => g
  end.
Definition calls3 : list insertion := [ins "app" 20; ins "doc" 10; ins "lib" 0].
Definition graph3 : dag := add (add (add dag0 (ins "lib" 0)) (ins "doc" 10)) (ins "app" 20).
Definition run3 : config := exec_graph demo_store graph3 4 (fun _ => IvRet true "").
Fixpoint ahead (c : config) (k : nat) (s : state) : list label :=
  match k with
  | O => []
  | S k => match first_step c s [LCtl; LTick] with
           | Some (l, s') => l :: ahead c k s'
           | None => []
           end
  end.
Definition parallel3 : state := go run3 (ahead run3 20 (init 0) ++ [LBegin 14; LBegin 1; LBegin 21]).
Definition end3 : state := go run3 (drive run3 all_ok 100 (init 0)).

Lemma demo_picks f k t : picks demo_store (ins f k) t -> In t [1; 2; 3; 4; 5; 6].
Proof.
  intros (p & r & Hp & _ & H). apply selected_only. exists p, r. split; [exact Hp|].
  split; [exists "", (full_name p); reflexivity|exact H].
Qed.

Lemma add_step js g f k g' :
  assembled demo_store js g -> (forall t, In t [1; 2; 3; 4; 5; 6] -> ~ In (t + k) (node_ids g)) ->
  (exists n, insert_set g demo_store demo_set f (fun t => t + k) (fun l => l) (fun l => l) = Built (g', n)) ->
  assembled demo_store (ins f k :: js) g'.
Proof.
  intros HA Hf [n E]. eapply (assembled_more demo_store js g (ins f k) g' n (fun l => l) (fun l => l)); auto.
  - intros l. apply Permutation_refl.
  - intros l. apply Permutation_refl.
  - exact demo_ordered.
  - exact demo_owned.
  - split.
    + intros a b _ _ H. cbn in H. unfold nid, tid in *. now apply Nat.add_cancel_r in H.
    + intros a Ha. apply Hf. eapply demo_picks. exact Ha.
Qed.

Lemma assembled3 : assembled demo_store calls3 graph3.
Proof.
  unfold calls3.
  eapply add_step; [eapply add_step; [eapply add_step; [constructor| |]| |]| |];
    try (eexists; vm_compute; reflexivity);
    intros t H; cbn in H; repeat destruct H as [<-|H]; try destruct H; vm_compute; intuition discriminate.
Qed.

Lemma picks_dep f k p t :
  holds demo_set p t -> substring f (full_name p) -> picks demo_store (ins f k) t.
Proof. intros H1 H2. exists p, t. split; [exact H1|]. split; [exact H2|apply rt_refl]. Qed.

Lemma picks_more f k a b : picks demo_store (ins f k) a -> depends_on demo_store a b -> picks demo_store (ins f k) b.
Proof.
  intros (p & r & H1 & H2 & H3) H. exists p, r. split; [exact H1|]. split; [exact H2|].
  eapply rt_trans; [exact H3|now apply rt_step].
Qed.

Lemma reach_parallel3 : reachable run3 0 parallel3.
Proof. apply go_reachable. vm_compute. reflexivity. Qed.
Lemma reach_end3 : reachable run3 0 end3.
Proof. apply go_reachable. vm_compute. reflexivity. Qed.

Lemma lib_picks_gen : picks demo_store (ins "lib" 0) 1.
Proof.
  apply (picks_more _ _ 2); [|left; reflexivity]. apply (picks_dep _ _ ["src"; "lib"]).
  - eapply holds_below; [left; reflexivity|]. constructor. left. reflexivity.
  - exists "//src/", "". reflexivity.
Qed.
Lemma app_picks_gen : picks demo_store (ins "app" 20) 1.
Proof.
  apply (picks_more _ _ 2); [|left; reflexivity]. apply (picks_more _ _ 3); [|left; reflexivity].
  apply (picks_dep _ _ ["app"]); [constructor; left; reflexivity|]. exists "//", "". reflexivity.
Qed.
Lemma doc_picks_doc : picks demo_store (ins "doc" 10) 4.
Proof. apply (picks_dep _ _ ["doc"]); [constructor; right; left; reflexivity|]. exists "//", "". reflexivity. Qed.

(** The filters "lib" and "app" of one set both pick the task gen: its job is run twice, by
    two threads at the same time.  And doc, which is to run after gen, runs before it. *)
Theorem C79_refuted : exists st js g threads iv s,
  assembled st js g /\ reachable (exec_graph st g threads iv) 0 s /\
  (exists i j t, In i js /\ In j js /\ picks st i t /\ picks st j t /\ i_set i = i_set j /\
     In (i_addr i t) (running (trace s)) /\ In (i_addr j t) (running (trace s)) /\
     job_calls g t (trace s) = [CallAsk; CallAsk; CallBegin; CallBegin]) /\
  (exists i j a b pre post, In i js /\ In j js /\ picks st i a /\ picks st j b /\ task_after st a b /\
     trace s = pre ++ EBegin (i_addr i a) :: post /\ In (EBegin (i_addr j b)) post).
Proof.
  exists demo_store, calls3, graph3, 4, (fun _ => IvRet true ""), parallel3.
  split; [exact assembled3|]. split; [exact reach_parallel3|]. split.
  - exists (ins "lib" 0), (ins "app" 20), 1. split; [right; right; left; reflexivity|].
    split; [left; reflexivity|]. split; [exact lib_picks_gen|]. split; [exact app_picks_gen|].
    split; [reflexivity|]. split; [find_in|]. split; [find_in|]. vm_compute. reflexivity.
  - assert (E : exists pre, trace parallel3 = pre ++ EBegin 14 :: [EBegin 1; EBegin 21]).
    { exists (removelast (removelast (removelast (trace parallel3)))). vm_compute. reflexivity. }
    destruct E as [pre E].
    exists (ins "doc" 10), (ins "lib" 0), 4, 1, pre, [EBegin 1; EBegin 21].
    split; [right; left; reflexivity|]. split; [right; right; left; reflexivity|].
    split; [exact doc_picks_doc|]. split; [exact lib_picks_gen|]. split; [right; left; reflexivity|].
    split; [exact E|]. left. reflexivity.
Qed.
Print Assumptions C79_refuted.

Example C79_case :
  assembled demo_store calls3 graph3 /\ reachable run3 0 end3 /\
  (exists er, result end3 = RRecord er /\ map (fun r => (r_task r, r_node r)) (er_runs er) =
     [(1, 1); (2, 2); (4, 14); (1, 21); (2, 22); (3, 23)]) /\
  (exists pre post, trace end3 = pre ++ EBegin 22 :: post) /\
  picks demo_store (ins "app" 20) 1 /\ task_after demo_store 2 1.
Proof.
  split; [exact assembled3|]. split; [exact reach_end3|].
  split; [eexists; split; vm_compute; reflexivity|].
  split; [apply in_split; find_in|]. split; [exact app_picks_gen|left; left; reflexivity].
Qed.

Lemma matches f k :
  forallb (fun x => implb (contains f (fst x)) (snd x =? k)) (for_each_task demo_set) = true ->
  forall p r, holds demo_set p r -> substring f (full_name p) -> r = k.
Proof.
  intros H p r Hp Hf. rewrite forallb_forall in H. specialize (H (full_name p, r)). cbn [fst snd] in H.
  apply BuildProps.contains_iff in Hf. rewrite Hf in H. apply Nat.eqb_eq. apply H.
  apply BuildProps.named_holds. eauto.
Qed.

(** Two calls that pick nothing in common. *)
Example C79_case_disjoint : exists g s er,
  assembled demo_store [ins "lint" 10; ins "lib" 0] g /\
  (forall i j t, In i [ins "lint" 10; ins "lib" 0] -> In j [ins "lint" 10; ins "lib" 0] ->
     picks demo_store i t -> picks demo_store j t -> i = j) /\
  reachable (exec_graph demo_store g 2 demo_inval) 0 s /\ result s = RRecord er /\
  map r_task (er_runs er) = [1; 2; 6].
Proof.
  set (g := add (add dag0 (ins "lib" 0)) (ins "lint" 10)).
  set (c := exec_graph demo_store g 2 demo_inval).
  set (s := go c (drive c all_ok 60 (init 0))).
  assert (E : exists er, result s = RRecord er) by (eexists; vm_compute; reflexivity).
  destruct E as [er E]. exists g, s, er. split; [|split; [|split; [|split]]].
  - eapply add_step; [eapply add_step; [constructor| |]| |];
      try (eexists; vm_compute; reflexivity);
      intros t H; cbn in H; repeat destruct H as [<-|H]; try destruct H; vm_compute; intuition discriminate.
  - assert (L1 : forall t, picks demo_store (ins "lint" 10) t -> t = 6).
    { intros t (p & r & Hp & Hf & H). cbn in Hp, Hf.
      assert (Er : r = 6).
      { eapply matches; [|exact Hp|exact Hf]. vm_compute. reflexivity. }
      subst r. apply clos_rt_rt1n in H. destruct H as [|a b H _]; [reflexivity|destruct H]. }
    assert (L2 : ~ picks demo_store (ins "lib" 0) 6).
    { intros (p & r & Hp & Hf & H). cbn in Hp, Hf.
      assert (Er : r = 2).
      { eapply matches; [|exact Hp|exact Hf]. vm_compute. reflexivity. }
      subst r. apply clos_rt_rtn1 in H. inversion H as [|a b H1 H2]. do 7 (destruct a as [|a]; [cbn in H1; intuition discriminate|]). destruct H1. }
    intros i j t [<-|[<-|[]]] [<-|[<-|[]]] Hi Hj; try reflexivity; exfalso; apply L2.
    + rewrite <- (L1 t Hi). exact Hj.
    + rewrite <- (L1 t Hj). exact Hi.
  - apply go_reachable. vm_compute. reflexivity.
  - exact E.
  - revert E. vm_compute. intros E. inversion E. reflexivity.
Qed.
