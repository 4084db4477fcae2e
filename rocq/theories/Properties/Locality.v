(** What the fate of a task depends on (C102). *)
From Coq Require Import String Relations Permutation Lia.
From Verif Require Import Model.Common Model.Records Model.Jobs Model.TaskSet Model.Dag
     Model.Sched Model.Exec Model.ExecSet Spec.Graph Spec.Trace Spec.Tasks Spec.Locality
     Properties.Demo Properties.TaskSets Proofs.DemoFacts Proofs.TaskFacts Proofs.LocalityFacts.
Open Scope string_scope.
Open Scope nat_scope.
Open Scope list_scope.

(** * C102 What happens to a task depends only on what is behind it *)

(** Two graphs that look alike from two nodes on treat these nodes alike. *)
Theorem C102_graphs : forall c1 c2 R, alike c1 c2 R -> forall z1 s1 z2 s2,
  wf_dag (c_dag c1) -> requires_after (c_dag c1) -> wf_dag (c_dag c2) -> requires_after (c_dag c2) ->
  reachable c1 z1 s1 -> reachable c2 z2 s2 ->
  (forall n1 n2 o1 o2, R n1 n2 -> In (EEnd n1 o1) (trace s1) -> In (EEnd n2 o2) (trace s2) -> o1 = o2) ->
  forall r1 r2, In r1 (records (trace s1)) -> In r2 (records (trace s2)) -> R (r_node r1) (r_node r2) ->
  r_status r1 = r_status r2 /\ r_retcode r1 = r_retcode r2 /\ r_output r1 = r_output r2.
Proof. exact alike_outcome. Qed.
Print Assumptions C102_graphs.

(** Two executions of different sets and filters: if the tasks behind [t] are in both or
    in neither and their jobs answer and end alike, the records of [t] are alike. *)
Theorem C102_sets : forall st ts1 filt1 iv1 addr1 c1 ts2 filt2 iv2 addr2 c2 z1 s1 z2 s2 t,
  execution_of st ts1 filt1 iv1 addr1 c1 -> execution_of st ts2 filt2 iv2 addr2 c2 ->
  (forall u, behind st t u -> (selected st ts1 filt1 u <-> selected st ts2 filt2 u) /\
     ((exists log, iv1 u = IvRet true log) <-> (exists log, iv2 u = IvRet true log))) ->
  reachable c1 z1 s1 -> reachable c2 z2 s2 ->
  (forall u o1 o2, behind st t u -> In (EEnd (addr1 u) o1) (trace s1) -> In (EEnd (addr2 u) o2) (trace s2) -> o1 = o2) ->
  forall r1 r2, In r1 (records (trace s1)) -> In r2 (records (trace s2)) -> r_task r1 = t -> r_task r2 = t ->
  r_status r1 = r_status r2 /\ r_retcode r1 = r_retcode r2 /\ r_output r1 = r_output r2.
Proof. exact set_local. Qed.
Print Assumptions C102_sets.

(** One set and two filters: if tasks are invalidated only by tasks they depend on, a task
    selected by both fares alike, and has the same name. *)
Theorem C102_filter : forall st ts filt1 filt2 iv addr1 addr2 c1 c2 z1 s1 z2 s2,
  execution_of st ts filt1 iv addr1 c1 -> execution_of st ts filt2 iv addr2 c2 ->
  (forall a b, selected st ts filt1 a \/ selected st ts filt2 a -> In b (t_invalidated_by (st_get st a)) ->
     clos_trans tid (depends_on st) a b) ->
  reachable c1 z1 s1 -> reachable c2 z2 s2 ->
  (forall u o1 o2, In (EEnd (addr1 u) o1) (trace s1) -> In (EEnd (addr2 u) o2) (trace s2) -> o1 = o2) ->
  forall r1 r2, In r1 (records (trace s1)) -> In r2 (records (trace s2)) -> r_task r1 = r_task r2 ->
  r_status r1 = r_status r2 /\ r_retcode r1 = r_retcode r2 /\ r_output r1 = r_output r2 /\
  ((exists p, holds ts p (r_task r1)) -> r_name r1 = r_name r2).
Proof. exact filter_local. Qed.
Print Assumptions C102_filter.

(** Only app and what it depends on (lib, gen); nodes at other addresses, one thread.  lib
    fails, app is not executed, as in the execution of the whole set. *)
Definition app_only : config :=
  match exec_set demo_store demo_set 1 "app" demo_inval (fun t => 20 - t) (fun l => l) (fun l => l) with
  | Built c => c
  | _ => demo 2
  end.
Definition app_lib_fails (n : nid) : job_outcome := if n =? 18 then failing else ok.
Definition app_end : state := go app_only (drive app_only app_lib_fails 60 (init 0)).
Lemma selected_bound filt t : selected demo_store demo_set filt t -> t < 7.
Proof.
  intros (p & r & Hh & _ & Hd). assert (Hr : r < 7).
  { assert (V : exists p, holds demo_set p r) by eauto. apply visited_holds in V. vm_compute in V.
    repeat destruct V as [<-|V]; try (repeat constructor); destruct V. }
  apply clos_rt_rtn1 in Hd. induction Hd as [|u v H _ IH]; [exact Hr|]. unfold depends_on in H.
  do 7 (destruct u as [|u]; [cbn in H; repeat (destruct H as [<-|H]; [repeat constructor|]); destruct H|]).
  destruct H.
Qed.
Lemma exec_app_only : execution_of demo_store demo_set "app" demo_inval (fun t => 20 - t) app_only.
Proof.
  exists 1, (fun l => l), (fun l => l).
  split; [intros l; apply Permutation_refl|]. split; [intros l; apply Permutation_refl|].
  split; [exact demo_ordered|]. split; [exact demo_owned|]. split; [split|].
  - intros a b Ha Hb E. apply selected_bound in Ha. apply selected_bound in Hb. lia.
  - intros a _ [].
  - vm_compute. reflexivity.
Qed.
Example C102_case :
  execution_of demo_store demo_set "" demo_inval (fun t => t) set_demo /\
  execution_of demo_store demo_set "app" demo_inval (fun t => 20 - t) app_only /\
  (forall a b, In b (t_invalidated_by (st_get demo_store a)) -> clos_trans tid (depends_on demo_store) a b) /\
  reachable set_demo 0 (set_end lib_fails) /\ reachable app_only 0 app_end /\
  map (fun r => (r_task r, r_status r)) (records (trace app_end)) = [(1, OK); (2, FAIL); (3, DEPF)] /\
  map (fun r => (r_task r, r_status r)) (records (trace (set_end lib_fails))) =
    [(1, OK); (2, FAIL); (3, DEPF); (4, SKIP); (5, DEPF); (6, OK)].
Proof.
  split; [exact exec_set_demo|]. split; [exact exec_app_only|]. split.
  - intros a b H. exfalso. do 7 (destruct a as [|a]; [destruct H|]). destruct H.
  - split; [exact reach_set_fail|]. split; [apply go_reachable; vm_compute; reflexivity|].
    split; vm_compute; reflexivity.
Qed.

(** A task that is invalidated by one it does not depend on: the filter leaves that one out
    and the task is skipped, although the same check of the whole set has it executed. *)
Definition lone_tasks (t : tid) : task :=
  if t =? 6 then Task true [] [] [1] [] false else demo_tasks t.
Definition lone_store : store := Store [1; 2; 3; 4; 5; 6] lone_tasks.
Definition lone_inval (t : tid) : inval_answer := if t =? 1 then IvRet true "changed" else IvRet false "".
Definition lone (filt : string) : config :=
  match exec_set lone_store demo_set 2 filt lone_inval (fun t => t) (fun l => l) (fun l => l) with
  | Built c => c
  | _ => demo 2
  end.
Definition lone_end (filt : string) : state := go (lone filt) (drive (lone filt) all_ok 60 (init 0)).
Lemma lone_of filt : filt = "" \/ filt = "lint" ->
  execution_of lone_store demo_set filt lone_inval (fun t => t) (lone filt).
Proof.
  intros Hf. exists 2, (fun l => l), (fun l => l).
  split; [intros l; apply Permutation_refl|]. split; [intros l; apply Permutation_refl|].
  split; [exact demo_ordered|]. split; [exact demo_owned|].
  split; [split; [auto|intros a _ []]|]. destruct Hf as [->| ->]; vm_compute; reflexivity.
Qed.
Lemma lone_reach filt : filt = "" \/ filt = "lint" -> reachable (lone filt) 0 (lone_end filt).
Proof. intros [->| ->]; apply go_reachable; vm_compute; reflexivity. Qed.
Lemma lone_finds filt st : existsb (fun r => (r_task r =? 6) && match r_status r, st with
    | OK, OK | SKIP, SKIP => true | _, _ => false end)%bool (records (trace (lone_end filt))) = true ->
  exists r, In r (records (trace (lone_end filt))) /\ r_task r = 6 /\ r_status r = st.
Proof.
  intros H. apply existsb_exists in H. destruct H as (r & Hr & E). apply andb_prop in E. destruct E as (E & F).
  exists r. split; [exact Hr|]. split; [apply Nat.eqb_eq; exact E|].
  destruct (r_status r), st; try discriminate F; reflexivity.
Qed.
Lemma lone_ok : forallb (fun e => match e with
    | EEnd _ (JRet (RunResult 0 [Chunk STANDARD w] "")) => String.eqb w "done"
    | EEnd _ _ => false | _ => true end) (trace (lone_end "") ++ trace (lone_end "lint")) = true.
Proof. vm_compute. reflexivity. Qed.
Theorem C102_needs_dependency : exists st ts filt1 filt2 iv c1 c2 s1 s2 r1 r2,
  execution_of st ts filt1 iv (fun t => t) c1 /\ execution_of st ts filt2 iv (fun t => t) c2 /\
  reachable c1 0 s1 /\ reachable c2 0 s2 /\
  (forall u o, In (EEnd u o) (trace s1) \/ In (EEnd u o) (trace s2) -> o = ok) /\
  In r1 (records (trace s1)) /\ In r2 (records (trace s2)) /\ r_task r1 = r_task r2 /\
  r_status r1 = OK /\ r_status r2 = SKIP.
Proof.
  destruct (lone_finds "" OK) as (r1 & I1 & T1 & S1); [vm_compute; reflexivity|].
  destruct (lone_finds "lint" SKIP) as (r2 & I2 & T2 & S2); [vm_compute; reflexivity|].
  exists lone_store, demo_set, "", "lint", lone_inval, (lone ""), (lone "lint"), (lone_end ""), (lone_end "lint"), r1, r2.
  split; [exact (lone_of _ (or_introl eq_refl))|]. split; [exact (lone_of _ (or_intror eq_refl))|].
  split; [exact (lone_reach _ (or_introl eq_refl))|]. split; [exact (lone_reach _ (or_intror eq_refl))|].
  split; [|split; [exact I1|split; [exact I2|split; [rewrite T1, T2; reflexivity|split; assumption]]]].
  clear. pose proof lone_ok as F.
  intros u o H. rewrite forallb_forall in F. rewrite <- in_app_iff in H. specialize (F _ H). clear H.
  destruct o as [[k ch lg]| |]; try discriminate F. destruct k; try discriminate F.
  destruct ch as [|[ty w] [|]]; try discriminate F; destruct ty; try discriminate F.
  destruct lg; [|discriminate F]. apply String.eqb_eq in F. subst w. reflexivity.
Qed.
Print Assumptions C102_needs_dependency.
