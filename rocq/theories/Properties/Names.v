(** Names and groups: C109. *)
From Coq Require Import String Relations Permutation.
From Verif Require Import Model.Common Model.Records Model.Jobs Model.TaskSet Model.Dag Model.Sched Model.Exec Model.ExecSet
     Spec.Graph Spec.Trace Spec.Tasks Spec.Names Properties.Demo Properties.TaskSets
     Proofs.DemoFacts Proofs.TaskFacts Proofs.NameFacts Proofs.NameSets.
Open Scope string_scope.
Open Scope nat_scope.
Open Scope list_scope.

(** * C109 What tasks are called, and how they are grouped, does not matter *)

(** Two graphs that differ in names only: step by step the same can happen, with the same
    callbacks, jobs and results, except that each record carries the name its node has in
    the graph executed. *)
Theorem C109_names_only : forall c1 c2 z ls, only_names c1 c2 ->
  match run_labels c1 (init z) ls with
  | Some s1 => exists s2, run_labels c2 (init z) ls = Some s2 /\
      trace s2 = map (event_named (node_name (c_dag c2))) (trace s1) /\
      result s2 = result_named (node_name (c_dag c2)) (result s1) /\ done s2 = done s1
  | None => run_labels c2 (init z) ls = None
  end.
Proof. exact names_only. Qed.
Print Assumptions C109_names_only.

(** Two task sets of which the same tasks are picked by name, whatever their names and
    groups: every graph that may be executed for one differs only in names from one that
    may be executed for the other.  (Which graph it is depends on the hash map.) *)
Theorem C109_regrouped : forall st ts1 f1 ts2 f2 iv addr c1,
  execution_of st ts1 f1 iv addr c1 -> ordered ts2 -> owned ts2 ->
  (forall t, picked ts1 f1 t <-> picked ts2 f2 t) ->
  exists c2, execution_of st ts2 f2 iv addr c2 /\ only_names c1 c2.
Proof. exact grouped_otherwise. Qed.
Print Assumptions C109_regrouped.

(** Without a filter these are the sets that hold the same tasks. *)
Theorem C109_no_filter : forall ts t, picked ts "" t <-> exists p, holds ts p t.
Proof. exact no_filter. Qed.
Print Assumptions C109_no_filter.

(** Any two executions of such sets, with any numbers of threads, places of the nodes and
    schedules, in which the jobs end alike, record the same for each task. *)
Theorem C109_same_fate : forall st ts1 f1 ts2 f2 iv addr1 addr2 c1 c2 z1 z2 s1 s2,
  execution_of st ts1 f1 iv addr1 c1 -> execution_of st ts2 f2 iv addr2 c2 ->
  (forall t, picked ts1 f1 t <-> picked ts2 f2 t) -> reachable c1 z1 s1 -> reachable c2 z2 s2 ->
  (forall n1 n2 o1 o2, In (EEnd n1 o1) (trace s1) -> In (EEnd n2 o2) (trace s2) ->
     node_task (c_dag c1) n1 = node_task (c_dag c2) n2 -> o1 = o2) ->
  forall r1 r2, In r1 (records (trace s1)) -> In r2 (records (trace s2)) -> r_task r1 = r_task r2 ->
  r_status r1 = r_status r2 /\ r_retcode r1 = r_retcode r2 /\ r_output r1 = r_output r2.
Proof. exact names_fate. Qed.
Print Assumptions C109_same_fate.

(** Either both are refused because of a cycle, or neither is. *)
Theorem C109_same_cycles : forall st ts1 f1 ts2 f2 iv addr1 addr2 c1 c2 z1 z2 s1 s2,
  execution_of st ts1 f1 iv addr1 c1 -> execution_of st ts2 f2 iv addr2 c2 ->
  (forall t, picked ts1 f1 t <-> picked ts2 f2 t) ->
  step c1 (init z1) LTick = Some s1 -> step c2 (init z2) LTick = Some s2 ->
  (result s1 = RThrow ExcCycle <-> result s2 = RThrow ExcCycle).
Proof. exact names_cycle. Qed.
Print Assumptions C109_same_cycles.

(** The six tasks of Demo.v, two of them in other groups and all but one renamed. *)
Definition moved_set : task_set :=
  TaskSet [("gen", 1)] [("a", TaskSet [("w", 5); ("x", 3)] [("b", TaskSet [("y", 2); ("z", 6)] [])]); ("c", TaskSet [("d", 4)] [])].
Definition iv_demo (t : tid) : inval_answer := if (t =? 1) || (t =? 6) then IvRet true "changed" else IvRet false "".
Definition here : config := Config demo_dag 2 (st_get demo_store) (fun n => iv_demo (node_task demo_dag n)).
Definition moved_ord (l : list (string * tid)) : list (string * tid) :=
  match l with
  | [a; b; c; d; e; f] => [c; f; a; d; e; b]
  | l => l
  end.
Definition moved_dag : dag :=
  match insert_set dag0 demo_store moved_set "" (fun t => t) moved_ord (fun l => l) with
  | Built (g, _) => g
  | _ => dag0
  end.
Definition there : config := Config moved_dag 2 (st_get demo_store) (fun n => iv_demo (node_task moved_dag n)).
Definition here_end : state := go here (drive here lib_fails 60 (init 0)).
Definition there_end : state := go there (drive there lib_fails 60 (init 0)).

Lemma moved_ordered : ordered moved_set.
Proof.
  constructor; [repeat constructor..|]. intros name s [E|[E|[]]]; inversion E; subst.
  - constructor; [repeat constructor..|]. intros n' s' [E'|[]]; inversion E'; subst.
    constructor; [repeat constructor..|]. intros ? ? [].
  - constructor; [repeat constructor..|]. intros ? ? [].
Qed.
Lemma moved_owned : owned moved_set.
Proof. apply owned_visited. repeat constructor; cbn; intuition discriminate. Qed.

Lemma moved_perm (a b c d e f : string * tid) : Permutation [c; f; a; d; e; b] [a; b; c; d; e; f].
Proof.
  apply (Permutation_cons_app [a; b] [d; e; f]). apply (Permutation_cons_app [a; b; d; e] []). cbn.
  apply perm_skip. apply (Permutation_app_comm [d; e] [b]).
Qed.

Example C109_case :
  execution_of demo_store demo_set "" iv_demo (fun t => t) here /\
  execution_of demo_store moved_set "" iv_demo (fun t => t) there /\
  (forall t, picked demo_set "" t <-> picked moved_set "" t) /\ only_names here there /\
  reachable here 0 here_end /\ reachable there 0 there_end /\
  map (fun r => (r_task r, r_name r, r_status r)) (records (trace here_end)) =
    [(1, "//gen", OK); (2, "//src/lib", FAIL); (3, "//app", DEPF); (4, "//doc", SKIP);
     (5, "//src/test", DEPF); (6, "//src/lint", OK)] /\
  map (fun r => (r_task r, r_name r, r_status r)) (records (trace there_end)) =
    [(1, "//gen", OK); (2, "//a/b/y", FAIL); (3, "//a/x", DEPF); (4, "//c/d", SKIP);
     (5, "//a/w", DEPF); (6, "//a/b/z", OK)].
Proof.
  split.
  { exists 2, (fun l => l), (fun l => l). split; [intros l; apply Permutation_refl|].
    split; [intros l; apply Permutation_refl|]. split; [exact demo_ordered|]. split; [exact demo_owned|].
    split; [split; [auto|intros a _ []]|]. vm_compute. reflexivity. }
  split.
  { exists 2, moved_ord, (fun l => l). split.
    { intros [|a [|b [|c [|d [|e [|f [|g l]]]]]]]; try apply Permutation_refl. cbn [moved_ord].
      apply moved_perm. }
    split; [intros l; apply Permutation_refl|]. split; [exact moved_ordered|]. split; [exact moved_owned|].
    split; [split; [auto|intros a _ []]|]. vm_compute. reflexivity. }
  split.
  { intros t. rewrite !C109_no_filter, <- !visited_holds. cbn. tauto. }
  split; [constructor; [split; vm_compute; reflexivity|reflexivity|reflexivity|intros n; apply (f_equal iv_demo), same_task; vm_compute; reflexivity]|].
  split; [apply go_reachable; vm_compute; reflexivity|]. split; [apply go_reachable; vm_compute; reflexivity|].
  split; vm_compute; reflexivity.
Qed.
