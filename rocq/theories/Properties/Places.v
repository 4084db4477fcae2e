(** Which node after_run is given (C21), exactly. *)
From Coq Require Import String.
From Verif Require Import Model.Common Model.Records Model.Jobs Model.TaskSet Model.Dag
     Model.Sched Model.Exec Spec.Graph Spec.Trace Spec.Parallel Spec.Places Properties.Demo
     Proofs.DemoFacts Proofs.PlaceFacts.
Open Scope string_scope.
Open Scope nat_scope.
Open Scope list_scope.

(** A task is begun in the tick called in [s0], and its record is made in the tick called in
    [s2].  after_run is given the right node exactly if no task begun before it was recorded
    since [s0] in a tick before the one called in [s2]. *)
Theorem C21_exact : forall c z s0 s1 s2 s3 l1 lc mid l3 er1 er3 r x,
  wf_dag (c_dag c) -> reachable c z s0 ->
  within_tick c s0 s1 -> trace s1 = trace s0 ++ l1 -> In (EBeforeRun er1 (r_node r)) l1 ->
  run_labels c s1 lc = Some s2 -> trace s2 = trace s0 ++ mid ->
  within_tick c s2 s3 -> trace s3 = trace s2 ++ l3 -> In (EAfterRun er3 r x) l3 ->
  (x = r_node r <->
   forall er' r' x', In (EAfterRun er' r' x') mid -> ~ begun_before (trace s2) (r_node r') (r_node r)).
Proof. intros c z s0 s1 s2 s3 l1 lc mid l3 er1 er3 r x Hwf. exact (after_run_exact c z Hwf s0 s1 s2 s3 l1 lc mid l3 er1 er3 r x). Qed.
Print Assumptions C21_exact.

(** A task begun and recorded in one tick: the right node. *)
Theorem C21_same_tick : forall c z s0 s1 l1 er1 er2 r x,
  wf_dag (c_dag c) -> reachable c z s0 -> within_tick c s0 s1 -> trace s1 = trace s0 ++ l1 ->
  In (EBeforeRun er1 (r_node r)) l1 -> In (EAfterRun er2 r x) l1 -> x = r_node r.
Proof. intros c z s0 s1 l1 er1 er2 r x Hwf. exact (after_run_same_tick c z Hwf s0 s1 l1 er1 er2 r x). Qed.
Print Assumptions C21_same_tick.

(** A wrong node always is one begun before the right one. *)
Theorem C21_never_later : forall c z s s' l er r x,
  wf_dag (c_dag c) -> reachable c z s -> within_tick c s s' -> trace s' = trace s ++ l ->
  In (EAfterRun er r x) l -> x = r_node r \/ begun_before (trace s) x (r_node r).
Proof. intros c z s s' l er r x Hwf. exact (after_run_earlier c z Hwf s s' l er r x). Qed.
Print Assumptions C21_never_later.

(** Two tasks without edges and two threads: node 2 is begun after node 1, and node 1 is
    recorded in the tick in between. *)
Definition pair_cfg : config :=
  Config (Dag [DNode 2 "b" 1; DNode 1 "a" 1] []) 2 demo_tasks (fun _ => IvRet true "").
Definition pair_0 : state := go pair_cfg [LTick; LCtl; LTick; LCtl; LCtl; LCtl].
Definition pair_1 : state := go pair_cfg [LTick; LCtl; LTick; LCtl; LCtl; LCtl; LTick; LCtl; LCtl; LCtl].
Definition pair_2 : state :=
  go pair_cfg [LTick; LCtl; LTick; LCtl; LCtl; LCtl; LTick; LCtl; LCtl; LCtl;
               LBegin 1; LEnd 1 ok; LBegin 2; LCtl; LTick; LCtl; LCtl; LCtl; LEnd 2 ok].
Definition pair_3 : state :=
  go pair_cfg [LTick; LCtl; LTick; LCtl; LCtl; LCtl; LTick; LCtl; LCtl; LCtl;
               LBegin 1; LEnd 1 ok; LBegin 2; LCtl; LTick; LCtl; LCtl; LCtl; LEnd 2 ok; LTick; LCtl; LCtl].

Example C21_case_exact :
  wf_dag (c_dag pair_cfg) /\ reachable pair_cfg 0 pair_0 /\
  exists l1 lc mid l3 er1 er3 r x,
    within_tick pair_cfg pair_0 pair_1 /\ trace pair_1 = trace pair_0 ++ l1 /\ In (EBeforeRun er1 (r_node r)) l1 /\
    run_labels pair_cfg pair_1 lc = Some pair_2 /\ trace pair_2 = trace pair_0 ++ mid /\
    within_tick pair_cfg pair_2 pair_3 /\ trace pair_3 = trace pair_2 ++ l3 /\ In (EAfterRun er3 r x) l3 /\
    r_node r = 2 /\ x = 1.
Proof.
  split; [apply wf_dagb_wf; vm_compute; reflexivity|]. split; [apply go_reachable; vm_compute; reflexivity|].
  assert (B : exists er, In (EBeforeRun er 2) (skipn (List.length (trace pair_0)) (trace pair_1))).
  { eexists. apply nth_error_In with 1. vm_compute. reflexivity. }
  assert (A : exists er r, In (EAfterRun er r 1) (skipn (List.length (trace pair_2)) (trace pair_3)) /\ r_node r = 2).
  { do 2 eexists. split; [|shelve]. apply nth_error_In with 1. vm_compute. reflexivity. Unshelve. reflexivity. }
  destruct B as [er1 B]. destruct A as (er3 & r & A & Er).
  exists (skipn (List.length (trace pair_0)) (trace pair_1)),
         [LBegin 1; LEnd 1 ok; LBegin 2; LCtl; LTick; LCtl; LCtl; LCtl; LEnd 2 ok],
         (skipn (List.length (trace pair_0)) (trace pair_2)),
         (skipn (List.length (trace pair_2)) (trace pair_3)), er1, er3, r, 1.
  split; [exists [LCtl; LCtl; LCtl]; split; [vm_compute; reflexivity|intros [H|[H|[H|[]]]]; discriminate H]|].
  split; [vm_compute; reflexivity|]. split; [rewrite Er; exact B|].
  split; [vm_compute; reflexivity|]. split; [vm_compute; reflexivity|].
  split; [exists [LCtl; LCtl]; split; [vm_compute; reflexivity|intros [H|[H|[]]]; discriminate H]|].
  split; [vm_compute; reflexivity|]. split; [exact A|]. split; [exact Er|reflexivity].
Qed.

(** The same tasks, neither invalidated: node 1 is skipped. *)
Definition skip_cfg : config :=
  Config (Dag [DNode 2 "b" 1; DNode 1 "a" 1] []) 2 demo_tasks (fun _ => IvRet false "").
Definition skip_0 : state := go skip_cfg [LTick; LCtl].
Definition skip_1 : state := go skip_cfg [LTick; LCtl; LTick; LCtl].

Example C21_case_same_tick :
  wf_dag (c_dag skip_cfg) /\ reachable skip_cfg 0 skip_0 /\
  exists l1 er1 er2 r x,
    within_tick skip_cfg skip_0 skip_1 /\ trace skip_1 = trace skip_0 ++ l1 /\
    In (EBeforeRun er1 (r_node r)) l1 /\ In (EAfterRun er2 r x) l1.
Proof.
  split; [apply wf_dagb_wf; vm_compute; reflexivity|]. split; [apply go_reachable; vm_compute; reflexivity|].
  assert (B : exists er, In (EBeforeRun er 1) (skipn (List.length (trace skip_0)) (trace skip_1))).
  { eexists. apply nth_error_In with 1. vm_compute. reflexivity. }
  assert (A : exists er r x, In (EAfterRun er r x) (skipn (List.length (trace skip_0)) (trace skip_1)) /\ r_node r = 1).
  { do 3 eexists. split; [|shelve]. apply nth_error_In with 2. vm_compute. reflexivity. Unshelve. reflexivity. }
  destruct B as [er1 B]. destruct A as (er2 & r & x & A & Er).
  exists (skipn (List.length (trace skip_0)) (trace skip_1)), er1, er2, r, x.
  split; [exists [LCtl]; split; [vm_compute; reflexivity|intros [H|[]]; discriminate H]|].
  split; [vm_compute; reflexivity|]. split; [rewrite Er; exact B|exact A].
Qed.
