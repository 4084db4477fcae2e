(** Requires edges in graphs made by hand (C52), without the assumption that each comes with a
    run-after edge. *)
From Coq Require Import String Relations Lia.
From Verif Require Import Model.Common Model.Records Model.Jobs Model.TaskSet Model.Dag
     Model.Sched Model.Exec Spec.Graph Spec.Trace Spec.Parallel Spec.Machine
     Properties.Demo Proofs.DemoFacts Proofs.HandBuilt.
Open Scope string_scope.
Open Scope nat_scope.
Open Scope list_scope.

(** * C52 Requires edges in hand-built graphs *)

(** What is recorded of a task is decided by what was recorded when its before_run was called. *)
Theorem C52_exact : forall c z s r pre er post,
  wf_dag (c_dag c) -> reachable c z s ->
  trace s = pre ++ EBeforeRun er (r_node r) :: post -> In r (records (trace s)) ->
  (r_status r = DEPF <-> bad_requirement c pre (r_node r)) /\
  (r_status r = SKIP <-> ~ bad_requirement c pre (r_node r) /\ ~ Invalidated c (r_node r)) /\
  (In (ELaunch (r_node r)) (trace s) <-> ~ bad_requirement c pre (r_node r) /\ Invalidated c (r_node r)).
Proof. intros c z s r pre er post W HR. exact (hand_built_status c z s W HR r pre er post). Qed.
Print Assumptions C52_exact.

(** So it holds if the requirement is ordered, however indirectly. *)
Theorem C52_ordered_partial : forall c z s a b rb,
  wf_dag (c_dag c) -> reachable c z s ->
  requires (c_dag c) a b -> clos_trans nid (runs_after (c_dag c)) a b ->
  In rb (records (trace s)) -> r_node rb = b -> is_bad (r_status rb) = true ->
  ~ In (EBegin a) (trace s) /\
  forall ra, In ra (records (trace s)) -> r_node ra = a -> r_status ra = DEPF.
Proof. exact ordered_requirement. Qed.
Print Assumptions C52_ordered_partial.

(** And it does not if nothing keeps the two apart and there are two threads. *)
Theorem C52_unordered_refuted : forall c z a b,
  wf_dag (c_dag c) -> executable c -> requires (c_dag c) a b -> a <> b ->
  Invalidated c a -> Invalidated c b -> 2 <= c_threads c ->
  ~ held_up_by c a b -> ~ held_up_by c b a ->
  forall o, exists s, reachable c z s /\ In (EBegin a) (trace s) /\ In (EEnd b o) (trace s).
Proof.
  intros c z a b W HE Hq Hab Ia Ib Ht H1 H2 o. destruct (proj2 W _ Hq) as [Ha Hb].
  exact (unordered_requirement c z a b o W HE Ha Hb Hab Ia Ib Ht H1 H2).
Qed.
Print Assumptions C52_unordered_refuted.

(** 1 requires 3, is to run after 2, which is to run after 3; 0 requires 3, too, but is not to
    run after it.  3 fails: 1 is not executed, 0 is. *)
Definition by_hand : config :=
  Config (Dag [DNode 1 "a" 1; DNode 2 "b" 1; DNode 3 "c" 1; DNode 0 "d" 1]
              [Edge 1 3 REQUIRES; Edge 1 2 AFTER; Edge 2 3 AFTER; Edge 0 3 REQUIRES])
         2 demo_tasks (fun _ => IvRet true "").
Definition third_fails (n : nid) : job_outcome := if n =? 3 then failing else ok.
Definition by_hand_end : state := go by_hand (drive by_hand third_fails 80 (init 0)).
Example C52_case_by_hand :
  wf_dag (c_dag by_hand) /\ reachable by_hand 0 by_hand_end /\
  requires (c_dag by_hand) 1 3 /\ clos_trans nid (runs_after (c_dag by_hand)) 1 3 /\ ~ runs_after (c_dag by_hand) 1 3 /\
  map (fun r => (r_node r, r_status r)) (records (trace by_hand_end)) = [(0, OK); (3, FAIL); (2, OK); (1, DEPF)] /\
  executable by_hand /\ requires (c_dag by_hand) 0 3 /\ Invalidated by_hand 0 /\ Invalidated by_hand 3 /\
  ~ held_up_by by_hand 0 3 /\ ~ held_up_by by_hand 3 0.
Proof.
  assert (A : forall a b, runs_after (c_dag by_hand) a b -> (a = 1 /\ b = 2) \/ (a = 2 /\ b = 3)).
  { intros a b H. cbn in H. repeat destruct H as [H|H]; try discriminate H; try injection H as <- <-; auto. destruct H. }
  assert (L : forall a b, clos_trans nid (runs_after (c_dag by_hand)) a b -> a < b).
  { intros a b H. induction H as [a b H|a b x _ IH1 _ IH2]; [destruct (A _ _ H) as [[-> ->]|[-> ->]]; lia|lia]. }
  assert (R : forall n, node_res by_hand n = []).
  { intros n. unfold node_res, node_task. cbn. destruct n as [|[|[|[|[|n]]]]]; reflexivity. }
  assert (V : forall n, Invalidated by_hand n).
  { intros n. exists n. split; [apply rt_refl|]. exists "". reflexivity. }
  assert (P : forall x v, In x [3; 0] -> clos_refl_trans nid (runs_after (c_dag by_hand)) x v -> v = x).
  { intros x v Hx H. apply clos_rt_rt1n in H. destruct H as [|y w H _]; [reflexivity|].
    destruct (A _ _ H) as [[-> _]|[-> _]]; cbn in Hx; lia. }
  split; [apply wf_dagb_wf; vm_compute; reflexivity|]. split; [apply go_reachable; vm_compute; reflexivity|].
  split; [cbn; tauto|]. split; [apply (t_trans _ _ 1 2 3); apply t_step; cbn; tauto|].
  split; [intros H; destruct (A _ _ H) as [[_ H1]|[H1 _]]; discriminate H1|]. split; [vm_compute; reflexivity|].
  split.
  - split; [intros [n H]; apply L in H; lia|]. intros n H. split; [|discriminate]. unfold node_has_job, node_task. cbn.
    destruct H as [<-|[<-|[<-|[<-|[]]]]]; reflexivity.
  - split; [cbn; tauto|]. split; [apply V|]. split; [apply V|]. split.
    + intros (v & Hv & [H|(_ & r & H & _)]); [|rewrite R in H; destruct H].
      apply P in Hv; [subst v|cbn; tauto]. destruct (A _ _ H) as [[H1 _]|[H1 _]]; discriminate H1.
    + intros (v & Hv & [H|(_ & r & H & _)]); [|rewrite R in H; destruct H].
      apply P in Hv; [subst v|cbn; tauto]. destruct (A _ _ H) as [[H1 _]|[H1 _]]; discriminate H1.
Qed.
