(** How many jobs a tick polls (C115). *)
From Coq Require Import Lia String Permutation Relations.
From Verif Require Import Model.Common Model.Records Model.Jobs Model.TaskSet Model.Dag
     Model.Sched Model.Exec Model.ExecSet Model.RunLoop Spec.Graph Spec.Trace Spec.Tasks Spec.Parallel Spec.Polls
     Proofs.Sets Proofs.SchedFacts Proofs.InvalFacts Proofs.TraceFacts Proofs.ExecInv
     Proofs.ExecStep Proofs.ExecCtl Proofs.LogFacts Proofs.ExecProps Proofs.ExecProps2
     Proofs.StepCases Proofs.ExecProps3 Proofs.ParallelFacts Proofs.VisitFacts Proofs.PollFacts Proofs.OneThread.
Open Scope nat_scope.
Open Scope list_scope.

Lemma at_most_one_of m l : NoDup l -> list_sum (map (fun n => if m =? n then 1 else 0) l) <= 1.
Proof.
  unfold list_sum. induction 1 as [|x l Hx Hd IH]; cbn [map fold_right]; [lia|]. destruct (Nat.eqb_spec m x) as [->|_]; [|lia].
  assert (Z : fold_right Nat.add 0 (map (fun n => if x =? n then 1 else 0) l) = 0); [|lia].
  clear IH Hd. induction l as [|y l IH]; [reflexivity|]. cbn [map fold_right]. destruct (Nat.eqb_spec x y) as [->|_].
  - destruct Hx. left. reflexivity.
  - apply IH. intros H. apply Hx. right. exact H.
Qed.
Lemma timeouts_ge tr l : NoDup l -> all_timeouts tr l <= timeouts tr.
Proof.
  intros Hd. induction tr as [|e tr IH].
  - unfold all_timeouts, polls. cbn [filter List.length]. rewrite sum_zero by reflexivity. lia.
  - unfold all_timeouts in *. rewrite (map_ext _ _ (polls_cons e tr)), sum_add. unfold timeouts in *. cbn [filter].
    destruct e; cbn [is_timeout]; try (rewrite sum_zero by reflexivity; exact IH). cbn [List.length].
    pose proof (at_most_one_of n l Hd) as G. cbv beta iota. unfold nid in *. lia.
Qed.
Lemma sum_filter (p : nid -> bool) l : list_sum (map (fun n => if p n then 1 else 0) l) = List.length (filter p l).
Proof. unfold list_sum. induction l as [|x l IH]; [reflexivity|]. cbn [map fold_right filter]. rewrite IH. destruct (p x); reflexivity. Qed.

Theorem tick_cost : forall c z s s1 s2 ls new,
  wf_dag (c_dag c) -> reachable c z s -> done s = false ->
  step c s LTick = Some s1 -> forallb inner_label ls = true -> run_labels c s1 ls = Some s2 ->
  extends s s2 new -> tick_running s2 = false -> (forall e, result s2 <> RThrow e) ->
  timeouts new = List.length (filter (is_under_way (trace s2)) (node_ids (c_dag c))) /\
  timeouts new <= Nat.max 1 (c_threads c).
Proof.
  intros c z s s1 s2 ls new Hwf HR Hd E1 Hl E2 Hx Hr Hn.
  assert (HR2 : reachable c z s2).
  { destruct HR as [ls0 E0]. exists (ls0 ++ LTick :: ls). rewrite run_labels_app, E0. cbn [run_labels]. rewrite E1. exact E2. }
  assert (P : forall n, polls new n = if is_under_way (trace s2) n then 1 else 0)
    by (intros n; exact (one_tick_polls c z s s1 s2 ls new n Hwf HR Hd E1 Hl E2 Hx Hr Hn)).
  assert (T : timeouts new = List.length (filter (is_under_way (trace s2)) (node_ids (c_dag c)))).
  { assert (A : timeouts new = all_timeouts new (node_ids (c_dag c))).
    { apply Nat.le_antisymm; [|apply timeouts_ge, Hwf]. apply timeouts_le. intros n H.
      apply (timeout_node c z s2 n Hwf HR2). rewrite Hx. apply in_or_app. right. exact H. }
    rewrite A. unfold all_timeouts. rewrite (map_ext _ _ P). apply sum_filter. }
  split; [exact T|]. rewrite T.
  assert (HI : Inv c s) by (apply (r_inv c z s Hwf HR)).
  assert (HI1 : Inv c s1) by (eapply step_inv; eassumption).
  destruct (going_run c Hwf ls s1 s2 HI1 (going_start _ _ _ Hwf HI Hd E1) Hl E2) as (G & _ & HI2).
  destruct (s_pc s2) as [|ph| | | | |e| |b] eqn:Epc;
    try (exfalso; exact G);
    try (unfold tick_running in Hr; rewrite Epc in Hr; discriminate);
    try (exfalso; apply (Hn e); unfold result; rewrite Epc; reflexivity).
  1: { pose proof (k_bound _ _ _ _ (i_core _ _ HI2)) as B. etransitivity; [|exact B].
    rewrite <- (map_length co_node). apply NoDup_incl_length; [apply NoDup_filter, Hwf|].
    intros n H. apply filter_In in H. destruct H as [_ H]. rewrite (rest_under_way c s2 n ph Hwf HI2 Epc) in H.
    apply waitl_In in H. destruct H as [rec H]. apply in_map_iff. eexists. split; [|exact H]. reflexivity. }
  all: assert (Z : filter (is_under_way (trace s2)) (node_ids (c_dag c)) = []); [|rewrite Z; cbn; lia].
  all: destruct (filter (is_under_way (trace s2)) (node_ids (c_dag c))) as [|n l] eqn:F; [reflexivity|exfalso].
  all: assert (H : In n (filter (is_under_way (trace s2)) (node_ids (c_dag c)))) by (rewrite F; left; reflexivity).
  all: apply filter_In in H; destruct H as [Hid U].
  all: apply under_way_iff in U; destruct U as [[er U] R].
  - apply R. eapply (finished_recorded c z s2 Hwf HR2); [unfold result; rewrite Epc; reflexivity|exact Hid].
  - pose proof (i_pc _ _ HI2) as Pc. unfold pc_inv in Pc. rewrite Epc in Pc.
    destruct b; try (destruct Pc; fail); try (destruct G; fail).
    destruct Pc as (_ & _ & _ & Pc). apply in_rev in U. rewrite Forall_forall in Pc. apply Pc in U. discriminate.
Qed.
