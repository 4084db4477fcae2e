(** Task sets that hold the same tasks under other names (C109). *)
From Coq Require Import String Lia Permutation Relations.
From Verif Require Import Model.Common Model.Records Model.Jobs Model.TaskSet Model.Dag Model.Sched Model.Exec Model.ExecSet
     Spec.Graph Spec.Trace Spec.Tasks Spec.Machine Spec.Constraints Spec.Names
     Proofs.Sets Proofs.TraceFacts Proofs.LogFacts Proofs.TaskFacts Proofs.BuildProps Proofs.ExecProps Proofs.SetExec Proofs.MachineFacts Proofs.LocalityFacts
     Proofs.ConstraintFacts Proofs.NameFacts.
Open Scope nat_scope.
Open Scope list_scope.

Lemma names_fate_le : forall st ts1 f1 ts2 f2 iv addr1 addr2 c1 c2 z1 z2 s1 s2,
  execution_of st ts1 f1 iv addr1 c1 -> execution_of st ts2 f2 iv addr2 c2 ->
  (forall t, picked ts1 f1 t <-> picked ts2 f2 t) ->
  Nat.max 1 (c_threads c1) <= Nat.max 1 (c_threads c2) -> reachable c1 z1 s1 -> reachable c2 z2 s2 ->
  (forall n1 n2 o1 o2, In (EEnd n1 o1) (trace s1) -> In (EEnd n2 o2) (trace s2) ->
     node_task (c_dag c1) n1 = node_task (c_dag c2) n2 -> o1 = o2) ->
  forall r1 r2, In r1 (records (trace s1)) -> In r2 (records (trace s2)) -> r_task r1 = r_task r2 ->
  r_status r1 = r_status r2 /\ r_retcode r1 = r_retcode r2 /\ r_output r1 = r_output r2.
Proof.
  intros st ts1 f1 ts2 f2 iv addr1 addr2 c1 c2 z1 z2 s1 s2 X1 X2 Pk Ht HR1 HR2 Ho r1 r2 H1 H2 Et.
  destruct (sets_looser st st ts1 f1 iv addr1 c1 ts2 f2 iv addr2 c2 X1 X2) as [LO Hf].
  { apply picked_selected, Pk. } { intros t _. repeat split; auto. } { exact Ht. }
  destruct (exec_facts _ _ _ _ _ _ X1) as (W1 & RA1 & _ & T1 & N1 & _).
  destruct (exec_facts _ _ _ _ _ _ X2) as (W2 & RA2 & _ & T2 & N2 & I2 & _).
  destruct (record_task c1 z1 s1 r1 W1 HR1 H1) as (K1 & Q1 & _). destruct (record_task c2 z2 s2 r2 W2 HR2 H2) as (K2 & Q2 & _).
  assert (En : r_node r2 = addr2 (node_task (c_dag c1) (r_node r1))).
  { destruct (N2 _ K2) as (t & St & E). rewrite E. rewrite Q1, Q2, E in Et. destruct (T2 t St) as (_ & Et2 & _). congruence. }
  apply (lo_fate _ c1 c2 z1 s1 z2 s2 W1 RA1 W2 RA2 LO HR1 HR2) with (2 := H1) (3 := H2) (4 := En).
  intros n o1 o2 G1 G2. apply (Ho n _ o1 o2 G1 G2). symmetry. apply Hf.
  apply trace_in in G1. pose proof (machine_ids c1 _ (machine_sound c1 z1 s1 W1 RA1 HR1)) as Hids. apply Hids. right. exists o1.
  apply J_end. exact G1.
Qed.

Theorem names_fate : forall st ts1 f1 ts2 f2 iv addr1 addr2 c1 c2 z1 z2 s1 s2,
  execution_of st ts1 f1 iv addr1 c1 -> execution_of st ts2 f2 iv addr2 c2 ->
  (forall t, picked ts1 f1 t <-> picked ts2 f2 t) -> reachable c1 z1 s1 -> reachable c2 z2 s2 ->
  (forall n1 n2 o1 o2, In (EEnd n1 o1) (trace s1) -> In (EEnd n2 o2) (trace s2) ->
     node_task (c_dag c1) n1 = node_task (c_dag c2) n2 -> o1 = o2) ->
  forall r1 r2, In r1 (records (trace s1)) -> In r2 (records (trace s2)) -> r_task r1 = r_task r2 ->
  r_status r1 = r_status r2 /\ r_retcode r1 = r_retcode r2 /\ r_output r1 = r_output r2.
Proof.
  intros st ts1 f1 ts2 f2 iv addr1 addr2 c1 c2 z1 z2 s1 s2 X1 X2 Pk HR1 HR2 Ho r1 r2 H1 H2 Et.
  destruct (Nat.le_ge_cases (Nat.max 1 (c_threads c1)) (Nat.max 1 (c_threads c2))) as [L|L].
  - exact (names_fate_le st ts1 f1 ts2 f2 iv addr1 addr2 c1 c2 z1 z2 s1 s2 X1 X2 Pk L HR1 HR2 Ho r1 r2 H1 H2 Et).
  - destruct (names_fate_le st ts2 f2 ts1 f1 iv addr2 addr1 c2 c1 z2 z1 s2 s1 X2 X1) with (r1 := r2) (r2 := r1) as (A & B & C); auto.
    + intros t. symmetry. apply Pk.
    + intros n1 n2 o1 o2 G1 G2 E. symmetry. apply (Ho n2 n1 o2 o1 G2 G1). symmetry. exact E.
Qed.

Theorem names_cycle : forall st ts1 f1 ts2 f2 iv addr1 addr2 c1 c2 z1 z2 s1 s2,
  execution_of st ts1 f1 iv addr1 c1 -> execution_of st ts2 f2 iv addr2 c2 ->
  (forall t, picked ts1 f1 t <-> picked ts2 f2 t) ->
  step c1 (init z1) LTick = Some s1 -> step c2 (init z2) LTick = Some s2 ->
  (result s1 = RThrow ExcCycle <-> result s2 = RThrow ExcCycle).
Proof.
  intros st ts1 f1 ts2 f2 iv addr1 addr2 c1 c2 z1 z2 s1 s2 X1 X2 Pk E1 E2.
  rewrite (set_cycle_detected _ _ _ _ _ _ X1 z1 (init z1) s1 (ex_intro _ [] eq_refl) eq_refl E1).
  rewrite (set_cycle_detected _ _ _ _ _ _ X2 z2 (init z2) s2 (ex_intro _ [] eq_refl) eq_refl E2).
  pose proof (picked_selected st ts1 f1 ts2 f2 Pk) as Sel.
  assert (M : forall a b, selected_after st ts1 f1 a b <-> selected_after st ts2 f2 a b).
  { intros a b. unfold selected_after. rewrite !Sel. tauto. }
  assert (K : forall P Q : tid -> tid -> Prop, (forall a b, P a b -> Q a b) -> forall x y, clos_trans tid P x y -> clos_trans tid Q x y).
  { intros P Q PQ x y H. induction H as [x y H|x y z _ IH1 _ IH2]; [apply t_step, PQ, H|eapply t_trans; eassumption]. }
  split; intros (t & H); exists t; revert H; apply K; intros a b; apply M.
Qed.

Lemma no_filter ts t : picked ts "" t <-> exists p, holds ts p t.
Proof.
  split; [intros (p & H & _); eauto|]. intros (p & H). exists p. split; [exact H|]. exists ""%string, (full_name p). reflexivity.
Qed.
