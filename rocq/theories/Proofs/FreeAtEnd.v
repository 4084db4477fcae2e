(** No resource is in use when an execution has ended (C57). *)
From Coq Require Import Lia.
From Verif Require Import Model.Common Model.Records Model.Jobs Model.TaskSet Model.Dag
     Model.Sched Model.Exec Spec.Graph Spec.Trace
     Proofs.TraceFacts Proofs.ExecInv Proofs.ExecStep Proofs.ExecCtl Proofs.LogFacts Proofs.ExecProps
     Proofs.StepCases Proofs.ExecProps3 Proofs.Ticks.
Open Scope nat_scope.
Open Scope list_scope.

Lemma used_top s s' : s' = main_top s \/ s' = drain_top s -> s_used s' = s_used s /\ s_coros s' = s_coros s.
Proof.
  assert (D : s_used (drain_top s) = s_used s /\ s_coros (drain_top s) = s_coros s).
  { unfold drain_top. destruct (s_coros s) eqn:E; cbn; auto. }
  intros [->| ->]; [|exact D]. unfold main_top. destruct (s_todo s); [exact D|split; reflexivity].
Qed.

Lemma emits_used : forall es s, s_used (emits s es) = s_used s.
Proof. intros es s. rewrite emits_eq. reflexivity. Qed.

Lemma start_used c s : s_used (start c s) = s_used s.
Proof.
  assert (K : forall s es, s_used (emits s es) = s_used s) by (intros; apply emits_used).
  unfold start. cbv zeta.
  destruct (has_cycle _ _ _) as [[[|] cy]|]; cbn [s_used set_pc]; rewrite ?K; cbn [s_used set_erec]; rewrite ?K; try reflexivity.
  destruct (inval_pass (node_has_job c)) as [ns pr ev|n ev|n ev]; cbn [s_used set_pc]; rewrite ?K; cbn [s_used set_erec]; rewrite ?K; try reflexivity.
  destruct (prop_loop (fuel_of c)) as [ns' ev'| |]; cbn [s_used set_pc]; rewrite ?K; cbn [s_used set_erec]; rewrite ?K; try reflexivity.
  match goal with |- s_used (main_top ?x) = _ => rewrite (proj1 (used_top x _ (or_introl eq_refl))) end.
  cbn [s_used set_ns]. rewrite !K. cbn [s_used set_erec]. rewrite K. reflexivity.
Qed.

Lemma free_at_end : forall c z s er, wf_dag (c_dag c) -> reachable c z s -> result s = RRecord er -> s_used s = [].
Proof.
  intros c z s er Hwf [ls E] R. assert (Hf : s_pc s = Finished) by (unfold result in R; destruct (s_pc s); try discriminate; reflexivity).
  clear R er. revert s E Hf. induction ls as [|l ls IH] using rev_ind; intros s E Hf; [injection E as <-; reflexivity|].
  rewrite run_labels_app in E. destruct (run_labels c (init z) ls) as [s0|] eqn:E0; [|discriminate].
  cbn [run_labels] in E. destruct (step c s0 l) as [s'|] eqn:E1; [|discriminate]. injection E as ->.
  assert (HR : reachable c z s0) by (exists ls; exact E0).
  pose proof (r_inv c z s0 Hwf HR) as HI. assert (HI' : Inv c s) by (eapply step_inv; eassumption).
  pose proof (i_pc _ _ HI') as P'. unfold pc_inv in P'. rewrite Hf in P'. destruct P' as [Hc _].
  pose proof (i_pc _ _ HI) as P. unfold pc_inv in P.
  destruct l as [| | | |k|n|n o|t]; cbn [step] in E1.
  - unfold tick in E1. destruct (s_pc s0) as [|ph| | | | | | |] eqn:Epc; try discriminate.
    + injection E1 as <-. rewrite start_used. apply P.
    + assert (U : s_used s = s_used s0 /\ s_coros s = s_coros s0).
      { apply used_top. destruct ph; injection E1 as <-; auto. }
      destruct U as [U1 U2]. rewrite U1. destruct P as [A _]. unfold act in A.
      destruct (s_used s0) as [|r u] eqn:Eu; [reflexivity|exfalso].
      assert (Hr : In r (r :: u)) by (left; reflexivity).
      apply (a_used _ _ _ _ _ _ _ _ A) in Hr. destruct Hr as (n & rec & H1 & _).
      unfold live in H1. rewrite Epc in H1. rewrite U2 in Hc. rewrite Hc in H1. exact H1.
    + injection E1 as <-. discriminate Hf.
    + injection E1 as <-. discriminate Hf.
  - destruct (s_pc s0); try discriminate; injection E1 as <-; discriminate Hf.
  - destruct (ctl_cases c s0 s HI E1) as
      [ph kept sl rest n s' Epc Esl _ Es|ph kept sl rest n s' Epc Esl _ _ Es
      |ph kept sl rest n s1 s' Epc Esl _ _ Es1 Es|ph kept sl rest n rec s' Epc Esl _ Es
      |ph kept sl rest n rec s' Epc Esl _ Es|ph kept sl rest n rec o s1 s2 s' Epc Esl _ Es1 Es2 Es
      |kept s1 s' Epc Es1 Es|kept s1 s' Epc Es1 Es|e s' Epc Es|e sl rest s' Epc _ Es|s' Epc Es|sl rest s' Epc _ Es];
      try (exfalso; subst; cbn in Hf; congruence).
    exfalso. subst s1. destruct (dispatch_cases c s0 kept s' Hwf HI Epc Es) as [s' Y1 Y2 Y3 Y4|m s' Y1 Y2 Y3 Y4|s' Y1 Y2 Y3];
      clear Es; subst s'; discriminate Hf.
  - destruct (launchfail_cases c s0 s HI E1) as (ph & kept & sl & rest & n & _ & _ & _ & Ep & _). congruence.
  - exfalso. destruct (match s_pc s0 with Created | Suspended _ => tick c s0 | Clean _ _ _ => ctl c s0 true | _ => None end) as [s1|]; [|discriminate].
    unfold visitor_throws in E1. destruct (cut_at k _) as [es|]; [|discriminate]. injection E1 as <-. discriminate Hf.
  - destruct (s_fut s0 n); try discriminate. injection E1 as <-. exact (IH s0 eq_refl Hf).
  - destruct (s_fut s0 n); try discriminate. injection E1 as <-. exact (IH s0 eq_refl Hf).
  - injection E1 as <-. exact (IH s0 eq_refl Hf).
Qed.
