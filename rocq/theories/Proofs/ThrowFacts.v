(** What the record says about a job whose callable throws (C27). *)
From Coq Require Import String Lia.
From Verif Require Import Model.Common Model.Records Model.Jobs Model.TaskSet Model.Dag
     Model.Sched Model.Exec Spec.Graph Spec.Trace Proofs.Sets Proofs.TraceFacts Proofs.ExecInv Proofs.ExecStep
     Proofs.ExecCtl Proofs.LogFacts Proofs.ExecProps Proofs.ExecProps2 Proofs.ExecProps3 Proofs.ExecProps4.
Open Scope string_scope.
Open Scope nat_scope.
Open Scope list_scope.

(** The record of a task whose job has ended. *)
Lemma ended_record c z s n o r : wf_dag (c_dag c) -> reachable c z s -> In (EEnd n o) (trace s) ->
  In r (records (trace s)) -> r_node r = n ->
  r_status r = (if (job_code o =? 0)%Z then OK else FAIL) /\ r_retcode r = job_code o /\ r_output r = job_output o.
Proof.
  intros Hwf HR Ho Hr En.
  pose proof (record_facts c z s Hwf HR r Hr) as [_ [_ F]]. cbn zeta in F. rewrite En in F.
  assert (Hl : In (ELaunch n) (trace s)).
  { pose proof (k_fut _ _ _ _ (i_core _ _ (r_inv c z s Hwf HR)) n) as G. apply in_rev in Ho.
    apply -> in_rev. destruct (s_fut s n); cbn in G; try apply G.
    destruct G as [_ [_ G]]. destruct (G _ Ho). }
  assert (Hu : forall o', In (EEnd n o') (trace s) -> o' = o).
  { intros o' O'. pose proof (k_fut _ _ _ _ (i_core _ _ (r_inv c z s Hwf HR)) n) as G.
    apply in_rev in Ho, O'. destruct (s_fut s n) eqn:Ef; cbn in G; try (destruct G as [_ [_ G]]; destruct (G _ Ho)).
    destruct G as [_ [_ [_ G]]]. rewrite (G _ Ho), (G _ O'). reflexivity. }
  assert (G : r_status r = OK \/ r_status r = FAIL -> (exists o', In (EEnd n o') (trace s) /\ r_retcode r = rr_retcode (run_lambda o')
              /\ r_output r = rr_output (run_lambda o')
              /\ In (ERunLog n (rr_log (run_lambda o'))) (trace s)
              /\ (r_status r = FAIL <-> r_retcode r <> 0%Z)) ->
         r_status r = (if (job_code o =? 0)%Z then OK else FAIL) /\ r_retcode r = job_code o /\ r_output r = job_output o).
  { intros Hs [o' [O1 [O2 [O3 [_ O4]]]]]. apply Hu in O1. subst o'. rewrite lambda_code in O2. rewrite lambda_output in O3.
    split; [|split; [exact O2|exact O3]]. rewrite O2 in O4. destruct (Z.eqb_spec (job_code o) 0) as [E|E].
    - destruct Hs as [Hs|Hs]; [exact Hs|]. destruct (proj1 O4 Hs E).
    - exact (proj2 O4 E). }
  destruct (r_status r) eqn:Es.
  - apply G; [left; reflexivity|apply F].
  - destruct F as [_ [F _]]. destruct (F Hl).
  - destruct F as [_ [F _]]. destruct (F Hl).
  - apply G; [right; reflexivity|apply F].
Qed.

Theorem throwing_callable c z s n indet co r : wf_dag (c_dag c) -> reachable c z s ->
  In (EEnd n (traits_run indet co)) (trace s) -> (co = CThrowOther \/ exists w, co = CThrowStd w) ->
  In r (records (trace s)) -> r_node r = n ->
  (r_status r = FAIL <-> co = CThrowOther \/ indet <> 0%Z) /\
  (r_status r = OK <-> co <> CThrowOther /\ indet = 0%Z) /\
  (forall w, co = CThrowStd w -> r_retcode r = indet /\
     r_output r = [Chunk ERROR "Uncaught exception:"; Chunk ERROR w]).
Proof.
  intros Hwf HR Ho Ht Hr En. destruct (ended_record c z s n _ r Hwf HR Ho Hr En) as (S1 & S2 & S3).
  destruct Ht as [->|[w ->]].
  - cbn in S1. rewrite S1. split; [split; [left; reflexivity|reflexivity]|]. split; [|intros w E; discriminate E].
    split; [discriminate|intros [H _]; destruct (H eq_refl)].
  - cbn in S1, S2, S3. rewrite S1. split; [|split].
    + destruct (Z.eqb_spec indet 0) as [E|E]; split; intros H; try discriminate H.
      * destruct H as [H|H]; [discriminate H|destruct (H E)].
      * right. exact E.
      * reflexivity.
    + destruct (Z.eqb_spec indet 0) as [E|E]; split; intros H; try discriminate H.
      * split; [discriminate|exact E].
      * reflexivity.
      * destruct H as [_ H]. destruct (E H).
    + intros w' E. injection E as <-. split; [exact S2|exact S3].
Qed.
