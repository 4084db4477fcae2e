(** Further facts about executions: outcomes of jobs, cases in which the code does not do
    what is expected of it. *)
From Coq Require Import Lia String Permutation.
From Verif Require Import Model.Common Model.Records Model.Jobs Model.TaskSet Model.Dag
     Model.Sched Model.Exec Spec.Graph Spec.Trace
     Proofs.Sets Proofs.SchedFacts Proofs.InvalFacts Proofs.TraceFacts Proofs.ExecInv
     Proofs.ExecStep Proofs.ExecCtl Proofs.LogFacts Proofs.ExecProps Proofs.ExecProps2
     Proofs.StepCases Proofs.ExecProps3 Properties.Demo Proofs.DemoFacts.
Open Scope string_scope.
Open Scope nat_scope.
Open Scope list_scope.

Lemma lambda_code o : rr_retcode (run_lambda o) = job_code o.
Proof. destruct o; reflexivity. Qed.
Lemma lambda_output o : rr_output (run_lambda o) = job_output o.
Proof. destruct o; reflexivity. Qed.
Lemma lambda_log o : rr_log (run_lambda o) = job_log o.
Proof. destruct o; reflexivity. Qed.

(** C06 *)
Lemma status_decision : forall c z s r,
  wf_dag (c_dag c) -> requires_after (c_dag c) -> reachable c z s ->
  In r (records (trace s)) ->
  let n := r_node r in
  (r_status r = DEPF <-> bad_requirement c (trace s) n) /\
  (r_status r = SKIP <-> ~ bad_requirement c (trace s) n /\ ~ Invalidated c n) /\
  (~ bad_requirement c (trace s) n -> Invalidated c n ->
     exists o, In (EEnd n o) (trace s) /\ (forall o', In (EEnd n o') (trace s) -> o' = o) /\
       r_retcode r = job_code o /\ r_output r = job_output o /\
       r_status r = (if (job_code o =? 0)%Z then OK else FAIL)) /\
  (r_status r = DEPF \/ r_status r = SKIP -> r_retcode r = 0%Z /\ r_output r = []).
Proof.
  intros c z s r Hwf Hra HR Hr n.
  destruct (status_rule c z s r Hwf Hra HR Hr) as [A1 [A2 [A3 A4]]]. cbn zeta in *. fold n in A1, A2, A3.
  split; [exact A1|]. split; [exact A2|]. split; [|exact A4].
  intros Hb Hi. assert (Hs : r_status r = OK \/ r_status r = FAIL).
  { destruct (r_status r); auto; exfalso; [|apply Hb, A1; reflexivity].
    destruct (proj1 A2 eq_refl) as [_ H]. auto. }
  destruct (A3 Hs) as [o [O1 [O2 [O3 O4]]]]. rewrite lambda_code in O2. rewrite lambda_output in O3.
  exists o. split; [exact O1|]. split.
  - intros o' O'. pose proof (k_fut _ _ _ _ (i_core _ _ (r_inv c z s Hwf HR)) n) as F.
    apply in_rev in O1, O'. destruct (s_fut s n) eqn:Ef; cbn in F.
    + destruct F as [_ [_ F]]. destruct (F _ O1).
    + destruct F as [_ [_ F]]. destruct (F _ O1).
    + destruct F as [_ [_ F]]. destruct (F _ O1).
    + destruct F as [_ [_ F]]. destruct (F _ O1).
    + destruct F as [_ [_ [_ F]]]. rewrite (F _ O1), (F _ O'). reflexivity.
  - split; [exact O2|]. split; [exact O3|]. rewrite O2 in O4. destruct (job_code o =? 0)%Z eqn:E.
    + apply Z.eqb_eq in E. destruct Hs as [H|H]; [exact H|]. apply O4 in H. congruence.
    + apply Z.eqb_neq in E. apply O4, E.
Qed.

(** C27 *)
Lemma throwing_job_fails : forall c z s n o r,
  wf_dag (c_dag c) -> reachable c z s -> In (EEnd n o) (trace s) ->
  (o = JThrowOther \/ exists w, o = JThrowStd w) ->
  In r (records (trace s)) -> r_node r = n ->
  r_status r = FAIL /\ r_retcode r <> 0%Z /\ r_output r = job_output o.
Proof.
  intros c z s n o r Hwf HR Ho Ht Hr En.
  pose proof (record_facts c z s Hwf HR r Hr) as [_ [_ F]]. cbn zeta in F. rewrite En in F.
  assert (Hl : In (ELaunch n) (trace s)).
  { pose proof (k_fut _ _ _ _ (i_core _ _ (r_inv c z s Hwf HR)) n) as G. apply in_rev in Ho.
    apply -> in_rev. destruct (s_fut s n); cbn in G; try apply G.
    destruct G as [_ [_ G]]. destruct (G _ Ho). }
  assert (Hu : forall o', In (EEnd n o') (trace s) -> o' = o).
  { intros o' O'. pose proof (k_fut _ _ _ _ (i_core _ _ (r_inv c z s Hwf HR)) n) as G.
    apply in_rev in Ho, O'. destruct (s_fut s n) eqn:Ef; cbn in G.
    + destruct G as [_ [_ G]]. destruct (G _ Ho).
    + destruct G as [_ [_ G]]. destruct (G _ Ho).
    + destruct G as [_ [_ G]]. destruct (G _ Ho).
    + destruct G as [_ [_ G]]. destruct (G _ Ho).
    + destruct G as [_ [_ [_ G]]]. rewrite (G _ Ho), (G _ O'). reflexivity. }
  assert (Hc : job_code o <> 0%Z) by (destruct Ht as [->|[w ->]]; discriminate).
  assert (G : (exists o', In (EEnd n o') (trace s) /\ r_retcode r = rr_retcode (run_lambda o')
              /\ r_output r = rr_output (run_lambda o')
              /\ In (ERunLog n (rr_log (run_lambda o'))) (trace s)
              /\ (r_status r = FAIL <-> r_retcode r <> 0%Z)) ->
         r_status r = FAIL /\ r_retcode r <> 0%Z /\ r_output r = job_output o).
  { intros [o' [O1 [O2 [O3 [_ O4]]]]]. apply Hu in O1. subst o'. rewrite lambda_code in O2. rewrite lambda_output in O3.
    rewrite <- O2 in Hc. split; [apply O4, Hc|]. auto. }
  destruct (r_status r).
  - apply G, F.
  - destruct F as [_ [F _]]. destruct (F Hl).
  - destruct F as [_ [F _]]. destruct (F Hl).
  - apply G, F.
Qed.

(** A callable that throws: what job_traits::run makes of it. *)
Lemma callable_throw : forall indet co,
  (forall r, co = CRet r -> traits_run indet co = JRet r) /\
  (co = CThrowOther -> traits_run indet co = JThrowOther) /\
  (forall w, co = CThrowStd w ->
     exists r, traits_run indet co = JRet r /\ rr_retcode r = indet /\
       rr_output r = [Chunk ERROR "Uncaught exception:"; Chunk ERROR w] /\ rr_log r = "").
Proof.
  intros indet co. split; [intros r ->; reflexivity|]. split; [intros ->; reflexivity|]. intros w ->. eexists. split; [reflexivity|]. repeat split; reflexivity.
Qed.

(** C21 *)
Lemma after_run_node_seq : forall c z s er r x,
  wf_dag (c_dag c) -> reachable c z s -> c_threads c <= 1 ->
  In (EAfterRun er r x) (trace s) -> x = r_node r.
Proof.
  intros c z s er r x Hwf HR Ht H. apply in_split in H. destruct H as [pre [post E]].
  destruct (trace_at c z s Hwf HR _ _ _ E) as [[He _] _]. cbn [ev_cond] in He. apply He, Ht.
Qed.

(** C52 *)
Lemma launch_requirements : forall c z s pre a post b r,
  wf_dag (c_dag c) -> reachable c z s -> trace s = pre ++ ELaunch a :: post ->
  requires (c_dag c) a b -> In r (records pre) -> r_node r = b -> is_bad (r_status r) = false.
Proof.
  intros c z s pre a post b r Hwf HR E Hq Hr En.
  destruct (trace_at c z s Hwf HR _ _ _ E) as [[He _] _]. cbn [ev_cond] in He.
  destruct He as [_ [_ [_ [_ [_ [_ Hd]]]]]]. eapply Hd; [exact Hq| |exact En].
  rewrite recs_rev. exact Hr.
Qed.

(** C10 *)
Lemma cycle_thrown : forall c z s,
  wf_dag (c_dag c) -> reachable c z s -> result s = RThrow ExcCycle -> has_after_cycle (c_dag c).
Proof.
  intros c z s Hwf HR E. destruct (cycle_result_reported c z s Hwf HR E) as [pre [l [_ Hc]]].
  destruct l as [|x r]; [destruct Hc|]. destruct Hc as [_ [Hch Hl]].
  assert (G : forall r x, chain (runs_after (c_dag c)) x r -> forall y, runs_after (c_dag c) (last (x :: r) x) y ->
             clos_trans nid (runs_after (c_dag c)) x y).
  { clear. induction r as [|u r IH]; intros x Hc y Hy; [apply t_step; exact Hy|].
    destruct Hc as [H1 H2]. eapply t_trans; [apply t_step; exact H1|]. apply IH; [exact H2|].
    assert (El : forall a b, last (u :: r) a = last (u :: r) b).
    { clear. induction r as [|v r IH] in u |- *; intros a b; [reflexivity|]. cbn [last] in *. apply (IH v). }
    rewrite (El u x). exact Hy. }
  exists x. eapply G; eauto.
Qed.
