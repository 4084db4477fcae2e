(** After enough ticks there is a record (C13, C56). *)
From Coq Require Import Lia String Permutation.
From Verif Require Import Model.Common Model.Records Model.Jobs Model.TaskSet Model.Dag
     Model.Sched Model.Exec Spec.Graph Spec.Trace Spec.Failure Spec.Machine
     Proofs.TraceFacts Proofs.ExecInv Proofs.LogFacts Proofs.ExecProps Proofs.ExecProps2
     Proofs.ExecProps3 Proofs.Ticks Proofs.SharpTicks Proofs.RunCall Proofs.FailureFacts.
Open Scope nat_scope.
Open Scope list_scope.

Lemma stays_usable c z : wf_dag (c_dag c) -> (forall n, In n (node_ids (c_dag c)) -> node_has_job c n = true) ->
  forall ls s, run_labels c (init z) ls = Some s -> undisturbed ls -> ~ In LDestroy ls -> (forall b, s_pc s <> Bad b) -> usable s.
Proof.
  intros Hwf Hj. induction ls as [|l ls IH] using rev_ind; intros s E Hu Hd Hb; [injection E as <-; exact I|].
  rewrite run_labels_app in E. destruct (run_labels c (init z) ls) as [s0|] eqn:E0; [|discriminate].
  cbn in E. destruct (step c s0 l) as [s'|] eqn:E1; [|discriminate]. injection E as ->.
  assert (HR : reachable c z s0) by (exists ls; exact E0).
  assert (U0 : (forall b, s_pc s0 <> Bad b) -> usable s0).
  { apply (IH s0 eq_refl).
    - intros x Hx. apply Hu, in_app_iff. left. exact Hx.
    - intros H. apply Hd, in_app_iff. left. exact H. }
  assert (Q : s_pc s = s_pc s0 -> usable s) by (intros Y; unfold usable; rewrite Y; apply U0; intros b B; apply (Hb b); congruence).
  destruct (Hu l) as [U1 U2]; [apply in_app_iff; right; left; reflexivity|].
  destruct l as [| | | |k|n|n o|t]; cbn in E1.
  - destruct (done s0) eqn:D; [|eapply usable_tick; eassumption]. exfalso.
    unfold done in D. unfold tick in E1. destruct (s_pc s0); try discriminate; injection E1 as <-; exact (Hb _ eq_refl).
  - exfalso. apply Hd, in_app_iff. right. left. reflexivity.
  - eapply usable_ctl; [exact Hwf|exact HR| |exact E1]. apply U0. intros b B. unfold ctl in E1. rewrite B in E1. discriminate.
  - contradiction.
  - exfalso. exact (U2 k eq_refl).
  - destruct (s_fut s0 n); try discriminate. injection E1 as <-. apply Q. reflexivity.
  - destruct (s_fut s0 n); try discriminate. injection E1 as <-. apply Q. reflexivity.
  - injection E1 as <-. apply Q. reflexivity.
Qed.

Lemma enough_ticks : forall c z ls s, wf_dag (c_dag c) -> executable c ->
  run_labels c (init z) ls = Some s -> undisturbed ls -> ~ In LDestroy ls -> (forall b, s_pc s <> Bad b) ->
  tick_running s = false ->
  (let N := List.length (node_ids (c_dag c)) in (if N =? 0 then 1 else N + 2) + timeouts (trace s) <= ticks ls) ->
  exists er, result s = RRecord er.
Proof.
  intros c z ls s Hwf [Ha Hx] E Hu Hd Hb Ht Hn. cbn zeta in Hn.
  assert (Hj : forall n, In n (node_ids (c_dag c)) -> node_has_job c n = true) by (intros n H; apply Hx, H).
  assert (HR : reachable c z s) by (exists ls; exact E).
  pose proof (stays_usable c z Hwf Hj ls s E Hu Hd Hb) as U.
  assert (K : forall s', done s = false -> tick c s = Some s' -> tmo (s_log s') = tmo (s_log s) -> False).
  { intros s' D E1 T. pose proof (usable_tick c z Hwf Hj s s' HR D E1) as U1.
    assert (E2 : run_labels c (init z) (ls ++ [LTick]) = Some s') by (rewrite run_labels_app, E; cbn [run_labels]; unfold step; rewrite E1; reflexivity).
    pose proof (sharp_ticks c z _ s' Hwf E2) as B. cbn zeta in B. rewrite !timeouts_log in *. rewrite T in B.
    assert (ticks (ls ++ [LTick]) = S (ticks ls)) as Y.
    { unfold ticks. rewrite filter_app, app_length. cbn. lia. }
    rewrite Y in B. assert (forall b, s_pc s' <> Bad b) as Z by (intros b Y'; unfold usable in U1; rewrite Y' in U1; exact U1).
    specialize (B Z). lia. }
  unfold usable in U. unfold tick_running in Ht. destruct (s_pc s) as [|ph| | | | |e| |] eqn:Epc; try discriminate; try contradiction.
  - exfalso. apply (K (start c s)); [unfold done; rewrite Epc; reflexivity|unfold tick; rewrite Epc; reflexivity|].
    exact (proj1 (adds_start c z (fun _ => JRet (RunResult 0 [] "")) Hwf s HR Epc)).
  - exfalso. apply (K (match ph with PMain => main_top s | PDrain => drain_top s end));
      [unfold done; rewrite Epc; reflexivity|unfold tick; rewrite Epc; destruct ph; reflexivity|].
    pose (oc := fun _ : nid => JRet (RunResult 0 [] "")).
    destruct ph; [exact (proj1 (adds_top oc s s _ eq_refl (or_introl eq_refl)))|exact (proj1 (adds_top oc s s _ eq_refl (or_intror eq_refl)))].
  - exists (s_erec s). unfold result. rewrite Epc. reflexivity.
  - exfalso. apply (no_other_failure c Hwf z ls s e Ha (fun n H => proj2 (Hx n H)) Hu E). unfold result. rewrite Epc. reflexivity.
Qed.

Lemma nothing_finishes : forall c z ls s, wf_dag (c_dag c) -> executable c ->
  (forall n, In n (node_ids (c_dag c)) -> ~ job_invalidated c n) ->
  run_labels c (init z) ls = Some s -> undisturbed ls -> ~ In LDestroy ls -> (forall b, s_pc s <> Bad b) ->
  tick_running s = false ->
  (let N := List.length (node_ids (c_dag c)) in (if N =? 0 then 1 else N + 2) <= ticks ls) ->
  exists er, result s = RRecord er /\ Permutation (map r_node (er_runs er)) (node_ids (c_dag c)) /\
    forall r, In r (er_runs er) -> r_status r = SKIP.
Proof.
  intros c z ls s Hwf Hx Hn E Hu Hd Hb Ht Hk. assert (HR : reachable c z s) by (exists ls; exact E).
  destruct (nothing_to_do c z s Hwf HR Hn) as (N1 & _ & N3).
  assert (T : timeouts (trace s) = 0).
  { unfold timeouts. destruct (filter is_timeout (trace s)) as [|e l] eqn:F; [reflexivity|exfalso].
    assert (Hi : In e (filter is_timeout (trace s))) by (rewrite F; left; reflexivity).
    apply filter_In in Hi. destruct Hi as [Hi Hf]. destruct e; try discriminate Hf.
    unfold trace in Hi. rewrite <- in_rev in Hi. destruct (log_in c _ _ (r_log c z s Hwf HR) Hi) as (l1 & l2 & El & [[O _] _] & _).
    apply (N1 (ELaunch n)); [|exact I]. unfold trace. rewrite <- in_rev, El. apply in_app_iff. right. right. exact O. }
  destruct (enough_ticks c z ls s Hwf Hx E Hu Hd Hb Ht ltac:(cbn zeta in *; rewrite T; lia)) as [er R]. exists er. split; [exact R|]. exact (N3 er R).
Qed.

Lemma undisturbed_decide ls :
  forallb (fun l => match l with LLaunchFail | LVisThrow _ | LDestroy => false | _ => true end) ls = true ->
  undisturbed ls /\ ~ In LDestroy ls.
Proof.
  intros H. rewrite forallb_forall in H. split.
  - intros l Hl. specialize (H l Hl). destruct l; try discriminate H; split; discriminate.
  - intros Hl. discriminate (H _ Hl).
Qed.
