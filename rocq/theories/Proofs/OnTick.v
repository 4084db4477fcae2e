(** When on_tick is called (C77). *)
From Coq Require Import Lia String Permutation.
From Verif Require Import Model.Common Model.Records Model.Jobs Model.TaskSet Model.Dag
     Model.Sched Model.Exec Spec.Graph Spec.Trace
     Proofs.Sets Proofs.SchedFacts Proofs.InvalFacts Proofs.TraceFacts Proofs.ExecInv
     Proofs.ExecStep Proofs.ExecCtl Proofs.LogFacts Proofs.ExecProps Proofs.ExecProps2
     Proofs.StepCases Proofs.ExecProps3 Proofs.Ticks Proofs.OneTick.
Open Scope nat_scope.
Open Scope list_scope.

Lemma on_ticks_app a b : on_ticks (a ++ b) = on_ticks a + on_ticks b.
Proof. unfold on_ticks. rewrite filter_app, app_length. reflexivity. Qed.

Lemma on_ticks_rev a : on_ticks (rev a) = on_ticks a.
Proof.
  induction a as [|x a IH]; [reflexivity|]. cbn [rev]. rewrite on_ticks_app, IH.
  unfold on_ticks. cbn. destruct (is_on_tick x); cbn; lia.
Qed.

Lemma on_ticks_none a : Forall (fun e => is_on_tick e = false) a -> on_ticks a = 0.
Proof. intros H. unfold on_ticks. induction H as [|x a Hx _ IH]; [reflexivity|]. cbn. rewrite Hx. exact IH. Qed.

Lemma on_ticks_in a er : In (EOnTick er) a -> 1 <= on_ticks a.
Proof.
  intros H. apply in_split in H. destruct H as [x [y ->]]. rewrite on_ticks_app. unfold on_ticks. cbn. lia.
Qed.

Lemma on_ticks_log3 c evd pre : on_ticks (log3 c evd pre) = 0.
Proof.
  unfold log3, log2, log1. rewrite !on_ticks_app, !on_ticks_rev.
  rewrite !on_ticks_none; [reflexivity| | |]; apply Forall_forall; intros e He; apply in_map_iff in He as (i & <- & Hi);
    try reflexivity; destruct i; reflexivity.
Qed.

(** * Only the beginning of a tick calls it *)

Lemma inner_no_on_tick c s l s' : wf_dag (c_dag c) -> Inv c s -> tick_running s = true ->
  step c s l = Some s' -> exists new, s_log s' = new ++ s_log s /\ on_ticks new = 0.
Proof.
  intros Hwf HI Ht E.
  assert (HC : forall s', ctl c s true = Some s' -> exists new, s_log s' = new ++ s_log s /\ on_ticks new = 0).
  { clear s' E. intros s' E. destruct (ctl_cases c s s' HI E) as
      [ph kept sl rest n s' Epc Esl _ Es|ph kept sl rest n s' Epc Esl _ _ Es
      |ph kept sl rest n s1 s' Epc Esl _ _ Es1 Es|ph kept sl rest n rec s' Epc Esl Ef Es
      |ph kept sl rest n rec s' Epc Esl _ Es|ph kept sl rest n rec o s1 s2 s' Epc Esl _ Es1 Es2 Es
      |kept s1 s' Epc Es1 Es|kept s1 s' Epc Es1 Es|e s' Epc Es|e sl rest s' Epc _ Es|s' Epc Es|sl rest s' Epc _ Es].
    + subst s'. eexists [_; _]. split; reflexivity.
    + subst s'. eexists [_; _]. split; reflexivity.
    + subst s' s1. eexists [_; _]. split; reflexivity.
    + subst s'. eexists [_]. split; reflexivity.
    + subst s'. eexists [_]. split; reflexivity.
    + exists [EAfterRun (s_erec s) (finish_record rec (run_lambda o) (s_clock s)) (sl_node sl);
              ERunLog n (rr_log (run_lambda o))]. subst s' s2 s1. destruct (negb _); (split; reflexivity).
    + subst s1. exists []. split; [|reflexivity].
      destruct (dispatch_cases c s kept s' Hwf HI Epc Es) as [s' X1 X2 X3 X4|m0 s' X1 X2 X3 X4|s' X1 X2 X3];
        clear Es; subst s'; reflexivity.
    + subst s' s1. exists []. split; reflexivity.
    + subst s'. exists []. split; reflexivity.
    + subst s'. exists []. split; reflexivity.
    + subst s'. eexists [_]. split; reflexivity.
    + subst s'. exists []. split; reflexivity. }
  destruct l; cbn [step] in E.
  - unfold tick in E. unfold tick_running in Ht. destruct (s_pc s); discriminate.
  - unfold tick_running in Ht. destruct (s_pc s); discriminate.
  - apply HC, E.
  - destruct (launchfail_cases c s s' HI E) as (ph & kept & sl & rest & n & _ & _ & _ & _ & El & _).
    eexists [_]. split; [exact El|reflexivity].
  - destruct (match s_pc s with Created | Suspended _ => tick c s | Clean _ _ _ => ctl c s true | _ => None end) as [s1|] eqn:E1; [|discriminate].
    assert (E1' : ctl c s true = Some s1) by (unfold tick_running in Ht; destruct (s_pc s); try discriminate; exact E1).
    destruct (HC s1 E1') as [new [En Hn]].
    destruct (visthrow_cases s s1 k s' E) as [es [rest [Es [es2 Ees]]]].
    rewrite En, app_length, Nat.add_sub, firstn_app, Nat.sub_diag, firstn_O, app_nil_r, firstn_all in Ees.
    exists (rev es). split; [rewrite Es, emits_eq; destruct s; reflexivity|].
    rewrite on_ticks_rev. rewrite <- on_ticks_rev, Ees, on_ticks_app in Hn. lia.
  - destruct (s_fut s n); try discriminate. inversion E; subst. eexists [_]. split; reflexivity.
  - destruct (s_fut s n); try discriminate. inversion E; subst. eexists [_]. split; reflexivity.
  - inversion E; subst. exists []. split; reflexivity.
Qed.

Lemma inside_cons c s1 l ls s2 : step c s1 l = Some s2 -> inside_tick c s1 (l :: ls) ->
  tick_running s1 = true /\ inside_tick c s2 ls.
Proof.
  intros E H. split; [apply (H [] (l :: ls)); [reflexivity|discriminate|reflexivity]|].
  intros p q s' El Hq Ep. apply (H (l :: p) q s'); [rewrite El; reflexivity|exact Hq|]. cbn. rewrite E. exact Ep.
Qed.

Lemma inside_no_on_tick c : wf_dag (c_dag c) -> forall ls s s', Inv c s -> inside_tick c s ls ->
  run_labels c s ls = Some s' -> exists new, s_log s' = new ++ s_log s /\ on_ticks new = 0.
Proof.
  intros Hwf. induction ls as [|l ls IH]; intros s s' HI Hin E.
  - inversion E; subst. exists []. split; reflexivity.
  - cbn in E. destruct (step c s l) as [s1|] eqn:E1; [|discriminate].
    destruct (inside_cons c s l ls s1 E1 Hin) as [Ht Hin1].
    destruct (inner_no_on_tick c s l s1 Hwf HI Ht E1) as [n1 [L1 K1]].
    destruct (IH s1 s' (step_inv c Hwf s l s1 HI E1) Hin1 E) as [n2 [L2 K2]].
    exists (n2 ++ n1). rewrite L2, L1, app_assoc. split; [reflexivity|]. rewrite on_ticks_app. lia.
Qed.

(** What the call itself does. *)
Inductive tick_call (c : config) (s s1 : state) : Prop :=
| TC_main pre er kept : s_log s1 = EOnTick er :: pre ++ s_log s -> on_ticks pre = 0 ->
    (s_pc s <> Created -> pre = []) -> s_pc s1 = Clean PMain kept (s_coros s1) -> tick_call c s s1
| TC_other new : s_log s1 = new ++ s_log s -> on_ticks new = 0 ->
    (forall ph kept rest, s_pc s1 = Clean ph kept rest -> ph = PDrain) ->
    (forall ph, s_pc s1 <> Suspended ph) -> tick_call c s s1.

Lemma tick_calls c s s1 : wf_dag (c_dag c) -> Inv c s -> step c s LTick = Some s1 -> tick_call c s s1.
Proof.
  intros Hwf HI E. cbn in E. unfold tick in E.
  assert (HD : forall s0, tick_call c s0 (drain_top s0)).
  { intros s0. unfold drain_top. destruct (s_coros s0) eqn:Ec.
    - apply (TC_other c _ _ [EAfterExec (s_erec s0)]); [reflexivity|reflexivity|discriminate|discriminate].
    - apply (TC_other c _ _ []); [reflexivity|reflexivity| |discriminate].
      cbn. intros ph kept rest H. inversion H. reflexivity. }
  destruct (s_pc s) as [|ph| | | | | | |] eqn:Epc; try discriminate.
  - inversion E; subst s1.
    assert (L0 : s_log s = []). { pose proof (i_pc _ _ HI) as P. unfold pc_inv in P. rewrite Epc in P. tauto. }
    destruct (start_spec c Hwf s HI Epc) as [R _].
    inversion R as [? ? cyc L1 L2 L3|? ? m pre post L2 L1 L3 L4 L5 L6 L7|? ? m pre post L2 L1 L3 L4 L5 L6 L7
               |? ? s2 evd todo Es T1 El Ep Et Hso Ec]; subst.
    + apply (TC_other c _ _ (s_log (start c s))); [rewrite L0, app_nil_r; reflexivity| |rewrite L2; discriminate|rewrite L2; discriminate].
      rewrite L1. change (on_ticks ([ECycle cyc] ++ log1 c) = 0). rewrite on_ticks_app. unfold log1. rewrite on_ticks_rev.
      rewrite (on_ticks_none (map EEnque _)); [reflexivity|]. apply Forall_forall. intros e He. apply in_map_iff in He as (i & <- & _). reflexivity.
    + apply (TC_other c _ _ (s_log (start c s))); [rewrite L0, app_nil_r; reflexivity| |rewrite L2; discriminate|rewrite L2; discriminate].
      rewrite L1. exact (on_ticks_log3 c [] pre).
    + apply (TC_other c _ _ (s_log (start c s))); [rewrite L0, app_nil_r; reflexivity| |rewrite L2; discriminate|rewrite L2; discriminate].
      rewrite L1. exact (on_ticks_log3 c [] pre).
    + rewrite Es. unfold main_top. destruct (s_todo s2) as [|x l] eqn:Et2.
      * unfold drain_top. rewrite Ec.
        apply (TC_other c _ _ (EAfterExec (s_erec s2) :: s_log s2)); [cbn; rewrite L0, app_nil_r; reflexivity| |discriminate|discriminate].
        rewrite El. exact (on_ticks_log3 c evd _).
      * eapply (TC_main c _ _ (s_log s2)); [cbn; rewrite L0, app_nil_r; reflexivity|rewrite El; apply on_ticks_log3| |reflexivity].
        intros Hne. destruct (Hne Epc).
  - destruct ph; inversion E; subst s1; [|apply HD].
    unfold main_top. destruct (s_todo s); [apply HD|].
    eapply (TC_main c _ _ []); [reflexivity|reflexivity|reflexivity|reflexivity].
  - inversion E; subst. apply (TC_other c _ _ []); [reflexivity|reflexivity|discriminate|discriminate].
  - inversion E; subst. apply (TC_other c _ _ []); [reflexivity|reflexivity|discriminate|discriminate].
Qed.

Lemma on_ticks_split a er b : on_ticks (a ++ EOnTick er :: b) <= 1 ->
  forall er', ~ In (EOnTick er') (a ++ b).
Proof.
  intros H er' Hin. rewrite on_ticks_app in H. change (EOnTick er :: b) with ([EOnTick er] ++ b) in H.
  rewrite on_ticks_app in H. change (on_ticks [EOnTick er]) with 1 in H.
  apply in_app_iff in Hin. destruct Hin as [Hin|Hin]; apply on_ticks_in in Hin; lia.
Qed.

Section OneTick.
Variables (c : config) (z : Z) (s s1 : state) (ls : list label) (s2 : state) (new : list event).
Hypothesis Hwf : wf_dag (c_dag c).
Hypothesis HR : reachable c z s.
Hypothesis E1 : step c s LTick = Some s1.
Hypothesis Hls : inside_tick c s1 ls.
Hypothesis E2 : run_labels c s1 ls = Some s2.
Hypothesis Hnew : extends s s2 new.

Lemma new_log : s_log s2 = rev new ++ s_log s.
Proof.
  rewrite <- (rev_involutive (s_log s2)). fold (trace s2). rewrite Hnew, rev_app_distr. unfold trace. rewrite rev_involutive. reflexivity.
Qed.

Lemma tick_split : exists first later, s_log s1 = rev first ++ s_log s /\ new = first ++ later /\ on_ticks later = 0.
Proof.
  pose proof (r_inv c z s Hwf HR) as HI. pose proof (step_inv c Hwf s LTick s1 HI E1) as HI1.
  destruct (step_log c s LTick s1 Hwf HI E1) as [f Ef].
  destruct (inside_no_on_tick c Hwf ls s1 s2 HI1 Hls E2) as [g [Eg Hg]].
  exists (rev f), (rev g). rewrite rev_involutive, on_ticks_rev. split; [exact Ef|]. split; [|exact Hg].
  rewrite Ef, app_assoc, new_log in Eg. apply app_inv_tail in Eg.
  rewrite <- rev_app_distr, <- Eg, rev_involutive. reflexivity.
Qed.
End OneTick.

(** At most once in a tick; first, unless it is the first tick. *)
Lemma on_tick_once : forall c z s s1 ls s2 new a er b,
  wf_dag (c_dag c) -> reachable c z s -> step c s LTick = Some s1 ->
  inside_tick c s1 ls -> run_labels c s1 ls = Some s2 -> extends s s2 new ->
  new = a ++ EOnTick er :: b ->
  (forall er', ~ In (EOnTick er') (a ++ b)) /\ (s_pc s <> Created -> a = []).
Proof.
  intros c z s s1 ls s2 new a er b Hwf HR E1 Hls E2 Hn En.
  destruct (tick_split c z s s1 ls s2 new Hwf HR E1 Hls E2 Hn) as (f & g & Ef & Efg & Hg).
  pose proof (r_inv c z s Hwf HR) as HI.
  assert (H1 : 1 <= on_ticks new).
  { rewrite En, on_ticks_app. change (EOnTick er :: b) with ([EOnTick er] ++ b). rewrite on_ticks_app.
    change (on_ticks [EOnTick er]) with 1. lia. }
  assert (Hf : on_ticks f <= 1 /\ (s_pc s <> Created -> exists er', f = [EOnTick er'] \/ on_ticks f = 0)).
  { destruct (tick_calls c s s1 Hwf HI E1) as [pre er0 kept L1 L2 L3 L4|new0 L1 L2 L3 L4];
      rewrite Ef in L1; [change (EOnTick er0 :: pre ++ s_log s) with ((EOnTick er0 :: pre) ++ s_log s) in L1|];
      apply app_inv_tail in L1; rewrite <- (rev_involutive f), L1.
    - rewrite on_ticks_rev. split.
      + change (EOnTick er0 :: pre) with ([EOnTick er0] ++ pre). rewrite on_ticks_app.
        change (on_ticks [EOnTick er0]) with 1. lia.
      + intros Hc. exists er0. left. rewrite (L3 Hc). reflexivity.
    - rewrite on_ticks_rev, L2. split; [lia|]. intros _. exists er. right. reflexivity. }
  destruct Hf as [Hf1 Hf2]. split.
  - apply (on_ticks_split a er b). rewrite <- En, Efg, on_ticks_app. lia.
  - intros Hc. destruct (Hf2 Hc) as [er' [Hf|Hf]]; [|rewrite Efg, on_ticks_app in H1; lia].
    rewrite Hf in Efg. destruct a as [|e a]; [reflexivity|exfalso]. rewrite En in Efg. cbn in Efg.
    injection Efg as _ Eg. assert (Hgg : In (EOnTick er) g) by (rewrite <- Eg; apply in_app_iff; right; left; reflexivity).
    apply on_ticks_in in Hgg. lia.
Qed.

(** * It is called if tasks are left that the tick does not begin *)

(** [b]: on_tick was called in this tick. *)
Definition in_pass (b : bool) (s : state) : Prop :=
  match s_pc s with
  | Clean PMain _ _ | Suspended PMain => b = true
  | Clean PDrain _ _ | Suspended PDrain | Finished => b = false
  | Created | Destroying _ | Destroyed | Bad BadResumeDone => False
  | _ => True
  end /\
  match s_pc s with
  | Suspended PMain => exists n, In n (s_todo s) \/ In (Coro n CFresh) (live s)
  | _ => True
  end.

Lemma in_pass_step c b s l s' : wf_dag (c_dag c) -> Inv c s -> tick_running s = true -> in_pass b s ->
  step c s l = Some s' -> in_pass b s'.
Proof.
  intros Hwf HI Ht [H _] E.
  assert (HF : s_pc s' = s_pc s -> in_pass b s').
  { intros Ep. unfold in_pass. rewrite Ep. split; [exact H|]. unfold tick_running in Ht. destruct (s_pc s); try discriminate; exact I. }
  assert (HC : forall ph k r k' r', s_pc s = Clean ph k r -> s_pc s' = Clean ph k' r' -> in_pass b s').
  { intros ph k r k' r' Ep1 Ep2. unfold in_pass. rewrite Ep1 in H. rewrite Ep2. split; [exact H|exact I]. }
  assert (HU : match s_pc s' with Unwind _ _ | Failed _ => True | _ => False end -> in_pass b s').
  { unfold in_pass. destruct (s_pc s'); try contradiction; auto. }
  destruct l; cbn [step] in E.
  - unfold tick in E. unfold tick_running in Ht. destruct (s_pc s); discriminate.
  - unfold tick_running in Ht. destruct (s_pc s); discriminate.
  - destruct (ctl_cases c s s' HI E) as
      [ph kept sl rest n s' Epc Esl _ Es|ph kept sl rest n s' Epc Esl _ _ Es
      |ph kept sl rest n s1 s' Epc Esl _ _ Es1 Es|ph kept sl rest n rec s' Epc Esl Ef Es
      |ph kept sl rest n rec s' Epc Esl _ Es|ph kept sl rest n rec o s1 s2 s' Epc Esl _ Es1 Es2 Es
      |kept s1 s' Epc Es1 Es|kept s1 s' Epc Es1 Es|e s' Epc Es|e sl rest s' Epc _ Es|s' Epc Es|sl rest s' Epc _ Es].
    + eapply HC; [exact Epc|subst s'; reflexivity].
    + eapply HC; [exact Epc|subst s'; reflexivity].
    + eapply HC; [exact Epc|subst s'; reflexivity].
    + apply HF. subst s'. reflexivity.
    + eapply HC; [exact Epc|subst s'; reflexivity].
    + eapply HC; [exact Epc|subst s' s1 s2; destruct (negb _); reflexivity].
    + subst s1. rewrite Epc in H.
      pose proof (i_pc _ _ HI) as P. unfold pc_inv in P. rewrite Epc in P.
      destruct P as [_ [_ [_ [_ [_ [P _]]]]]]. specialize (P eq_refl).
      assert (Hx : exists n, In n (s_todo s)) by (destruct (s_todo s) as [|x l]; [destruct (P eq_refl)|exists x; left; reflexivity]).
      destruct Hx as [x Hx].
      destruct (dispatch_cases c s kept s' Hwf HI Epc Es) as [s' X1 X2 X3 X4|m0 s' X1 X2 X3 X4|s' X1 X2 X3];
        clear Es; subst s'; (split; [exact H|]).
      * exists x. left. exact Hx.
      * exists m0. right. unfold live. cbn. rewrite map_app. apply in_app_iff. right. left. reflexivity.
      * exists x. left. exact Hx.
    + subst s' s1. rewrite Epc in H. split; [exact H|exact I].
    + apply HU. subst s'. exact I.
    + apply HU. subst s'. exact I.
    + unfold tick_running in Ht. rewrite Epc in Ht. discriminate.
    + unfold tick_running in Ht. rewrite Epc in Ht. discriminate.
  - destruct (launchfail_cases c s s' HI E) as (ph & kept & sl & rest & n & _ & _ & _ & Ep & _).
    apply HU. rewrite Ep. exact I.
  - destruct (match s_pc s with Created | Suspended _ => tick c s | Clean _ _ _ => ctl c s true | _ => None end) as [s1|]; [|discriminate].
    unfold visitor_throws in E. destruct (cut_at k _) as [es|]; [|discriminate]. inversion E; subst. apply HU. exact I.
  - destruct (s_fut s n); try discriminate. inversion E; subst. apply HF. reflexivity.
  - destruct (s_fut s n); try discriminate. inversion E; subst. apply HF. reflexivity.
  - inversion E; subst. apply HF. reflexivity.
Qed.

Lemma in_pass_run c b : wf_dag (c_dag c) -> forall ls s s', Inv c s -> inside_tick c s ls -> in_pass b s ->
  run_labels c s ls = Some s' -> in_pass b s'.
Proof.
  intros Hwf. induction ls as [|l ls IH]; intros s s' HI Hin HP E; [inversion E; subst; exact HP|].
  cbn in E. destruct (step c s l) as [s1|] eqn:E1; [|discriminate].
  destruct (inside_cons c s l ls s1 E1 Hin) as [Ht Hin1].
  apply (IH s1 s'); [eapply step_inv; eassumption|exact Hin1|eapply in_pass_step; eassumption|exact E].
Qed.

Lemma tick_pc c s s1 : wf_dag (c_dag c) -> Inv c s -> done s = false -> step c s LTick = Some s1 ->
  match s_pc s1 with Clean _ _ _ | Finished | Failed _ | Bad (BadNullJob _) => True | _ => False end.
Proof.
  intros Hwf HI Hd E1. cbn in E1. unfold tick in E1. unfold done in Hd.
  destruct (s_pc s) as [|ph| | | | | | |] eqn:Epc; try discriminate.
  - inversion E1; subst s1. destruct (start_spec c Hwf s HI Epc) as [R _].
    inversion R as [? ? cyc L1 L2 L3|? ? m0 pre post L2 L1 L3 L4 L5 L6 L7|? ? m0 pre post L2 L1 L3 L4 L5 L6 L7
      |? ? s2 evd todo Es T1 El1 Ep1 Et Hso Ec]; subst; try (rewrite L2; exact I).
    rewrite Es. unfold main_top, drain_top. rewrite Ec. destruct (s_todo s2); exact I.
  - unfold main_top, drain_top in E1.
    destruct ph; [destruct (s_todo s)|]; try destruct (s_coros s); inversion E1; subst; exact I.
Qed.

Lemma recorded_begun c log n : log_ok c log -> recorded_l log n -> before_l log n.
Proof.
  intros L [r [Hr Hn]]. apply recs_In in Hr. destruct Hr as (er & x & Hin). apply in_split in Hin.
  destruct Hin as (a & b & El). rewrite El in L |- *. apply log_ok_app in L. destruct L as [[Hc _] _]. cbn in Hc.
  destruct Hc as [_ [_ [[er' Hc] _]]]. rewrite Hn in Hc. exists er'. apply in_app_iff. right. right. exact Hc.
Qed.

Lemma on_tick_iff : forall c z s s1 ls s2 new,
  wf_dag (c_dag c) -> (forall n, In n (node_ids (c_dag c)) -> node_has_job c n = true) ->
  reachable c z s -> done s = false -> step c s LTick = Some s1 ->
  inside_tick c s1 ls -> run_labels c s1 ls = Some s2 -> extends s s2 new ->
  tick_running s2 = false -> (forall e, result s2 <> RThrow e) ->
  ((exists er, In (EOnTick er) new) <-> exists n, In n (node_ids (c_dag c)) /\ ~ task_begun (trace s2) n).
Proof.
  intros c z s s1 ls s2 new Hwf Hj HR Hd E1 Hls E2 Hn Ht Hx.
  destruct (tick_split c z s s1 ls s2 new Hwf HR E1 Hls E2 Hn) as (f & g & Ef & Efg & Hg).
  pose proof (r_inv c z s Hwf HR) as HI. pose proof (step_inv c Hwf s LTick s1 HI E1) as HI1.
  assert (HR2 : reachable c z s2) by (eapply tick_reach; eassumption).
  pose proof (r_inv c z s2 Hwf HR2) as HI2.
  assert (HP1 : exists b, in_pass b s1 /\ ((exists er, In (EOnTick er) new) <-> b = true)).
  { destruct (tick_calls c s s1 Hwf HI E1) as [pre er0 kept L1 L2 L3 L4|new0 L1 L2 L3 L4]; rewrite Ef in L1.
    - exists true. split; [unfold in_pass; rewrite L4; split; [reflexivity|exact I]|]. split; [reflexivity|]. intros _. exists er0.
      change (EOnTick er0 :: pre ++ s_log s) with ((EOnTick er0 :: pre) ++ s_log s) in L1. apply app_inv_tail in L1.
      rewrite Efg. apply in_app_iff. left. apply in_rev. rewrite L1. left. reflexivity.
    - exists false. apply app_inv_tail in L1.
      assert (Hnone : on_ticks new = 0) by (rewrite Efg, on_ticks_app, <- (on_ticks_rev f), L1; lia).
      split.
      + pose proof (tick_pc c s s1 Hwf HI Hd E1) as Hp. unfold in_pass.
        destruct (s_pc s1) as [|ph|ph kept rest| | | | | |bd] eqn:Ep; auto; try contradiction.
        * rewrite (L3 ph kept rest eq_refl). auto.
        * destruct bd; try contradiction. auto.
      + split; [|discriminate]. intros [er Hin]. apply on_ticks_in in Hin. lia. }
  destruct HP1 as [b [HP1 Hb]]. rewrite Hb.
  pose proof (in_pass_run c b Hwf ls s1 s2 HI1 Hls HP1 E2) as [HP2 HP3].
  pose proof (i_pc _ _ HI2) as P. unfold pc_inv in P.
  assert (Hbegun : forall n, task_begun (trace s2) n <-> before_l (s_log s2) n).
  { intros n. unfold task_begun, before_l. split; intros [er H]; exists er; apply trace_in; exact H. }
  setoid_rewrite Hbegun.
  destruct (s_pc s2) as [|ph|ph kept rest| | | |e| |bd] eqn:Ep; try contradiction.
  - destruct P as [A [_ [P3 _]]]. unfold act in A. destruct ph.
    + split; [intros _|intros _; exact HP2]. destruct HP3 as [n Hn']. exists n.
      split; [|apply (a_idle _ _ _ _ _ _ _ _ A n Hn')].
      apply (act_where c _ _ _ _ _ _ _ A). destruct Hn' as [Hn'|Hn']; [left; exact Hn'|right; left].
      apply in_map_iff. exists (Coro n CFresh). auto.
    + subst b. split; [discriminate|]. intros [n [Hid Hnb]]. exfalso. apply Hnb.
      destruct (P3 eq_refl) as [Etodo Hw].
      apply (act_where c _ _ _ _ _ _ _ A) in Hid. destruct Hid as [Hid|[Hid|Hid]].
      * rewrite Etodo in Hid. destruct Hid.
      * apply (act_lv_cases _ _) in Hid. destruct Hid as [Hid|[rec Hid]].
        { destruct (Hw _ Hid) as [? ?]. discriminate. }
        apply (w_before _ _ _ _ _ _ (a_wait _ _ _ _ _ _ _ _ A n rec Hid)).
      * eapply recorded_begun; [apply (i_core _ _ HI2)|]. apply (act_recorded c _ _ _ _ _ _ _ A). exact Hid.
  - unfold tick_running in Ht. rewrite Ep in Ht. discriminate.
  - unfold tick_running in Ht. rewrite Ep in Ht. discriminate.
  - subst b. split; [discriminate|]. intros [n [Hid Hnb]]. exfalso. apply Hnb.
    eapply recorded_begun; [apply (i_core _ _ HI2)|]. rewrite <- (rev_involutive (s_log s2)). apply recorded_rev.
    eapply finished_recorded; [exact Hwf|exact HR2|unfold result; rewrite Ep; reflexivity|exact Hid].
  - destruct (Hx e). unfold result. rewrite Ep. reflexivity.
  - exfalso. rewrite (no_assertion_fails c z s2 bd Hwf Hj HR2 Ep) in HP2. exact HP2.
Qed.

(** * How often it is called *)

Definition count_inv (c : config) (s : state) : Prop :=
  let N := List.length (node_ids (c_dag c)) in
  let k := on_ticks (s_log s) in
  match s_pc s with
  | Created => k = 0
  | Suspended PMain => N <= List.length (s_todo s) + k /\ (c_threads c = 0 -> N = List.length (s_todo s) + k)
  | Clean PMain _ _ => S N <= List.length (s_todo s) + k /\ (c_threads c = 0 -> S N = List.length (s_todo s) + k)
  | Clean PDrain _ _ | Suspended PDrain | Finished => N <= k /\ (c_threads c = 0 -> N = k)
  | _ => True
  end.

Lemma count_step c s l s' : wf_dag (c_dag c) -> Inv c s -> count_inv c s -> step c s l = Some s' -> count_inv c s'.
Proof.
  intros Hwf HI D E. set (N := List.length (node_ids (c_dag c))) in *.
  assert (HN : match s_pc s' with Created | Suspended _ | Clean _ _ _ | Finished => False | _ => True end -> count_inv c s').
  { unfold count_inv. destruct (s_pc s'); tauto. }
  assert (HF : s_pc s' = s_pc s -> s_todo s' = s_todo s -> on_ticks (s_log s') = on_ticks (s_log s) -> count_inv c s').
  { intros X1 X2 X3. unfold count_inv in *. rewrite X1, X2, X3. exact D. }
  assert (HC : forall ph k r k' r', s_pc s = Clean ph k r -> s_pc s' = Clean ph k' r' -> s_todo s' = s_todo s ->
               on_ticks (s_log s') = on_ticks (s_log s) -> count_inv c s').
  { intros ph k r k' r' X1 X2 X3 X4. unfold count_inv in *. rewrite X1 in D. rewrite X2, X3, X4. exact D. }
  destruct l; cbn [step] in E.
  - unfold tick in E. destruct (s_pc s) as [|ph| | | | | | |] eqn:Epc; try discriminate.
    + inversion E; subst s'. destruct (start_spec c Hwf s HI Epc) as [R _].
      inversion R as [? ? cyc L1 L2 L3|? ? m pre post L2 L1 L3 L4 L5 L6 L7|? ? m pre post L2 L1 L3 L4 L5 L6 L7
                 |? ? s1 evd todo Es T1 El Ep Et Hso Ec]; subst.
      * apply HN. rewrite L2. exact I.
      * apply HN. rewrite L2. exact I.
      * apply HN. rewrite L2. exact I.
      * rewrite Es. unfold main_top, drain_top. rewrite Ec.
        pose proof (t_act _ _ T1) as A.
        assert (Hl : N = List.length (s_todo s1)).
        { apply Permutation_length. apply NoDup_Permutation; [apply Hwf|apply sorted_NoDup, Hso|].
          intros x. symmetry. match goal with H : forall n, In n (s_todo s1) <-> _ |- _ => apply H end. }
        pose proof (on_ticks_log3 c evd (s_todo s1)) as Hk. rewrite <- El in Hk.
        destruct (s_todo s1) as [|x l'] eqn:Et1.
        -- unfold count_inv. cbn -[N on_ticks]. fold N. cbn in Hl.
           change (on_ticks (EAfterExec (s_erec s1) :: s_log s1)) with (on_ticks (s_log s1)). lia.
        -- unfold count_inv. cbn -[N on_ticks]. fold N. rewrite Et1.
           change (on_ticks (EOnTick (s_erec s1) :: s_log s1)) with (S (on_ticks (s_log s1))). cbn [List.length] in *. lia.
    + unfold count_inv in D. rewrite Epc in D. fold N in D.
      assert (HD : N <= on_ticks (s_log s) /\ (c_threads c = 0 -> N = on_ticks (s_log s)) -> count_inv c (drain_top s)).
      { intros G. unfold drain_top. destruct (s_coros s); unfold count_inv; cbn -[N on_ticks]; fold N; [|exact G].
        change (on_ticks (EAfterExec (s_erec s) :: s_log s)) with (on_ticks (s_log s)). exact G. }
      destruct ph; inversion E; subst s'; [|exact (HD D)].
      unfold main_top. destruct (s_todo s) as [|x l'] eqn:Et; [exact (HD D)|].
      unfold count_inv. cbn -[N on_ticks]. fold N. rewrite Et.
      change (on_ticks (EOnTick (s_erec s) :: s_log s)) with (S (on_ticks (s_log s))). cbn [List.length] in *. lia.
    + inversion E; subst. apply HN. exact I.
    + inversion E; subst. apply HN. exact I.
  - destruct (s_pc s); try discriminate; inversion E; subst; apply HN; exact I.
  - destruct (ctl_cases c s s' HI E) as
      [ph kept sl rest n s' Epc Esl _ Es|ph kept sl rest n s' Epc Esl _ _ Es
      |ph kept sl rest n s1 s' Epc Esl _ _ Es1 Es|ph kept sl rest n rec s' Epc Esl _ Es
      |ph kept sl rest n rec s' Epc Esl _ Es|ph kept sl rest n rec o s1 s2 s' Epc Esl _ Es1 Es2 Es
      |kept s1 s' Epc Es1 Es|kept s1 s' Epc Es1 Es|e s' Epc Es|e sl rest s' Epc _ Es|s' Epc Es|sl rest s' Epc _ Es].
    + eapply HC; [exact Epc|subst s'; reflexivity..].
    + eapply HC; [exact Epc|subst s'; reflexivity..].
    + eapply HC; [exact Epc|subst s' s1; reflexivity..].
    + apply HF; subst s'; reflexivity.
    + eapply HC; [exact Epc|subst s'; reflexivity..].
    + eapply HC; [exact Epc|subst s' s1 s2; destruct (negb _); reflexivity..].
    + subst s1. pose proof (i_pc _ _ HI) as P. unfold pc_inv in P. rewrite Epc in P.
      destruct P as [A [_ [_ [P2 [_ [_ P3]]]]]].
      unfold count_inv in D. rewrite Epc in D. fold N in D. destruct D as [D1 D2].
      destruct (dispatch_cases c s kept s' Hwf HI Epc Es) as [s' X1 X2 X3 X4|m0 s' X1 X2 X3 X4|s' X1 X2 X3]; clear Es.
      * subst s'. unfold count_inv. cbn -[N on_ticks]. fold N. split; [lia|]. intros H0. lia.
      * subst s'. cbn [s_todo set_coros] in X2. unfold act in A.
        pose proof (erase_length m0 (s_todo s) (a_sorted _ _ _ _ _ _ _ _ A) X2) as El.
        unfold count_inv. cbn -[N set_erase on_ticks]. fold N. unfold set_erase, nid in *. split; [lia|]. intros H0. specialize (D2 H0). lia.
      * subst s'. unfold count_inv. cbn -[N on_ticks]. fold N. split; [lia|]. intros H0. exfalso.
        assert (Hdef : deferred c = true) by (unfold deferred; rewrite H0; reflexivity).
        rewrite (P3 Hdef) in *. apply X2. cbn. apply (map_eq_nil sl_coro). apply compact_coros. cbn. lia.
    + subst s1 s'. unfold count_inv in *. rewrite Epc in D. exact D.
    + subst s'. apply HN. exact I.
    + subst s'. apply HN. exact I.
    + subst s'. apply HN. exact I.
    + subst s'. apply HN. exact I.
  - destruct (launchfail_cases c s s' HI E) as [ph [kept [sl [rest [n [Epc [_ [_ [Ep _]]]]]]]]].
    apply HN; rewrite Ep; exact I.
  - assert (Hpc : exists rest, s_pc s' = Unwind ExcVisitor rest).
    { destruct (match s_pc s with Created | Suspended _ => tick c s | Clean _ _ _ => ctl c s true | _ => None end) as [s1|]; [|discriminate].
      unfold visitor_throws in E. destruct (cut_at k _) as [es|]; [|discriminate]. inversion E. eexists. reflexivity. }
    destruct Hpc as [rest Ep]. apply HN; rewrite Ep; exact I.
  - destruct (s_fut s n); try discriminate. inversion E; subst. apply HF; reflexivity.
  - destruct (s_fut s n); try discriminate. inversion E; subst. apply HF; reflexivity.
  - inversion E; subst. apply HF; reflexivity.
Qed.

(** A finished execution has called it for every task it picked. *)
Lemma on_tick_count : forall c z s er,
  wf_dag (c_dag c) -> reachable c z s -> result s = RRecord er ->
  let N := List.length (node_ids (c_dag c)) in
  N <= on_ticks (trace s) /\ (c_threads c = 0 -> on_ticks (trace s) = N).
Proof.
  intros c z s er Hwf [ls E] Hr N.
  assert (G : forall ls s0, Inv c s0 -> count_inv c s0 -> run_labels c s0 ls = Some s -> count_inv c s).
  { clear ls E. induction ls as [|l ls IH]; intros s0 HI D E0; [inversion E0; subst; exact D|].
    cbn in E0. destruct (step c s0 l) as [s1|] eqn:E1; [|discriminate].
    eapply IH; [eapply step_inv; eassumption|eapply count_step; eassumption|exact E0]. }
  specialize (G ls (init z) (inv_init c z) eq_refl E). unfold count_inv in G.
  assert (Ep : s_pc s = Finished) by (unfold result in Hr; destruct (s_pc s); try discriminate; reflexivity).
  rewrite Ep in G. unfold trace. rewrite on_ticks_rev. destruct G as [G1 G2].
  split; [exact G1|]. intros H0. symmetry. exact (G2 H0).
Qed.

(** [inside_tick] for given labels. *)
Fixpoint inside_b (c : config) (s : state) (ls : list label) : bool :=
  match ls with
  | [] => true
  | l :: r => tick_running s && match step c s l with Some s' => inside_b c s' r | None => true end
  end.

Lemma inside_b_ok c : forall ls s, inside_b c s ls = true -> inside_tick c s ls.
Proof.
  induction ls as [|l ls IH]; intros s H p q s' E Hq Ep.
  - destruct p, q; try discriminate. destruct (Hq eq_refl).
  - cbn in H. apply andb_true_iff in H. destruct H as [H1 H2].
    destruct p as [|l' p]; [inversion Ep; subst; exact H1|]. cbn in E. inversion E; subst l' ls.
    cbn in Ep. destruct (step c s l) as [s1|]; [|discriminate]. exact (IH s1 H2 p q s' eq_refl Hq Ep).
Qed.
