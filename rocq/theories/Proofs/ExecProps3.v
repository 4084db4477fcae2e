(** Ends of executions: laziness, results, destruction. *)
From Coq Require Import Lia String Permutation.
From Verif Require Import Model.Common Model.Records Model.Jobs Model.TaskSet Model.Dag
     Model.Sched Model.Exec Spec.Graph Spec.Trace
     Proofs.Sets Proofs.SchedFacts Proofs.InvalFacts Proofs.TraceFacts Proofs.ExecInv
     Proofs.ExecStep Proofs.ExecCtl Proofs.LogFacts Proofs.ExecProps Proofs.ExecProps2
     Proofs.StepCases.
Open Scope nat_scope.
Open Scope list_scope.

Lemma run_labels_app c : forall l1 s l2,
  run_labels c s (l1 ++ l2) = match run_labels c s l1 with Some s' => run_labels c s' l2 | None => None end.
Proof.
  induction l1 as [|l l1 IH]; intros s l2; [reflexivity|]. cbn. destruct (step c s l); [apply IH|reflexivity].
Qed.

Lemma reachable_run c z s ls s' : reachable c z s -> run_labels c s ls = Some s' -> reachable c z s'.
Proof. intros [l0 H] E. exists (l0 ++ ls). rewrite run_labels_app, H. exact E. Qed.

Lemma reachable_step c z s l s' : reachable c z s -> step c s l = Some s' -> reachable c z s'.
Proof. intros H E. eapply (reachable_run c z s [l]); [exact H|]. cbn. rewrite E. reflexivity. Qed.

(** * C23 *)

Lemma exec_lazy : forall c z ls s,
  run_labels c (init z) ls = Some s -> ~ In LTick ls -> (forall k, ~ In (LVisThrow k) ls) ->
  trace s = [] \/ trace s = [EDestroyed].
Proof.
  intros c z ls s HR H1 H2.
  assert (G : forall ls s0 s, 
      s_fut s0 = (fun _ => FNone) ->
      (s_log s0 = [] /\ (s_pc s0 = Created \/ exists r, s_pc s0 = Destroying r)) \/
      (s_log s0 = [EDestroyed] /\ s_pc s0 = Destroyed) ->
      ~ In LTick ls -> (forall k, ~ In (LVisThrow k) ls) -> run_labels c s0 ls = Some s ->
      s_log s = [] \/ s_log s = [EDestroyed]).
  { clear. induction ls as [|l ls IH]; intros s0 s Hf Hs H1 H2 E.
    - inversion E; subst. tauto.
    - cbn in E. destruct (step c s0 l) as [s1|] eqn:E1; [|discriminate].
      apply (IH s1 s); [| |intros H; apply H1; right; exact H|intros k H; apply (H2 k); right; exact H|exact E].
      + destruct l; cbn in E1; unfold tick, ctl in E1; rewrite ?Hf in E1; try discriminate.
        all: destruct Hs as [[Hl [Hp|[r Hp]]]|[Hl Hp]]; rewrite ?Hp in E1; try discriminate;
          try (exfalso; apply H1; left; reflexivity); try (exfalso; eapply H2; left; reflexivity);
          try (inversion E1; subst; exact Hf).
        all: destruct r as [|sl r]; [|destruct (destroy_one s0 sl)]; inversion E1; subst; exact Hf.
      + destruct l; cbn in E1; unfold tick, ctl in E1; rewrite ?Hf in E1; try discriminate.
        all: destruct Hs as [[Hl [Hp|[r Hp]]]|[Hl Hp]]; rewrite ?Hp in E1; try discriminate;
          try (exfalso; apply H1; left; reflexivity); try (exfalso; eapply H2; left; reflexivity);
          try (inversion E1; subst; cbn; rewrite ?Hl, ?Hp; eauto 8; fail).
        all: destruct r as [|sl r]; [|destruct (destroy_one s0 sl)]; inversion E1; subst; cbn; rewrite ?Hl; eauto 8. }
  unfold trace. destruct (G ls (init z) s) as [-> | ->]; auto.
Qed.

(** * C24 *)

Lemma tick_after_end_undefined : forall c s, done s = true ->
  exists s', step c s LTick = Some s' /\ s_pc s' = Bad BadResumeDone.
Proof.
  intros c s H. unfold done in H. cbn. unfold tick. destruct (s_pc s); try discriminate; eexists; split; reflexivity.
Qed.

(** * C25 C26 *)

(** Events that can still be added once exec's body has been left. *)
Definition late_event (e : event) : Prop :=
  match e with EBegin _ | EEnd _ _ | EDestroyed => True | _ => False end.

Lemma inactive_step c s l s' : inactive (s_pc s) -> step c s l = Some s' ->
  inactive (s_pc s') /\ exists new, s_log s' = new ++ s_log s /\ (forall e, In e new -> late_event e).
Proof.
  intros Hp E.
  assert (Nil : forall l, l = s_log s -> exists new, l = new ++ s_log s /\ (forall e, In e new -> late_event e)).
  { intros l0 H. exists []. split; [exact H|intros e []]. }
  assert (One : forall l e, l = e :: s_log s -> late_event e -> exists new, l = new ++ s_log s /\ (forall e, In e new -> late_event e)).
  { intros l0 e H He. exists [e]. split; [exact H|intros e' [<-|[]]; exact He]. }
  destruct l; cbn in E; unfold tick, ctl in E.
  - destruct (s_pc s); try contradiction; try discriminate; inversion E; subst; cbn; auto.
  - destruct (s_pc s); try contradiction; try discriminate; inversion E; subst; cbn; auto.
  - destruct (s_pc s) as [| | |e rest|rest| | | |]; try contradiction; try discriminate.
    + destruct rest as [|sl rest]; [|destruct (destroy_one s sl)]; inversion E; subst; cbn; auto.
    + destruct rest as [|sl rest]; [|destruct (destroy_one s sl)]; inversion E; subst; cbn; split; auto.
      eapply One; [reflexivity|exact I].
  - destruct (s_pc s); try contradiction; discriminate.
  - destruct (s_pc s); try contradiction; discriminate.
  - destruct (s_fut s n); try discriminate. inversion E; subst; cbn. split; [exact Hp|]. eapply One; [reflexivity|exact I].
  - destruct (s_fut s n); try discriminate. inversion E; subst; cbn. split; [exact Hp|]. eapply One; [reflexivity|exact I].
  - inversion E; subst; cbn. auto.
Qed.

Lemma inactive_run c : forall ls s s', inactive (s_pc s) -> run_labels c s ls = Some s' ->
  inactive (s_pc s') /\ exists new, trace s' = trace s ++ new /\ (forall e, In e new -> late_event e).
Proof.
  induction ls as [|l ls IH]; intros s s' Hp E.
  - inversion E; subst. split; [exact Hp|]. exists []. rewrite app_nil_r. split; [reflexivity|intros e []].
  - cbn in E. destruct (step c s l) as [s1|] eqn:E1; [|discriminate].
    destruct (inactive_step c s l s1 Hp E1) as [H1 [n1 [H2 H3]]].
    destruct (IH _ _ H1 E) as [G1 [n2 [G2 G3]]]. split; [exact G1|]. exists (rev n1 ++ n2).
    unfold trace in *. rewrite G2, H2, rev_app_distr, app_assoc. split; [reflexivity|].
    intros e He. apply in_app_iff in He. destruct He as [He|He]; [|auto]. apply H3. apply in_rev. exact He.
Qed.

Lemma no_new_work_after_destroy : forall c s s1 ls s2,
  step c s LDestroy = Some s1 -> run_labels c s1 ls = Some s2 ->
  exists new, trace s2 = trace s ++ new /\
    forall e, In e new -> (exists n, e = EBegin n) \/ (exists n o, e = EEnd n o) \/ e = EDestroyed.
Proof.
  intros c s s1 ls s2 E H.
  assert (Hp : inactive (s_pc s1) /\ trace s1 = trace s).
  { cbn in E. destruct (s_pc s); try discriminate; inversion E; subst; cbn; auto. }
  destruct Hp as [Hp Ht]. destruct (inactive_run c ls s1 s2 Hp H) as [_ [new [G1 G2]]].
  exists new. rewrite <- Ht. split; [exact G1|]. intros e He. specialize (G2 e He).
  destruct e; try contradiction; eauto.
Qed.

Lemma no_live_ended c s n : Inv c s -> live s = [] -> In (ELaunch n) (s_log s) -> exists o, In (EEnd n o) (s_log s).
Proof.
  intros HI Hl H. pose proof (i_core _ _ HI) as K. pose proof (k_fut _ _ _ _ K n) as F.
  destruct (s_fut s n) eqn:Ef.
  - destruct F as [F _]. destruct (F H).
  - destruct (k_unfin _ _ _ _ K n) as [rec Hin]; [rewrite Ef; exact I|]. rewrite Hl in Hin. destruct Hin.
  - destruct (k_unfin _ _ _ _ K n) as [rec Hin]; [rewrite Ef; exact I|]. rewrite Hl in Hin. destruct Hin.
  - destruct (k_unfin _ _ _ _ K n) as [rec Hin]; [rewrite Ef; exact I|]. rewrite Hl in Hin. destruct Hin.
  - exists o. apply F.
Qed.

Lemma destroyed_waits : forall c z s pre post,
  wf_dag (c_dag c) -> reachable c z s -> trace s = pre ++ EDestroyed :: post ->
  post = [] /\ forall n, In (ELaunch n) pre -> exists o, In (EEnd n o) pre.
Proof.
  intros c z s pre post Hwf HR E. split.
  - destruct post as [|e post]; [reflexivity|exfalso].
    assert (E' : trace s = (pre ++ [EDestroyed]) ++ e :: post) by (rewrite <- app_assoc; exact E).
    destruct (trace_at c z s Hwf HR _ _ _ E') as [[_ [Hd _]] _]. apply Hd. apply -> in_rev.
    apply in_app_iff. right; left; reflexivity.
  - intros n Hn. destruct (trace_at c z s Hwf HR _ _ _ E) as [[He _] _]. cbn in He.
    apply in_rev in Hn. destruct (He n Hn) as [o Ho]. exists o. apply in_rev. exact Ho.
Qed.

Lemma aborted_waits : forall c z s e,
  wf_dag (c_dag c) -> reachable c z s -> result s = RThrow e ->
  forall n, In (ELaunch n) (trace s) -> exists o, In (EEnd n o) (trace s).
Proof.
  intros c z s e Hwf HR H n Hn. pose proof (r_inv c z s Hwf HR) as HI.
  pose proof (i_pc _ _ HI) as P. unfold pc_inv in P. unfold result in H.
  destruct (s_pc s) eqn:Epc; try discriminate. destruct P as [Pc _].
  destruct (no_live_ended c s n HI) as [o Ho].
  - unfold live. rewrite Epc, Pc. reflexivity.
  - apply trace_in, Hn.
  - exists o. apply trace_in, Ho.
Qed.

Lemma done_no_jobs c z s n : wf_dag (c_dag c) -> reachable c z s -> done s = true -> ~ unfin (s_fut s n).
Proof.
  intros Hwf HR H U. pose proof (r_inv c z s Hwf HR) as HI. pose proof (i_pc _ _ HI) as P.
  destruct (k_unfin _ _ _ _ (i_core _ _ HI) n U) as [rec Hin].
  unfold pc_inv in P. unfold live in Hin. unfold done in H.
  destruct (s_pc s); try discriminate; destruct P as [Pc _]; rewrite Pc in Hin; destruct Hin.
Qed.

Lemma result_stable : forall c z s ls s',
  wf_dag (c_dag c) -> reachable c z s -> done s = true ->
  run_labels c s ls = Some s' -> ~ In LTick ls -> ~ In LDestroy ls ->
  result s' = result s /\ done s' = true /\ trace s' = trace s.
Proof.
  intros c z s ls. revert s. induction ls as [|l ls IH]; intros s s' Hwf HR Hd E H1 H2.
  - inversion E; subst. auto.
  - cbn in E. destruct (step c s l) as [s1|] eqn:E1; [|discriminate].
    assert (G : result s1 = result s /\ done s1 = done s /\ trace s1 = trace s).
    { pose proof (done_no_jobs c z s) as J. unfold done in *. unfold result.
      destruct l; cbn in E1; unfold tick, ctl in E1.
      - exfalso. apply H1. left; reflexivity.
      - exfalso. apply H2. left; reflexivity.
      - destruct (s_pc s); discriminate.
      - destruct (s_pc s); discriminate.
      - destruct (s_pc s); discriminate.
      - exfalso. apply (J n Hwf HR Hd). destruct (s_fut s n); try discriminate; exact I.
      - exfalso. apply (J n Hwf HR Hd). destruct (s_fut s n); try discriminate; exact I.
      - inversion E1; subst; cbn. destruct (s_pc s); auto. }
    destruct G as [G1 [G2 G3]]. destruct (IH s1 s') as [I1 [I2 I3]]; auto.
    + eapply reachable_step; eassumption.
    + congruence.
    + intros H; apply H1; right; exact H.
    + intros H; apply H2; right; exact H.
    + rewrite I1, I3. auto.
Qed.

Lemma done_iff_result : forall c z s, reachable c z s -> (done s = true <-> result s <> RNone).
Proof. intros c z s _. unfold done, result. destruct (s_pc s); split; congruence. Qed.

Lemma env_keeps_done c : forall ls s s', forallb env_label ls = true -> run_labels c s ls = Some s' ->
  s_pc s' = s_pc s.
Proof.
  induction ls as [|l ls IH]; intros s s' H E.
  - inversion E. reflexivity.
  - cbn in E, H. apply andb_true_iff in H. destruct H as [H1 H2].
    destruct (step c s l) as [s1|] eqn:E1; [|discriminate]. rewrite (IH _ _ H2 E).
    destruct l; try discriminate; cbn in E1; try (destruct (s_fut s n); try discriminate);
      inversion E1; reflexivity.
Qed.

Lemma inner_no_tick c : forall ls s s', forallb inner_label ls = true -> run_labels c s ls = Some s' ->
  s_pc s <> Bad BadResumeDone -> s_pc s' <> Bad BadResumeDone.
Proof.
  induction ls as [|l ls IH]; intros s s' H E Hn.
  - inversion E; subst. exact Hn.
  - cbn in E, H. apply andb_true_iff in H. destruct H as [H1 H2].
    destruct (step c s l) as [s1|] eqn:E1; [|discriminate]. apply (IH _ _ H2 E).
    assert (Hc : forall b, ctl c s b = Some s1 -> s_pc s1 <> Bad BadResumeDone).
    { intros b. unfold ctl. destruct (s_pc s) as [|ph|ph kept rest|e rest|rest| | | |] eqn:Epc; try discriminate.
      - destruct rest as [|sl rest].
        + destruct b; [|discriminate]. destruct ph; intros X; inversion X; subst; cbn; [|discriminate].
          unfold dispatch. destruct (_ && _); [cbn; discriminate|].
          destruct (find_candidate _ _ _ _ _ _ _) as [r|]; [|cbn; discriminate].
          cbn zeta. match goal with |- context [match ?x with [] => _ | _ => _ end] => destruct x end; cbn; discriminate.
        + destruct (co_st (sl_coro sl)) as [|rec].
          * unfold run_first. destruct (inval_eqb _ UNKNOWN); [destruct b; intros X; inversion X; cbn; discriminate|].
            cbn zeta. destruct (any_dep_failed _ _ _); [destruct b; intros X; inversion X; cbn; discriminate|].
            destruct (inval_eqb _ VALID); [destruct b; intros X; inversion X; cbn; discriminate|].
            destruct b; [intros X; inversion X; cbn; discriminate|].
            destruct (deferred c); intros X; inversion X; cbn; discriminate.
          * destruct b; [|discriminate]. unfold run_poll. destruct (s_fut s _); try discriminate.
            -- intros X; inversion X; cbn. rewrite Epc. exact Hn.
            -- intros X; inversion X; cbn. discriminate.
            -- destruct (deferred c); intros X; inversion X; cbn; discriminate.
            -- intros X; inversion X; cbn. discriminate.
      - destruct b; [|discriminate]. destruct rest as [|sl rest]; [|destruct (destroy_one s sl)];
          intros X; inversion X; cbn; discriminate.
      - destruct b; [|discriminate]. destruct rest as [|sl rest]; [|destruct (destroy_one s sl)];
          intros X; inversion X; cbn; discriminate. }
    destruct l; try discriminate; cbn in E1.
    + exact (Hc _ E1).
    + exact (Hc _ E1).
    + destruct (match s_pc s with Created | Suspended _ => tick c s | Clean _ _ _ => ctl c s true | _ => None end) as [s2|]; [|discriminate].
      unfold visitor_throws in E1. destruct (cut_at k _); [|discriminate]. inversion E1; cbn. discriminate.
    + destruct (s_fut s n); try discriminate. inversion E1; cbn. exact Hn.
    + destruct (s_fut s n); try discriminate. inversion E1; cbn. exact Hn.
    + inversion E1; cbn. exact Hn.
Qed.

Lemma tick_not_done c s l s' : done s = false -> (l = LTick \/ exists k, l = LVisThrow k) ->
  step c s l = Some s' -> s_pc s <> Bad BadResumeDone -> s_pc s' <> Bad BadResumeDone.
Proof.
  intros Hd [->|[k ->]] E Hn.
  - cbn in E. unfold tick in E. unfold done in Hd. destruct (s_pc s) as [|ph| | | | | | |]; try discriminate.
    + inversion E; subst. unfold start. cbn zeta.
      destruct (has_cycle _ _ _) as [[[|] cyc]|]; [cbn; discriminate| |cbn; discriminate].
      destruct (inval_pass _ _ _ _ _ _); [|cbn; discriminate|cbn; discriminate].
      destruct (prop_loop _ _ _ _ _ _); [|cbn; discriminate|cbn; discriminate].
      unfold main_top, drain_top. destruct (s_todo _); [destruct (s_coros _)|]; cbn; discriminate.
    + destruct ph; inversion E; subst; unfold main_top, drain_top;
        [destruct (s_todo s)|]; try (destruct (s_coros s)); cbn; discriminate.
  - eapply (inner_no_tick c [LVisThrow k] s s'); [reflexivity| |exact Hn].
    cbn [run_labels]. rewrite E. reflexivity.
Qed.

Lemma run_returns_result : forall c z s r s',
  reachable c z s -> s_pc s <> Bad BadResumeDone -> run_call c s r s' ->
  reachable c z s' /\ done s' = true /\ r = result s' /\ r <> RNone.
Proof.
  intros c z s r s' HR Hn H. induction H as [s Hd|s ls1 s1 l s2 ls2 s3 r s4 Hd H1 E1 Hl E2 H3 E3 Ht _ IH].
  - split; [exact HR|]. split; [exact Hd|]. split; [reflexivity|].
    unfold done in Hd. unfold result. destruct (s_pc s); discriminate.
  - apply IH.
    + eapply reachable_run; [|exact E3]. eapply reachable_step; [|exact E2]. eapply reachable_run; eassumption.
    + eapply inner_no_tick; [exact H3|exact E3|]. pose proof (env_keeps_done c _ _ _ H1 E1) as Ep.
      eapply tick_not_done; [|exact Hl|exact E2|rewrite Ep; exact Hn].
      unfold done in *. rewrite Ep. exact Hd.
Qed.

(** * C56 *)

Lemma nothing_to_do : forall c z s,
  wf_dag (c_dag c) -> reachable c z s ->
  (forall n, In n (node_ids (c_dag c)) -> ~ job_invalidated c n) ->
  (forall e, In e (trace s) -> ~ job_activity e) /\
  (forall r, In r (records (trace s)) -> r_status r = SKIP) /\
  (forall er, result s = RRecord er ->
     Permutation (map r_node (er_runs er)) (node_ids (c_dag c)) /\
     forall r, In r (er_runs er) -> r_status r = SKIP).
Proof.
  intros c z s Hwf HR Hno. pose proof (r_log c z s Hwf HR) as L.
  assert (Hni : forall n, In n (node_ids (c_dag c)) -> ~ Invalidated c n).
  { intros n Hn [m [Hr Hj]]. apply (Hno m); [|exact Hj]. apply clos_rt_rtn1 in Hr.
    inversion Hr as [|y w H1 H2]; subst; [exact Hn|]. apply Hwf in H1. apply H1. }
  assert (Hnl : forall n, ~ In (ELaunch n) (s_log s)).
  { intros n H. destruct (log_in c _ _ L H) as [l1 [l2 [_ [[He _] _]]]]. cbn in He.
    destruct He as [_ [_ [_ [_ [H1 [H2 _]]]]]]. exact (Hni n H2 H1). }
  assert (Hskip : forall r, In r (records (trace s)) -> r_status r = SKIP).
  { (* the earliest record that is not SKIP cannot exist *)
    assert (G : forall log, log_ok c log -> (forall n, ~ In (ELaunch n) log) -> forall r, In r (recs log) -> r_status r = SKIP).
    { induction log as [|e log IH]; intros Hl Hnl' r Hr; [destruct Hr|].
      destruct Hl as [[He _] Hl]. 
      assert (IH' : forall r, In r (recs log) -> r_status r = SKIP).
      { apply IH; [exact Hl|]. intros n H. apply (Hnl' n). right; exact H. }
      destruct (is_after e) eqn:Ea; [|apply IH'; rewrite recs_other in Hr by exact Ea; exact Hr].
      destruct e; try discriminate. rewrite recs_after in Hr. apply in_app_iff in Hr.
      destruct Hr as [Hr|[<-|[]]]; [apply IH', Hr|]. cbn in He.
      destruct He as [_ [_ [_ [_ [_ [[_ [_ He]] _]]]]]]. destruct (r_status r0); try reflexivity; exfalso.
      - apply (Hnl' (r_node r0)). right. apply He.
      - destruct He as [[m [r' [_ [H2 [_ H4]]]]] _]. rewrite (IH' r' H2) in H4. discriminate.
      - apply (Hnl' (r_node r0)). right. apply He. }
    intros r Hr. rewrite <- recs_trace in Hr. eapply G; eassumption. }
  split; [apply (no_launch_no_activity c z s Hwf HR Hnl)|]. split; [exact Hskip|].
  intros er H. split; [apply (recorded_once c z s er Hwf HR H)|].
  rewrite (finished_runs c z s Hwf HR er H). exact Hskip.
Qed.

(** * C57 *)

Lemma resources_in_use : forall c z s r,
  wf_dag (c_dag c) -> reachable c z s ->
  match s_pc s with Suspended _ | Clean _ _ _ => True | _ => False end ->
  (In r (s_used s) <->
   exists n, In (ELaunch n) (trace s) /\ ~ recorded (trace s) n /\ In r (node_res c n)).
Proof.
  intros c z s r Hwf HR Hpc. pose proof (r_inv c z s Hwf HR) as HI. pose proof (i_pc _ _ HI) as P.
  pose proof (r_log c z s Hwf HR) as L.
  unfold pc_inv in P. assert (A : act c s) by (destruct (s_pc s); try contradiction; apply P).
  unfold act in A. rewrite (a_used _ _ _ _ _ _ _ _ A). split.
  - intros [n [rec [H1 H2]]]. exists n. split; [|split; [|exact H2]].
    + apply trace_in. pose proof (a_wait _ _ _ _ _ _ _ _ A n rec H1) as W.
      pose proof (k_fut _ _ _ _ (i_core _ _ HI) n) as F. pose proof (w_fut _ _ _ _ _ _ W) as Wf.
      destruct (s_fut s n); [congruence|apply F..].
    + intros H. eapply (act_lv_not_recorded c); [apply Hwf|exact A| |].
      * apply in_map_iff. eexists. split; [|exact H1]. reflexivity.
      * destruct H as [r' [G1 G2]]. exists r'. rewrite recs_trace. auto.
  - intros [n [H1 [H2 H3]]]. apply trace_in in H1. pose proof (launch_ids c _ _ L H1) as Hid.
    apply (act_where c _ _ _ _ _ _ _ A) in Hid. destruct Hid as [H|[H|H]].
    + exfalso. destruct (a_idle _ _ _ _ _ _ _ _ A n (or_introl H)) as [_ [_ Hb]]. apply Hb.
      eapply launch_before; eassumption.
    + apply (act_lv_cases _ _) in H. destruct H as [H|[rec H]].
      * exfalso. destruct (a_idle _ _ _ _ _ _ _ _ A n (or_intror H)) as [_ [_ Hb]]. apply Hb.
        eapply launch_before; eassumption.
      * exists n, rec. auto.
    + exfalso. apply H2. apply (act_recorded c _ _ _ _ _ _ _ A) in H.
      destruct H as [r' [G1 G2]]. exists r'. rewrite <- recs_trace. auto.
Qed.
