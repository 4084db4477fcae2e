(** More properties of single executions: start-up, protocol, accounting, ending. *)
From Coq Require Import Lia String Permutation Sorting.Sorted.
From Verif Require Import Model.Common Model.Records Model.Jobs Model.TaskSet Model.Dag
     Model.Sched Model.Exec Spec.Graph Spec.Trace
     Proofs.Sets Proofs.SchedFacts Proofs.InvalFacts Proofs.TraceFacts Proofs.ExecInv
     Proofs.ExecStep Proofs.ExecCtl Proofs.LogFacts Proofs.ExecProps.
Open Scope nat_scope.
Open Scope list_scope.

(** * C08 *)

Lemma invalidation_flags : forall c z s n,
  wf_dag (c_dag c) -> reachable c z s ->
  match s_pc s with Suspended _ | Clean _ _ _ => True | _ => False end ->
  In n (node_ids (c_dag c)) ->
  (ns_inval (s_ns s n) = INVALID <-> Invalidated c n) /\
  (ns_inval (s_ns s n) = VALID <-> ~ Invalidated c n).
Proof.
  intros c z s n Hwf HR Hpc Hn. pose proof (i_pc _ _ (r_inv c z s Hwf HR)) as P.
  unfold pc_inv in P.
  assert (A : act c s) by (destruct (s_pc s); try contradiction; apply P).
  destruct (a_inv _ _ _ _ _ _ _ _ A n Hn) as [[E H]|[E H]]; rewrite E;
    (split; split; intros G; try discriminate; try reflexivity; tauto).
Qed.

Lemma invalidation_observed : forall c z s pre er m post n,
  wf_dag (c_dag c) -> reachable c z s ->
  trace s = pre ++ EBeforeRun er m :: post -> In n (node_ids (c_dag c)) ->
  (Invalidated c n <->
   (exists t, In (EInval n INVALID t) pre) \/ (exists p, In (EDepInval n p) pre)).
Proof.
  intros c z s pre er m post n Hwf HR E Hn.
  destruct (trace_at c z s Hwf HR _ _ _ E) as [[He _] Hl]. cbn [ev_cond] in He.
  destruct He as [_ [[Hask Hdep] _]]. split.
  - intros Hi. destruct (Hask n Hn) as [_ [v [t Hv]]].
    destruct (log_in c _ _ Hl Hv) as [l1 [l2 [_ [[Hc _] _]]]]. cbn in Hc.
    destruct Hc as [_ [_ [_ [_ [[b [Hc ->]] _]]]]]. destruct b.
    + left. exists t. apply in_rev. exact Hv.
    + right. destruct (Hdep n Hn Hi) as [p Hp].
      { intros [log Hlog]. congruence. }
      exists p. apply in_rev. exact Hp.
  - intros [[t Ht]|[p Hp]].
    + apply in_rev in Ht. destruct (log_in c _ _ Hl Ht) as [l1 [l2 [_ [[Hc _] _]]]]. cbn in Hc.
      destruct Hc as [_ [_ [_ [_ [[b [Hc E']] _]]]]]. destruct b; [|discriminate].
      exists n. split; [apply rt_refl|]. exists t. exact Hc.
    + apply in_rev in Hp. destruct (log_in c _ _ Hl Hp) as [l1 [l2 [_ [[Hc _] _]]]]. cbn in Hc.
      apply Hc.
Qed.

(** * C09 *)

Lemma inval_reported : forall c z s pre n v t post,
  wf_dag (c_dag c) -> reachable c z s -> trace s = pre ++ EInval n v t :: post ->
  In n (node_ids (c_dag c)) /\
  (exists pre', pre = pre' ++ [EAsk n]) /\
  (forall v' t', ~ In (EInval n v' t') pre /\ ~ In (EInval n v' t') post) /\
  exists b, c_inval c n = IvRet b t /\ v = (if b then INVALID else VALID).
Proof.
  intros c z s pre n v t post Hwf HR E.
  destruct (trace_at c z s Hwf HR _ _ _ E) as [[He _] Hl]. cbn [ev_cond] in He.
  destruct He as [H1 [H2 [H3 [_ [H4 [l H5]]]]]]. split; [exact H1|]. split; [|split; [|exact H4]].
  - exists (rev l). rewrite <- (rev_involutive pre), H5. reflexivity.
  - intros v' t'. split.
    + intros H. apply in_rev in H. exact (H2 _ _ H).
    + intros H. apply in_split in H. destruct H as [p1 [p2 ->]].
      assert (E' : trace s = (pre ++ EInval n v t :: p1) ++ EInval n v' t' :: p2)
        by (rewrite <- app_assoc; exact E).
      destruct (trace_at c z s Hwf HR _ _ _ E') as [[He' _] _]. cbn [ev_cond] in He'.
      apply (proj1 (proj2 He') v t). apply -> in_rev. apply in_app_iff. right; left; reflexivity.
Qed.

Lemma inval_before_jobs : forall c z s pre n post m,
  wf_dag (c_dag c) -> reachable c z s -> trace s = pre ++ EBegin n :: post ->
  In m (node_ids (c_dag c)) -> exists v t, In (EInval m v t) pre.
Proof.
  intros c z s pre n post m Hwf HR E Hm.
  destruct (trace_at c z s Hwf HR _ _ _ E) as [[He _] Hl]. cbn [ev_cond] in He.
  destruct (launch_before c _ _ Hl (proj1 He)) as [er Hb].
  destruct (proj1 (before_startup c _ _ _ Hl Hb) m Hm) as [_ [v [t H]]].
  exists v, t. apply in_rev. exact H.
Qed.

Lemma inval_throw_no_job : forall c z s n,
  wf_dag (c_dag c) -> reachable c z s -> In n (node_ids (c_dag c)) -> c_inval c n = IvThrow ->
  forall e, In e (trace s) -> ~ job_activity e.
Proof.
  intros c z s n Hwf HR Hn Ht.
  assert (G : forall m, ~ In (ELaunch m) (s_log s)).
  { intros m H. pose proof (r_log c z s Hwf HR) as L. destruct (launch_before c _ _ L H) as [er Hb].
    destruct (proj1 (before_startup c _ _ _ L Hb) n Hn) as [_ [v [t Hi]]].
    destruct (log_in c _ _ L Hi) as [l1 [l2 [_ [[Hc _] _]]]]. cbn in Hc.
    destruct Hc as [_ [_ [_ [_ [[b [Hc _]] _]]]]]. congruence. }
  pose proof (r_log c z s Hwf HR) as L.
  intros e He Hj. apply trace_in in He. destruct e; try contradiction.
  - exact (G _ He).
  - apply (G n0). eapply begin_launch; eassumption.
  - apply (G n0). eapply begin_launch; [exact L|]. eapply end_begin; eassumption.
Qed.

Lemma inval_throw_result : forall c z s0 s,
  wf_dag (c_dag c) -> acyclic (c_dag c) ->
  (forall n, In n (node_ids (c_dag c)) -> node_has_job c n = true) ->
  reachable c z s0 -> s_pc s0 = Created -> step c s0 LTick = Some s ->
  ((exists n, result s = RThrow (ExcInval n)) <->
   (exists n, In n (node_ids (c_dag c)) /\ c_inval c n = IvThrow)) /\
  (forall n, result s = RThrow (ExcInval n) ->
     In n (node_ids (c_dag c)) /\ c_inval c n = IvThrow).
Proof.
  intros c z s0 s Hwf Hac Hjob HR Epc E. cbn in E. unfold tick in E. rewrite Epc in E. inversion E; subst s; clear E.
  pose proof (r_inv c z s0 Hwf HR) as HI.
  destruct (start_spec c Hwf s0 HI Epc) as [R _].
  assert (Hsnd : forall n, result (start c s0) = RThrow (ExcInval n) ->
     In n (node_ids (c_dag c)) /\ c_inval c n = IvThrow).
  { intros n H. pose proof (i_pc _ _ (step_start c Hwf s0 HI Epc)) as P. unfold pc_inv in P.
    unfold result in H. destruct (s_pc (start c s0)); try discriminate. inversion H; subst. destruct P as [_ [P1 [P2 _]]]. auto. }
  split; [|exact Hsnd]. split.
  - intros [n H]. exists n. auto.
  - intros [n [Hn Ht]].
    inversion R as [? ? cyc L1 L2 L3|? ? m pre post L2 L1 L3 L4 L5 L6 L7|? ? m pre post L2 L1 L3 L4 L5 L6 L7 L8
                 |? ? s1 evd todo E T ? ? ? ? ? ? Hto Hans]; subst.
    + exfalso. apply Hac. eapply is_cycle_has, L3.
    + rewrite Hjob in L5; [discriminate|]. apply L4, in_mid. auto.
    + exists m. unfold result. rewrite L2. reflexivity.
    + apply Hto in Hn. destruct (Hans n Hn) as [_ Ha]. congruence.
Qed.

(** * C10 C11 *)

Lemma cycle_detected_iff : forall c z s0 s,
  wf_dag (c_dag c) -> reachable c z s0 -> s_pc s0 = Created -> step c s0 LTick = Some s ->
  (result s = RThrow ExcCycle <-> has_after_cycle (c_dag c)).
Proof.
  intros c z s0 s Hwf HR Epc E. cbn in E. unfold tick in E. rewrite Epc in E. inversion E; subst s; clear E.
  pose proof (r_inv c z s0 Hwf HR) as HI.
  destruct (start_spec c Hwf s0 HI Epc) as [R _]. unfold result.
  inversion R as [? ? cyc L1 L2 L3|? ? m pre post L2 L1 L3 L4 L5 L6 L7|? ? m pre post L2 L1 L3 L4 L5 L6 L7 L8
                 |? ? s1 evd todo E T ? ? ? ? ? ? Hto Hans ? ? Hac]; subst.
  - rewrite L2. split; [intros _; eapply is_cycle_has, L3|reflexivity].
  - rewrite L2. split; [discriminate|]. intros H. destruct (L7 H).
  - rewrite L2. split; [discriminate|]. intros H. destruct (L7 H).
  - rewrite E. split; [|intros G; destruct (Hac G)]. unfold main_top, drain_top.
    destruct (s_todo s1); [destruct (s_coros s1)|]; cbn; discriminate.
Qed.

Lemma launch_acyclic c log n : log_ok c log -> In (ELaunch n) log -> acyclic (c_dag c).
Proof.
  intros L H. pose proof (launch_ids c _ _ L H) as Hid. destruct (launch_before c _ _ L H) as [er Hb].
  destruct (proj1 (before_startup c _ _ _ L Hb) n Hid) as [_ [v [t Hi]]].
  destruct (log_in c _ _ L Hi) as [l1 [l2 [_ [[Hc _] _]]]]. cbn in Hc. apply Hc.
Qed.

Lemma no_launch_no_activity c z s : wf_dag (c_dag c) -> reachable c z s ->
  (forall n, ~ In (ELaunch n) (s_log s)) -> forall e, In e (trace s) -> ~ job_activity e.
Proof.
  intros Hwf HR G e He Hj. pose proof (r_log c z s Hwf HR) as L.
  apply trace_in in He. destruct e; try contradiction.
  - exact (G _ He).
  - apply (G n). eapply begin_launch; eassumption.
  - apply (G n). eapply begin_launch; [exact L|]. eapply end_begin; eassumption.
Qed.

Lemma cycle_never_runs : forall c z s,
  wf_dag (c_dag c) -> reachable c z s -> has_after_cycle (c_dag c) ->
  (forall e, In e (trace s) -> ~ job_activity e) /\ (forall er, result s <> RRecord er).
Proof.
  intros c z s Hwf HR Hcyc. pose proof (r_log c z s Hwf HR) as L. split.
  - apply (no_launch_no_activity c z s Hwf HR). intros n H. apply (launch_acyclic c _ _ L H Hcyc).
  - intros er H. destruct Hcyc as [n Hcyc].
    assert (Hid : In n (node_ids (c_dag c))).
    { apply clos_trans_t1n in Hcyc. inversion Hcyc as [y H1 E1|y w H1 H2 E1]; subst; apply Hwf in H1; apply H1. }
    destruct (finished_recorded c z s Hwf HR er n H Hid) as [r [Hr E]]. rewrite <- recs_trace in Hr.
    destruct (rec_at c _ _ L Hr) as [l1 [er' [x [l2 [_ [He Hl2]]]]]]. cbn in He.
    destruct He as [_ [_ [[er2 Hb] _]]].
    destruct (proj1 (before_startup c _ _ _ Hl2 Hb) n Hid) as [_ [v [t Hi]]].
    destruct (log_in c _ _ Hl2 Hi) as [? [? [_ [[Hc _] _]]]]. cbn in Hc. apply Hc. exists n. exact Hcyc.
Qed.

Lemma cycle_report : forall c z s pre l post,
  wf_dag (c_dag c) -> reachable c z s -> trace s = pre ++ ECycle l :: post ->
  is_cycle (c_dag c) l /\
  (forall l', ~ In (ECycle l') pre /\ ~ In (ECycle l') post) /\
  (forall e, In e (trace s) -> ~ job_activity e).
Proof.
  intros c z s pre l post Hwf HR E. pose proof (r_log c z s Hwf HR) as L.
  destruct (trace_at c z s Hwf HR _ _ _ E) as [[He _] Hl]. cbn [ev_cond] in He.
  split; [apply He|]. split.
  - intros l'. destruct (cycle_unique c _ _ _ _ L (trace_split1 s _ _ _ E) l') as [H1 H2].
    split; intros H; apply in_rev in H; auto.
  - apply (no_launch_no_activity c z s Hwf HR). intros n. eapply cycle_no_launch; [exact L|].
    apply trace_in. rewrite E. apply in_app_iff. right; left; reflexivity.
Qed.

Lemma cycle_result_reported : forall c z s,
  wf_dag (c_dag c) -> reachable c z s -> result s = RThrow ExcCycle ->
  exists pre l, trace s = pre ++ [ECycle l] /\ is_cycle (c_dag c) l.
Proof.
  intros c z s Hwf HR H. pose proof (i_pc _ _ (r_inv c z s Hwf HR)) as P. unfold pc_inv in P.
  unfold result in H. destruct (s_pc s); try discriminate. inversion H; subst.
  destruct P as [_ [cyc [l El]]]. exists (rev l), cyc. unfold trace. rewrite El. split; [reflexivity|].
  pose proof (r_log c z s Hwf HR) as L. rewrite El in L. apply L.
Qed.

(** * C12 *)

Lemma no_assertion_fails : forall c z s b,
  wf_dag (c_dag c) -> (forall n, In n (node_ids (c_dag c)) -> node_has_job c n = true) ->
  reachable c z s -> s_pc s = Bad b -> b = BadResumeDone.
Proof.
  intros c z s b Hwf Hjob HR E. pose proof (i_pc _ _ (r_inv c z s Hwf HR)) as P. unfold pc_inv in P.
  rewrite E in P. destruct b; try contradiction; [|reflexivity].
  destruct P as [_ [P1 [P2 _]]]. rewrite Hjob in P2 by exact P1. discriminate.
Qed.

Lemma no_null_job_needed : forall c z s n,
  wf_dag (c_dag c) -> reachable c z s -> s_pc s = Bad (BadNullJob n) ->
  In n (node_ids (c_dag c)) /\ node_has_job c n = false.
Proof.
  intros c z s n Hwf HR E. pose proof (i_pc _ _ (r_inv c z s Hwf HR)) as P. unfold pc_inv in P.
  rewrite E in P. destruct P as [_ [P1 [P2 _]]]. auto.
Qed.

Lemma unfin_outstanding c s n : Core c (s_fut s) (s_log s) (live s) -> unfin (s_fut s n) -> outstanding (trace s) n.
Proof.
  intros K U. pose proof (k_fut _ _ _ _ K n) as F. unfold outstanding.
  split.
  - apply trace_in. destruct (s_fut s n); try contradiction; apply F.
  - intros [o Ho]. apply trace_in in Ho. revert Ho. destruct (s_fut s n); try contradiction; apply F.
Qed.

Lemma no_deadlock : forall c z s,
  wf_dag (c_dag c) -> reachable c z s ->
  match s_pc s with Finished | Failed _ | Destroyed | Bad _ => False | _ => True end ->
  (exists s', step c s LTick = Some s') \/ (exists s', step c s LCtl = Some s') \/
  (exists n, outstanding (trace s) n /\
     ((exists s', step c s (LBegin n) = Some s') \/ (forall o, exists s', step c s (LEnd n o) = Some s'))).
Proof.
  intros c z s Hwf HR Hpc. pose proof (r_inv c z s Hwf HR) as HI.
  pose proof (i_core _ _ HI) as K. pose proof (i_pc _ _ HI) as P. unfold pc_inv in P.
  assert (J : forall n, s_fut s n = FPending \/ s_fut s n = FRunning ->
     exists n, outstanding (trace s) n /\
     ((exists s', step c s (LBegin n) = Some s') \/ (forall o, exists s', step c s (LEnd n o) = Some s'))).
  { intros n Hn. exists n. split.
    - apply (unfin_outstanding c _ _ K). destruct Hn as [-> | ->]; exact I.
    - cbn. destruct Hn as [-> | ->]; [left|right]; eauto. }
  assert (D : forall sl rest, live s = map sl_coro (sl :: rest) ->
     destroy_one s sl = true \/ exists n, s_fut s n = FPending \/ s_fut s n = FRunning).
  { intros sl rest _. unfold destroy_one. destruct (co_st (sl_coro sl)); [auto|].
    destruct (s_fut s (co_node (sl_coro sl))) eqn:E; eauto. }
  unfold step, tick, ctl. unfold live in *. destruct (s_pc s) as [|ph|ph kept rest|e rest|rest| | | |] eqn:Epc; try contradiction.
  - left. eauto.
  - left. destruct ph; eauto.
  - right. destruct P as [A [_ [_ [_ [_ [_ Pd]]]]]]. unfold act, live in A. rewrite Epc in A.
    destruct rest as [|sl rest].
    + left. destruct ph; eauto.
    + destruct (sl_coro sl) as [n st] eqn:Esl. cbn [co_st]. destruct st as [|rec].
      * left. unfold run_first. rewrite Esl. cbn [co_node].
        destruct (inval_eqb (ns_inval (s_ns s n)) UNKNOWN); [eauto|].
        cbn zeta. destruct (any_dep_failed _ _ n); [eexists; reflexivity|].
        destruct (inval_eqb _ VALID); eexists; reflexivity.
      * assert (Hin : In (Coro n (CWait rec)) (kept ++ map sl_coro (sl :: rest))).
        { apply in_app_iff. right. left. exact Esl. }
        pose proof (w_fut _ _ _ _ _ _ (a_wait _ _ _ _ _ _ _ _ A n rec Hin)) as Hf.
        unfold run_poll. rewrite Esl. cbn [co_node].
        destruct (s_fut s n) eqn:Ef; try (left; eexists; reflexivity); [congruence|].
        destruct (deferred c); [|left; eexists; reflexivity]. right. apply (J n). auto.
  - right. destruct rest as [|sl rest]; [left; eauto|].
    destruct (D sl rest eq_refl) as [->|[n Hn]]; [left; eauto|right; apply (J n Hn)].
  - right. destruct rest as [|sl rest]; [left; eauto|].
    destruct (D sl rest eq_refl) as [->|[n Hn]]; [left; eauto|right; apply (J n Hn)].
Qed.

(** * C14 C15 *)

Lemma shown_record_accounts : forall c z s pre e post er,
  wf_dag (c_dag c) -> reachable c z s -> trace s = pre ++ e :: post -> shown_record e = Some er ->
  er_runs er = records pre /\
  er_total er = List.length (node_ids (c_dag c)) /\
  List.length (er_runs er) <= er_total er /\
  (forall k, stat_get (er_stats er) k = count_status k (er_runs er)).
Proof.
  intros c z s pre e post er Hwf HR E Hs.
  destruct (trace_at c z s Hwf HR _ _ _ E) as [[He _] Hl].
  assert (A : accounts c (recs (rev pre)) er).
  { destruct e; cbn in Hs; try discriminate; inversion Hs; subst; cbn in He; apply He. }
  destruct A as [A1 [A2 A3]]. rewrite recs_rev in A1, A3.
  split; [exact A1|]. split; [exact A2|]. split; [|rewrite A1; exact A3].
  destruct (recs_nodup c _ Hl) as [N1 N2]. rewrite recs_rev in N1, N2.
  rewrite A1, A2, <- (map_length r_node). apply NoDup_incl_length; assumption.
Qed.

Lemma count_sum rs : count_status OK rs + count_status SKIP rs + count_status DEPF rs
  + count_status FAIL rs = List.length rs.
Proof.
  unfold count_status. induction rs as [|r rs IH]; [reflexivity|]. cbn.
  destruct (r_status r); cbn; lia.
Qed.

Lemma result_accounts : forall c z s er,
  wf_dag (c_dag c) -> reachable c z s -> result s = RRecord er ->
  er_total er = List.length (node_ids (c_dag c)) /\
  List.length (er_runs er) = er_total er /\
  (forall k, stat_get (er_stats er) k = count_status k (er_runs er)) /\
  stat_get (er_stats er) OK + stat_get (er_stats er) SKIP + stat_get (er_stats er) DEPF
    + stat_get (er_stats er) FAIL = er_total er.
Proof.
  intros c z s er Hwf HR H.
  pose proof (i_pc _ _ (r_inv c z s Hwf HR)) as P. unfold pc_inv in P.
  pose proof (recorded_once c z s er Hwf HR H) as [Hp _]. 
  unfold result in H. destruct (s_pc s); try discriminate. inversion H; subst. clear H.
  destruct P as [_ [l El]]. pose proof (r_log c z s Hwf HR) as L. rewrite El in L.
  destruct L as [[He _] _]. cbn in He. destruct He as [[A1 [A2 A3]] _]. rewrite <- A1 in A3.
  apply Permutation_length in Hp. rewrite map_length in Hp.
  split; [exact A2|]. split; [congruence|]. split; [exact A3|].
  rewrite !A3, count_sum. congruence.
Qed.

Lemma records_split tr : forall l1 r l2, records tr = l1 ++ r :: l2 ->
  exists pre er x post, tr = pre ++ EAfterRun er r x :: post /\ records pre = l1.
Proof.
  induction tr as [|e tr IH]; intros l1 r l2 E; [destruct l1; discriminate|].
  destruct (is_after e) eqn:Ea.
  - destruct e; try discriminate. cbn in E. destruct l1 as [|r1 l1]; cbn in E; inversion E; subst.
    + exists [], er, n, tr. auto.
    + destruct (IH _ _ _ H1) as [pre [er' [x [post [-> Hp]]]]].
      exists (EAfterRun er r1 n :: pre), er', x, post. cbn. rewrite Hp. auto.
  - assert (E' : records tr = l1 ++ r :: l2) by (destruct e; try discriminate; exact E).
    destruct (IH _ _ _ E') as [pre [er' [x [post [-> Hp]]]]].
    exists (e :: pre), er', x, post. split; [reflexivity|]. rewrite <- Hp. destruct e; try discriminate; reflexivity.
Qed.

Lemma record_order : forall c z s er l1 ra l2 b,
  wf_dag (c_dag c) -> reachable c z s -> result s = RRecord er ->
  er_runs er = l1 ++ ra :: l2 -> runs_after (c_dag c) (r_node ra) b ->
  (exists rb, In rb l1 /\ r_node rb = b) /\ (forall rb, In rb l2 -> r_node rb <> b).
Proof.
  intros c z s er l1 ra l2 b Hwf HR H E Hb.
  pose proof (recorded_once c z s er Hwf HR H) as [Hp _].
  rewrite (finished_runs c z s Hwf HR er H) in E, Hp.
  destruct (records_split _ _ _ _ E) as [pre [er' [x [post [Et Ep]]]]].
  destruct (trace_at c z s Hwf HR _ _ _ Et) as [[He _] _]. cbn [ev_cond] in He.
  assert (G : recorded_l (rev pre) b) by (apply He, Hb).
  destruct G as [rb [G1 G2]]. rewrite recs_rev, Ep in G1. split; [eauto|].
  intros rb' H' E'. apply Permutation_sym in Hp. apply Permutation_NoDup in Hp; [|apply Hwf].
  rewrite E, map_app in Hp. apply NoDup_app_iff in Hp. destruct Hp as [_ [_ Hp]].
  apply (Hp b).
  - rewrite <- G2. apply in_map, G1.
  - right. rewrite <- E'. apply in_map, H'.
Qed.

(** * C22 *)

Lemma stages_In n tr k : In k (stages n tr) <-> exists e, In e tr /\ stage n e = Some k.
Proof.
  induction tr as [|e tr IH]; cbn; [firstorder|].
  destruct (stage n e) as [k'|] eqn:E.
  - cbn. rewrite IH. split.
    + intros [<-|[e' [H1 H2]]]; eauto.
    + intros [e' [[->|H1] H2]]; [left; congruence|right; eauto].
  - rewrite IH. split; intros [e' [H1 H2]]; [eauto|]. destruct H1 as [->|H1]; [congruence|eauto].
Qed.

Lemma stages_app n a b : stages n (a ++ b) = stages n a ++ stages n b.
Proof. induction a as [|e a IH]; [reflexivity|]. cbn. destruct (stage n e); cbn; congruence. Qed.

Lemma sorted_snoc l k : sorted l -> (forall x, In x l -> x < k) -> sorted (l ++ [k]).
Proof.
  intros Hs Hk. induction Hs as [|x l Hx Hs IH]; cbn.
  - constructor; [intros y []|constructor].
  - constructor.
    + intros y Hy. apply in_app_iff in Hy. destruct Hy as [Hy|[<-|[]]]; [auto|]. apply Hk. left; reflexivity.
    + apply IH. intros y Hy. apply Hk. right; exact Hy.
Qed.

Lemma stage_inv n e k : stage n e = Some k ->
  match k with
  | 0 => e = EEnque n
  | 1 => exists v t, e = EInval n v t
  | 2 => exists er, e = EBeforeRun er n
  | 3 => exists t, e = ERunLog n t
  | 4 => exists er r x, e = EAfterRun er r x /\ r_node r = n
  | _ => False
  end.
Proof.
  destruct e; cbn; try discriminate;
    (match goal with |- context [?a =? ?b] => destruct (Nat.eqb_spec a b) end; [|discriminate]);
    intros H; inversion H; subst; eauto 6.
Qed.

Lemma stages_sorted c n : forall log, log_ok c log -> sorted (stages n (rev log)).
Proof.
  induction log as [|e log IH]; intros L; [constructor|]. destruct L as [[He _] L].
  cbn [rev]. rewrite stages_app. cbn. destruct (stage n e) as [k|] eqn:E; [|rewrite app_nil_r; auto].
  apply sorted_snoc; [auto|]. intros k' Hk'. apply stages_In in Hk'. destruct Hk' as [e' [H1 H2]].
  apply in_rev in H1. apply stage_inv in E. apply stage_inv in H2.
  assert (Hb : runlog_l log n -> before_l log n) by (apply (runlog_before c); exact L).
  destruct k as [|[|[|[|[|k]]]]]; [| | | | |destruct E].
  - subst e. cbn in He. destruct He as [_ [G1 G2]]. rewrite Forall_forall in G2. specialize (G2 _ H1).
    destruct k' as [|[|[|[|[|k']]]]]; [|firstorder; subst; discriminate..].
    subst. destruct (G1 H1).
  - destruct E as [v [t ->]]. cbn in He. destruct He as [_ [G1 [G2 _]]]. rewrite Forall_forall in G2. specialize (G2 _ H1).
    destruct k' as [|[|[|[|[|k']]]]]; [lia| |firstorder; subst; discriminate..].
    destruct H2 as [v' [t' ->]]. destruct (G1 _ _ H1).
  - destruct E as [er ->]. cbn in He. destruct He as [_ [_ [_ [G1 [G2 _]]]]].
    destruct k' as [|[|[|[|[|k']]]]]; try lia; exfalso.
    + destruct H2 as [er' ->]. apply G1. exists er'. exact H1.
    + destruct H2 as [t ->]. apply G1, Hb. exists t. exact H1.
    + destruct H2 as [er' [r [x [-> Er]]]]. apply G2. exists r. split; [|exact Er].
      apply recs_In. eauto.
  - destruct E as [t ->]. cbn in He. destruct He as [G1 [G2 _]].
    destruct k' as [|[|[|[|[|k']]]]]; try lia; exfalso.
    + destruct H2 as [t' ->]. apply G1. exists t'. exact H1.
    + destruct H2 as [er' [r [x [-> Er]]]]. apply G2. exists r. split; [|exact Er].
      apply recs_In. eauto.
  - destruct E as [er [r [x [-> Er]]]]. cbn in He. destruct He as [_ [_ [_ [G _]]]]. rewrite Er in G.
    destruct k' as [|[|[|[|[|k']]]]]; try lia; exfalso.
    destruct H2 as [er' [r' [x' [-> Er']]]]. apply G. exists r'. split; [|exact Er'].
    apply recs_In. eauto.
Qed.

Lemma sorted_prefix_of : forall c z s n, wf_dag (c_dag c) -> reachable c z s -> sorted (stages n (trace s)).
Proof. intros c z s n Hwf HR. apply (stages_sorted c n), (r_log c z s Hwf HR). Qed.

Lemma sorted_strict l : sorted l -> StronglySorted lt l.
Proof.
  induction 1 as [|x l Hx Hs IH]; constructor; [exact IH|]. apply Forall_forall. exact Hx.
Qed.

Lemma protocol_order : forall c z s n,
  wf_dag (c_dag c) -> reachable c z s -> StronglySorted lt (stages n (trace s)).
Proof. intros c z s n Hwf HR. apply sorted_strict, (sorted_prefix_of c z s n Hwf HR). Qed.

Lemma protocol_complete : forall c z s er n,
  wf_dag (c_dag c) -> reachable c z s -> result s = RRecord er -> In n (node_ids (c_dag c)) ->
  (In (EBegin n) (trace s) -> stages n (trace s) = [0; 1; 2; 3; 4]) /\
  (~ In (EBegin n) (trace s) -> stages n (trace s) = [0; 1; 2; 4]).
Proof.
  intros c z s er n Hwf HR H Hn. pose proof (r_log c z s Hwf HR) as L.
  pose proof (sorted_prefix_of c z s n Hwf HR) as Hs.
  destruct (finished_recorded c z s Hwf HR er n H Hn) as [r [Hr Er]].
  assert (H4 : In 4 (stages n (trace s))).
  { apply stages_In. apply records_In in Hr. destruct Hr as [er' [x Hr]]. exists (EAfterRun er' r x).
    split; [exact Hr|]. cbn. rewrite Er, Nat.eqb_refl. reflexivity. }
  assert (Hr' := Hr). rewrite <- recs_trace in Hr'.
  destruct (rec_at c _ _ L Hr') as [l1 [er' [x [l2 [El [He _]]]]]]. cbn in He.
  destruct He as [_ [_ [[er2 Hb] _]]]. rewrite Er in Hb.
  assert (Hb' : In (EBeforeRun er2 n) (s_log s)).
  { rewrite El. apply in_app_iff. right; right; exact Hb. }
  assert (H2 : In 2 (stages n (trace s))).
  { apply stages_In. exists (EBeforeRun er2 n). split; [apply trace_in, Hb'|]. cbn. rewrite Nat.eqb_refl. reflexivity. }
  destruct (proj1 (before_startup c _ _ _ L Hb') n Hn) as [Hq [v [t Hi]]].
  assert (H0 : In 0 (stages n (trace s))).
  { apply stages_In. exists (EEnque n). split; [apply trace_in, Hq|]. cbn. rewrite Nat.eqb_refl. reflexivity. }
  assert (H1 : In 1 (stages n (trace s))).
  { apply stages_In. exists (EInval n v t). split; [apply trace_in, Hi|]. cbn. rewrite Nat.eqb_refl. reflexivity. }
  assert (Hmax : forall k, In k (stages n (trace s)) -> k <= 4).
  { intros k Hk. apply stages_In in Hk. destruct Hk as [e [_ Hk]]. apply stage_inv in Hk.
    destruct k as [|[|[|[|[|k]]]]]; try lia. }
  assert (H3 : In 3 (stages n (trace s)) <-> In (EBegin n) (trace s)).
  { rewrite stages_In. split.
    - intros [e [G1 G2]]. apply stage_inv in G2. destruct G2 as [t' ->]. apply trace_in in G1.
      destruct (log_in c _ _ L G1) as [m1 [m2 [Em [[Hc _] Lm]]]]. cbn in Hc.
      destruct Hc as [_ [_ [_ [o [Ho _]]]]]. apply trace_in. rewrite Em. apply in_app_iff. right; right.
      eapply end_begin; eassumption.
    - intros G. rewrite (executed_iff_status c z s er n Hwf HR H Hn) in G.
      destruct G as [r' [G1 [G2 G3]]]. rewrite (finished_runs c z s Hwf HR er H) in G1.
      pose proof (record_facts c z s Hwf HR r' G1) as [_ [_ F]]. cbn zeta in F. rewrite G2 in F.
      assert (exists o, In (ERunLog n (rr_log (run_lambda o))) (trace s)) as [o Ho].
      { destruct G3 as [E|E]; rewrite E in F; destruct F as [_ [_ [_ [_ [o [_ [_ [_ [F _]]]]]]]]]; eauto. }
      eexists. split; [exact Ho|]. cbn. rewrite Nat.eqb_refl. reflexivity. }
  assert (S5 : sorted [0;1;2;3;4]) by (repeat (constructor; [intros y Hy; cbn in Hy; lia|]); constructor).
  assert (S4 : sorted [0;1;2;4]) by (repeat (constructor; [intros y Hy; cbn in Hy; lia|]); constructor).
  split; intros G; (apply sorted_ext; [exact Hs|assumption|]); intros k.
  - cbn. split; [intros Hk; specialize (Hmax k Hk); lia|].
    intros [<-|[<-|[<-|[<-|[<-|[]]]]]]; try assumption. apply H3, G.
  - cbn. split.
    + intros Hk. specialize (Hmax k Hk).
      destruct (Nat.eq_dec k 3) as [->|]; [|lia]. apply H3 in Hk. destruct (G Hk).
    + intros [<-|[<-|[<-|[<-|[]]]]]; assumption.
Qed.

Lemma after_execution_last : forall c z s pre er post,
  wf_dag (c_dag c) -> reachable c z s -> trace s = pre ++ EAfterExec er :: post ->
  (post = [] \/ post = [EDestroyed]) /\ (forall er', ~ In (EAfterExec er') pre).
Proof.
  intros c z s pre er post Hwf HR E. split.
  - destruct post as [|e post]; [auto|]. right.
    assert (E' : trace s = (pre ++ [EAfterExec er]) ++ e :: post) by (rewrite <- app_assoc; exact E).
    destruct (trace_at c z s Hwf HR _ _ _ E') as [[_ [_ He]] _].
    assert (e = EDestroyed).
    { apply (He er). apply -> in_rev. apply in_app_iff. right; left; reflexivity. }
    subst e. destruct post as [|e post]; [reflexivity|exfalso].
    assert (E2 : trace s = (pre ++ [EAfterExec er; EDestroyed]) ++ e :: post) by (rewrite <- app_assoc; exact E).
    destruct (trace_at c z s Hwf HR _ _ _ E2) as [[_ [Hd _]] _]. apply Hd. apply -> in_rev.
    apply in_app_iff. right; right; left; reflexivity.
  - intros er' H. destruct (trace_at c z s Hwf HR _ _ _ E) as [[_ [_ He]] _].
    apply in_rev in H. specialize (He er' H). discriminate.
Qed.

Lemma finished_after_execution : forall c z s er,
  wf_dag (c_dag c) -> reachable c z s -> result s = RRecord er ->
  exists pre, trace s = pre ++ [EAfterExec er] /\ er_runs er = records pre.
Proof.
  intros c z s er Hwf HR H. pose proof (i_pc _ _ (r_inv c z s Hwf HR)) as P. unfold pc_inv in P.
  unfold result in H. destruct (s_pc s); try discriminate. inversion H; subst.
  destruct P as [_ [l El]]. exists (rev l). unfold trace. rewrite El. split; [reflexivity|].
  pose proof (r_log c z s Hwf HR) as L. rewrite El in L. destruct L as [[He _] _]. cbn in He.
  destruct He as [[A _] _]. rewrite A. apply recs_rev || (unfold recs; reflexivity).
Qed.
