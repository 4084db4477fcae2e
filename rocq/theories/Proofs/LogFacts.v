(** Consequences of [log_ok] that no longer mention states. *)
From Coq Require Import Lia String Permutation.
From Verif Require Import Model.Common Model.Records Model.Jobs Model.TaskSet Model.Dag
     Model.Sched Model.Exec Spec.Graph Spec.Trace
     Proofs.Sets Proofs.SchedFacts Proofs.InvalFacts Proofs.TraceFacts Proofs.ExecInv
     Proofs.ExecCtl.
Open Scope nat_scope.
Open Scope list_scope.

Section Log.
Variable c : config.
Let d := c_dag c.
Let ids := node_ids (c_dag c).

Lemma log_at log l1 e l2 : log_ok c log -> log = l1 ++ e :: l2 -> ev_ok c l2 e /\ log_ok c l2.
Proof. intros H ->. apply log_ok_app in H. exact H. Qed.

Lemma log_in log e : log_ok c log -> In e log ->
  exists l1 l2, log = l1 ++ e :: l2 /\ ev_ok c l2 e /\ log_ok c l2.
Proof.
  intros H Hin. apply in_split in Hin. destruct Hin as [l1 [l2 E]].
  exists l1, l2. split; [exact E|]. eapply log_at; eassumption.
Qed.

Lemma begin_launch log n : log_ok c log -> In (EBegin n) log -> In (ELaunch n) log.
Proof.
  intros H Hin. destruct (log_in _ _ H Hin) as [l1 [l2 [-> [[He _] _]]]]. cbn in He.
  apply in_app_iff. right; right. apply He.
Qed.

Lemma end_begin log n o : log_ok c log -> In (EEnd n o) log -> In (EBegin n) log.
Proof.
  intros H Hin. destruct (log_in _ _ H Hin) as [l1 [l2 [-> [[He _] _]]]]. cbn in He.
  apply in_app_iff. right; right. apply He.
Qed.

Lemma launch_ids log n : log_ok c log -> In (ELaunch n) log -> In n ids.
Proof.
  intros H Hin. destruct (log_in _ _ H Hin) as [l1 [l2 [-> [[He _] _]]]]. cbn in He. apply He.
Qed.

Lemma end_unique log n o o' : log_ok c log -> In (EEnd n o) log -> In (EEnd n o') log -> o = o'.
Proof.
  induction log as [|e log IH]; intros Hok H1 H2; [destruct H1|].
  destruct Hok as [[He _] Hok].
  destruct H1 as [->|H1], H2 as [H2|H2].
  - congruence.
  - cbn in He. exfalso. apply (proj1 (proj2 He)). exists o'. exact H2.
  - subst e. cbn in He. exfalso. apply (proj1 (proj2 He)). exists o. exact H1.
  - auto.
Qed.

(** a record and what was known when it was produced *)
Lemma rec_at log r : log_ok c log -> In r (recs log) ->
  exists l1 er x l2, log = l1 ++ EAfterRun er r x :: l2 /\ ev_cond c l2 (EAfterRun er r x) /\ log_ok c l2.
Proof.
  intros H Hin. apply recs_In in Hin. destruct Hin as [er [x Hin]].
  destruct (log_in _ _ H Hin) as [l1 [l2 [E [[He _] Hl]]]]. exists l1, er, x, l2. auto.
Qed.

Lemma recs_app a l : exists more, recs (a ++ l) = recs l ++ more.
Proof.
  unfold recs. rewrite rev_app_distr, records_app. eauto.
Qed.

Lemma recs_nodup log : log_ok c log -> NoDup (map r_node (recs log)) /\ incl (map r_node (recs log)) ids.
Proof.
  induction log as [|e log IH]; intros Hok; [split; [constructor|intros x []]|].
  destruct Hok as [[He _] Hok]. specialize (IH Hok). destruct IH as [IH1 IH2].
  destruct (is_after e) eqn:E; [|rewrite recs_other by exact E; auto].
  destruct e; try discriminate. rewrite recs_after, map_app. cbn in He.
  destruct He as [_ [Hid [_ [Hnr _]]]]. split.
  - apply NoDup_app_iff. split; [exact IH1|]. split; [constructor; [intros []|constructor]|].
    intros x Hx [<-|[]]. apply Hnr. apply in_map_iff in Hx. destruct Hx as [r' [E' Hr]]. exists r'. auto.
  - intros x Hx. apply in_app_iff in Hx. destruct Hx as [Hx|[<-|[]]]; auto.
Qed.

Lemma rec_unique log r r' : log_ok c log -> In r (recs log) -> In r' (recs log) ->
  r_node r = r_node r' -> r = r'.
Proof.
  intros Hok H1 H2 E. destruct (recs_nodup log Hok) as [N _].
  revert H1 H2 N E. generalize (recs log) as l. induction l as [|x l IH]; intros H1 H2 N E; [destruct H1|].
  inversion N as [|? ? Hn N']; subst. destruct H1 as [->|H1], H2 as [H2|H2].
  - congruence.
  - exfalso. apply Hn. rewrite E. apply in_map, H2.
  - subst x. exfalso. apply Hn. rewrite <- E. apply in_map, H1.
  - auto.
Qed.

(** * Records and jobs *)

Lemma recorded_end log n : log_ok c log -> recorded_l log n -> In (ELaunch n) log -> ended_l log n.
Proof.
  intros Hok [r [Hr <-]] Hl. destruct (rec_at log r Hok Hr) as [l1 [er [x [l2 [-> [He Hok2]]]]]].
  cbn in He. destruct He as [_ [_ [_ [_ [_ [Hrec _]]]]]]. unfold rec_ok in Hrec.
  destruct Hrec as [_ [_ Hrec]].
  assert (G : ended_l l2 (r_node r) -> ended_l (l1 ++ EAfterRun er r x :: l2) (r_node r)).
  { intros [o Ho]. exists o. apply in_app_iff. right; right. exact Ho. }
  assert (Hnl : ~ In (ELaunch (r_node r)) l2 -> False).
  { intros Hn. apply in_app_iff in Hl. destruct Hl as [Hl|[Hl|Hl]]; [|discriminate|auto].
    apply in_split in Hl. destruct Hl as [a [b ->]].
    rewrite <- app_assoc in Hok. cbn in Hok. apply log_ok_app in Hok. destruct Hok as [[Hc _] _].
    cbn in Hc. destruct Hc as [_ [_ [Hc _]]]. apply Hc. apply recorded_app.
    exists r. split; [rewrite recs_after; apply in_app_iff; right; left; reflexivity|reflexivity]. }
  destruct (r_status r).
  - apply G. destruct Hrec as [_ [_ [_ [o [Ho _]]]]]. exists o. exact Ho.
  - exfalso. apply Hnl. tauto.
  - exfalso. apply Hnl. tauto.
  - apply G. destruct Hrec as [_ [_ [_ [o [Ho _]]]]]. exists o. exact Ho.
Qed.

(** nothing of a node's job happens after its record *)
Lemma no_begin_after_record l1 n l2 : log_ok c (l1 ++ EBegin n :: l2) -> ~ recorded_l l2 n.
Proof. intros H. apply log_ok_app in H. destruct H as [[H _] _]. cbn in H. tauto. Qed.

Lemma no_launch_after_record l1 n l2 : log_ok c (l1 ++ ELaunch n :: l2) -> ~ recorded_l l2 n.
Proof. intros H. apply log_ok_app in H. destruct H as [[H _] _]. cbn in H. tauto. Qed.

(** * Running jobs *)

Lemma run_l_begin log n : In n (run_l log) -> In (EBegin n) log.
Proof.
  induction log as [|e log IH]; [intros []|]. rewrite run_l_cons. destruct e; cbn; auto.
  - intros [->|H]; auto.
  - intros H. apply set_erase_In in H. right. apply IH, H.
Qed.

Lemma run_l_ok log : log_ok c log ->
  NoDup (run_l log) /\ List.length (run_l log) <= Nat.max 1 (c_threads c) /\
  forall a b, In a (run_l log) -> In b (run_l log) -> a <> b -> disjoint_res c a b.
Proof.
  induction log as [|e log IH]; intros Hok.
  - split; [constructor|]. split; [cbn; lia|intros a b []].
  - destruct Hok as [[He _] Hok]. specialize (IH Hok). destruct IH as [I1 [I2 I3]].
    rewrite run_l_cons. destruct e; try (cbn [track]; auto).
    + cbn [ev_cond] in He. destruct He as [_ [Hb [_ [_ [Hdis Hlen]]]]].
      assert (Hn : ~ In n (run_l log)) by (intros H; apply Hb, run_l_begin, H).
      split; [constructor; assumption|]. split; [exact Hlen|].
      intros a b [<-|Ha] [<-|Hb'] Hne.
      * congruence.
      * apply Hdis, Hb'.
      * intros r H1 H2. eapply Hdis; eauto.
      * apply I3; assumption.
    + split; [apply NoDup_filter, I1|]. split.
      * unfold set_erase. eapply Nat.le_trans; [apply filter_length_le|exact I2].
      * intros a b Ha Hb Hne. apply set_erase_In in Ha. apply set_erase_In in Hb. apply I3; tauto.
Qed.

(** * Start-up *)

Lemma before_startup log er n : log_ok c log -> In (EBeforeRun er n) log -> startup_done c log.
Proof.
  intros H Hin. destruct (log_in _ _ H Hin) as [l1 [l2 [-> [[He _] _]]]]. cbn in He.
  destruct He as [_ [He _]]. clear -He. 
  induction l1 as [|e l1 IH]; cbn; apply startup_mono; assumption.
Qed.

Lemma launch_before log n : log_ok c log -> In (ELaunch n) log -> before_l log n.
Proof.
  intros H Hin. destruct (log_in _ _ H Hin) as [l1 [l2 [-> [[He _] _]]]]. cbn in He.
  destruct He as [[er He] _]. exists er. apply in_app_iff. right; right. exact He.
Qed.

Lemma startup_launch l1 n l2 : log_ok c (l1 ++ ELaunch n :: l2) -> startup_done c l2.
Proof.
  intros H. apply log_ok_app in H. destruct H as [[He _] Hl]. cbn in He.
  destruct He as [[er He] _]. eapply before_startup; eassumption.
Qed.

Lemma inval_unique log n v t v' t' : log_ok c log -> In (EInval n v t) log -> In (EInval n v' t') log ->
  v = v' /\ t = t'.
Proof.
  induction log as [|e log IH]; intros Hok H1 H2; [destruct H1|].
  destruct Hok as [[He _] Hok].
  destruct H1 as [->|H1], H2 as [H2|H2].
  - inversion H2; auto.
  - cbn in He. exfalso. eapply (proj1 (proj2 He)); eassumption.
  - subst e. cbn in He. exfalso. eapply (proj1 (proj2 He)); eassumption.
  - auto.
Qed.

(** a reported cycle excludes everything that comes later *)
Lemma cycle_no_inval log l : log_ok c log -> In (ECycle l) log -> forall n v t, ~ In (EInval n v t) log.
Proof.
  induction log as [|e log IH]; intros Hok H n v t Hin; [destruct H|].
  destruct Hok as [[He _] Hok]. destruct H as [->|H], Hin as [Hin|Hin].
  - discriminate.
  - cbn in He. destruct He as [_ [He _]]. rewrite Forall_forall in He. specialize (He _ Hin). discriminate.
  - subst e. cbn in He. destruct He as [_ [_ [He _]]]. rewrite Forall_forall in He. specialize (He _ H). discriminate.
  - eapply IH; eassumption.
Qed.

Lemma cycle_no_launch log l n : log_ok c log -> In (ECycle l) log -> ~ In (ELaunch n) log.
Proof.
  intros Hok H Hl. pose proof (launch_ids _ _ Hok Hl) as Hid.
  destruct (launch_before _ _ Hok Hl) as [er Hb].
  destruct (proj1 (before_startup _ _ _ Hok Hb) n Hid) as [_ [v [t Hi]]].
  eapply cycle_no_inval; eassumption.
Qed.

Lemma cycle_unique log l1 cyc l2 : log_ok c log -> log = l1 ++ ECycle cyc :: l2 ->
  forall cyc', ~ In (ECycle cyc') l1 /\ ~ In (ECycle cyc') l2.
Proof.
  intros Hok -> cyc'.
  assert (G : forall a x b, log_ok c (a ++ ECycle x :: b) -> forall y, ~ In (ECycle y) b).
  { intros a x b H y Hin. apply log_ok_app in H. destruct H as [[H _] _]. cbn in H.
    destruct H as [_ [H _]]. rewrite Forall_forall in H. specialize (H _ Hin). discriminate. }
  split; [|eapply G, Hok].
  intros Hin. apply in_split in Hin. destruct Hin as [a [b ->]].
  rewrite <- app_assoc in Hok. cbn in Hok. apply (G _ _ _ Hok cyc). apply in_app_iff. right; left; reflexivity.
Qed.

End Log.

(** * From logs to traces *)

Section Reach.
Variables (c : config) (z : Z) (s : state).
Hypothesis Hwf : wf_dag (c_dag c).
Hypothesis HR : reachable c z s.

Lemma r_inv : Inv c s.
Proof. eapply inv_reachable; eassumption. Qed.

Lemma r_log : log_ok c (s_log s).
Proof. apply (i_core _ _ r_inv). Qed.

Lemma trace_in e : In e (trace s) <-> In e (s_log s).
Proof. unfold trace. symmetry. apply in_rev. Qed.

Lemma trace_split pre post : trace s = pre ++ post -> s_log s = rev post ++ rev pre.
Proof. intros E. rewrite <- rev_app_distr, <- E. unfold trace. rewrite rev_involutive. reflexivity. Qed.

Lemma trace_split1 pre e post : trace s = pre ++ e :: post -> s_log s = rev post ++ e :: rev pre.
Proof.
  intros E. rewrite (trace_split _ _ E). cbn. rewrite <- app_assoc. reflexivity.
Qed.

Lemma trace_at pre e post : trace s = pre ++ e :: post -> ev_ok c (rev pre) e /\ log_ok c (rev pre).
Proof. intros E. apply trace_split1 in E. eapply log_at; [apply r_log|exact E]. Qed.

Lemma trace_prefix pre post : trace s = pre ++ post -> log_ok c (rev pre).
Proof. intros E. apply trace_split in E. pose proof r_log as L. rewrite E in L. eapply log_ok_app, L. Qed.

Lemma recs_rev pre : recs (rev pre) = records pre.
Proof. unfold recs. rewrite rev_involutive. reflexivity. Qed.

Lemma recorded_rev pre n : recorded_l (rev pre) n <-> recorded pre n.
Proof. unfold recorded_l, recorded. rewrite recs_rev. tauto. Qed.

Lemma run_rev pre : run_l (rev pre) = running pre.
Proof. unfold run_l. rewrite rev_involutive. reflexivity. Qed.

Lemma recs_trace : recs (s_log s) = records (trace s).
Proof. reflexivity. Qed.

Lemma finished_log er : result s = RRecord er ->
  s_erec s = er /\ s_pc s = Finished /\ exists l, s_log s = EAfterExec er :: l /\
  er_runs er = recs (s_log s) /\ ev_ok c l (EAfterExec er) /\ log_ok c l.
Proof.
  intros H. unfold result in H. destruct (s_pc s) eqn:E; try discriminate. inversion H; subst; clear H.
  split; [reflexivity|]. split; [reflexivity|].
  pose proof (i_pc _ _ r_inv) as P. unfold pc_inv in P. rewrite E in P. destruct P as [_ [l El]].
  pose proof r_log as L. rewrite El in L |- *. exists l. split; [reflexivity|].
  destruct L as [L1 L2]. split; [|auto]. rewrite recs_other by reflexivity. destruct L1 as [[L1 _] _]. apply L1.
Qed.

Lemma finished_runs er : result s = RRecord er -> er_runs er = records (trace s).
Proof. intros H. destruct (finished_log er H) as [_ [_ [l [_ [E _]]]]]. rewrite E. apply recs_trace. Qed.

Lemma finished_recorded er n : result s = RRecord er -> In n (node_ids (c_dag c)) -> recorded (trace s) n.
Proof.
  intros H Hn. destruct (finished_log er H) as [_ [_ [l [El [_ [[He _] _]]]]]].
  cbn in He. apply recorded_rev. unfold trace. rewrite rev_involutive, El. apply recorded_mono, He, Hn.
Qed.

End Reach.
