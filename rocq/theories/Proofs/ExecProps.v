(** Proofs of the properties of single executions. *)
From Coq Require Import Lia String Permutation.
From Verif Require Import Model.Common Model.Records Model.Jobs Model.TaskSet Model.Dag
     Model.Sched Model.Exec Spec.Graph Spec.Trace
     Proofs.Sets Proofs.SchedFacts Proofs.InvalFacts Proofs.TraceFacts Proofs.ExecInv
     Proofs.ExecStep Proofs.ExecCtl Proofs.LogFacts.
Open Scope nat_scope.
Open Scope list_scope.

(** * C01 *)

Lemma at_most_once : forall c z s pre n post,
  wf_dag (c_dag c) -> reachable c z s -> trace s = pre ++ EBegin n :: post ->
  In n (node_ids (c_dag c)) /\ ~ In (EBegin n) pre /\ ~ In (EBegin n) post.
Proof.
  intros c z s pre n post Hwf HR E.
  destruct (trace_at c z s Hwf HR _ _ _ E) as [[He _] Hl]. cbn [ev_cond] in He.
  split; [|split].
  - eapply launch_ids; [exact Hl|apply He].
  - intros H. apply in_rev in H. exact (proj1 (proj2 He) H).
  - intros H. apply in_split in H. destruct H as [p1 [p2 ->]].
    assert (E' : trace s = (pre ++ EBegin n :: p1) ++ EBegin n :: p2) by (rewrite <- app_assoc; exact E).
    destruct (trace_at c z s Hwf HR _ _ _ E') as [[He' _] _]. cbn [ev_cond] in He'.
    apply (proj1 (proj2 He')). apply -> in_rev. apply in_app_iff. right; left; reflexivity.
Qed.

Lemma recorded_once : forall c z s er,
  wf_dag (c_dag c) -> reachable c z s -> result s = RRecord er ->
  Permutation (map r_node (er_runs er)) (node_ids (c_dag c)) /\
  forall r, In r (er_runs er) ->
    r_task r = node_task (c_dag c) (r_node r) /\ r_name r = node_name (c_dag c) (r_node r).
Proof.
  intros c z s er Hwf HR H. pose proof (r_log c z s Hwf HR) as L.
  rewrite (finished_runs c z s Hwf HR er H). rewrite <- recs_trace.
  destruct (recs_nodup c _ L) as [N1 N2]. split.
  - apply NoDup_Permutation; [exact N1|apply Hwf|]. intros x. split; [apply N2|].
    intros Hx. destruct (finished_recorded c z s Hwf HR er x H Hx) as [r [H1 <-]].
    apply in_map. exact H1.
  - intros r Hr. destruct (rec_at c _ _ L Hr) as [l1 [er' [x [l2 [_ [He _]]]]]]. cbn in He.
    destruct He as [_ [_ [_ [_ [_ [[G1 [G2 _]] _]]]]]]. auto.
Qed.

(** looking up a node of a list without duplicate ids finds it *)
Lemma lookup_found ns x : NoDup (map n_id ns) -> In x ns -> lookup_node ns (n_id x) = Some x.
Proof.
  induction ns as [|y ns IH]; [intros _ []|]. cbn. intros Hn [->|Hx]; [rewrite Nat.eqb_refl; reflexivity|].
  inversion Hn as [|? ? H1 H2]; subst. destruct (n_id y =? n_id x) eqn:E; [|apply IH; assumption].
  apply Nat.eqb_eq in E. destruct H1. rewrite E. apply in_map. exact Hx.
Qed.

Lemma node_lookup : forall c x, wf_dag (c_dag c) -> In x (d_nodes (c_dag c)) ->
  node_task (c_dag c) (n_id x) = n_task x /\ node_name (c_dag c) (n_id x) = n_name x /\
  node_res c (n_id x) = t_resources (c_task c (n_task x)) /\
  node_has_job c (n_id x) = t_has_job (c_task c (n_task x)).
Proof.
  intros c x Hwf Hx. unfold node_res, node_has_job, node_task, node_name.
  rewrite (lookup_found _ x (proj1 Hwf) Hx). auto.
Qed.

Lemma recorded_nodes : forall c z s er,
  wf_dag (c_dag c) -> reachable c z s -> result s = RRecord er ->
  Permutation (map (fun r => (r_node r, r_task r, r_name r)) (er_runs er))
              (map (fun x => (n_id x, n_task x, n_name x)) (d_nodes (c_dag c))).
Proof.
  intros c z s er Hwf HR H. destruct (recorded_once c z s er Hwf HR H) as [P Q].
  set (f := fun n => (n, node_task (c_dag c) n, node_name (c_dag c) n)).
  assert (E1 : map (fun r => (r_node r, r_task r, r_name r)) (er_runs er) = map f (map r_node (er_runs er))).
  { rewrite map_map. apply map_ext_in. intros r Hr. destruct (Q r Hr) as [-> ->]. reflexivity. }
  assert (E2 : map (fun x => (n_id x, n_task x, n_name x)) (d_nodes (c_dag c)) = map f (node_ids (c_dag c))).
  { unfold node_ids. rewrite map_map. apply map_ext_in. intros x Hx. unfold f, node_task, node_name.
    rewrite (lookup_found _ x (proj1 Hwf) Hx). reflexivity. }
  rewrite E1, E2. apply Permutation_map. exact P.
Qed.

(** * C02 *)

Lemma run_after_order : forall c z s a b pre post,
  wf_dag (c_dag c) -> reachable c z s -> runs_after (c_dag c) a b ->
  trace s = pre ++ EBegin a :: post ->
  recorded pre b /\
  (In (EBegin b) pre -> exists o, In (EEnd b o) pre) /\
  ~ In (EBegin b) post.
Proof.
  intros c z s a b pre post Hwf HR Hab E.
  destruct (trace_at c z s Hwf HR _ _ _ E) as [[He _] Hl]. cbn [ev_cond] in He.
  assert (Hrec : recorded_l (rev pre) b) by (apply He, Hab).
  split; [apply recorded_rev, Hrec|]. split.
  - intros Hb. apply in_rev in Hb.
    destruct (recorded_end c _ b Hl Hrec (begin_launch c _ _ Hl Hb)) as [o Ho].
    exists o. apply in_rev. exact Ho.
  - intros H. apply in_split in H. destruct H as [p1 [p2 ->]].
    assert (E' : trace s = (pre ++ EBegin a :: p1) ++ EBegin b :: p2) by (rewrite <- app_assoc; exact E).
    destruct (trace_at c z s Hwf HR _ _ _ E') as [[He' _] _]. cbn [ev_cond] in He'.
    apply He'. rewrite rev_app_distr. apply recorded_app, Hrec.
Qed.

(** * C03 C04 *)

Lemma running_meaning : forall c z s pre post n,
  wf_dag (c_dag c) -> reachable c z s -> trace s = pre ++ post ->
  NoDup (running pre) /\
  (In n (running pre) <-> In (EBegin n) pre /\ ~ exists o, In (EEnd n o) pre).
Proof.
  intros c z s pre post n Hwf HR E. pose proof (trace_prefix c z s Hwf HR _ _ E) as L.
  rewrite <- run_rev. split; [apply (run_l_ok c _ L)|].
  assert (G : In n (run_l (rev pre)) <-> In (EBegin n) (rev pre) /\ ~ ended_l (rev pre) n).
  { clear E. revert L. generalize (rev pre) as log. induction log as [|e log IH]; intros L.
    - cbn. split; [intros []|intros [[] _]].
    - destruct L as [[He _] L]. specialize (IH L). rewrite run_l_cons.
      assert (K : (forall m, e <> EBegin m) -> (forall m o, e <> EEnd m o) ->
                  (In n (run_l log) <-> In (EBegin n) (e :: log) /\ ~ ended_l (e :: log) n)).
      { intros K1 K2. rewrite IH. split; intros [H1 H2]; split.
        - right; exact H1.
        - intros [o' [Ho|Ho]]; [exact (K2 _ _ Ho)|]. apply H2. exists o'. exact Ho.
        - destruct H1 as [H1|H1]; [destruct (K1 _ H1)|exact H1].
        - intros [o' Ho]. apply H2. exists o'. right; exact Ho. }
      destruct e; cbn [track]; try (apply K; discriminate); clear K.
      + cbn in He. split.
        * intros [<-|H].
          -- split; [left; reflexivity|]. intros [o [Ho|Ho]]; [discriminate|].
             apply (proj1 (proj2 He)). eapply end_begin; eassumption.
          -- apply IH in H. destruct H as [H1 H2]. split; [right; exact H1|].
             intros [o [Ho|Ho]]; [discriminate|]. apply H2. exists o. exact Ho.
        * intros [[H1|H1] H2]; [inversion H1; left; reflexivity|]. right. apply IH. split; [exact H1|].
          intros [o Ho]. apply H2. exists o. right; exact Ho.
      + rewrite set_erase_In, IH. split.
        * intros [[H1 H2] H3]. split; [right; exact H1|]. intros [o' [Ho|Ho]]; [inversion Ho; subst; apply H3; reflexivity|].
          apply H2. exists o'. exact Ho.
        * intros [[H1|H1] H2]; [discriminate|]. split; [split; [exact H1|]|].
          -- intros [o' Ho]. apply H2. exists o'. right; exact Ho.
          -- intros ->. apply H2. exists o. left; reflexivity. }
  rewrite G. unfold ended_l. split; intros [H1 H2].
  - split; [apply in_rev, H1|]. intros [o Ho]. apply H2. exists o. apply -> in_rev. exact Ho.
  - split; [apply -> in_rev; exact H1|]. intros [o Ho]. apply H2. exists o. apply in_rev, Ho.
Qed.

Lemma resource_exclusion : forall c z s pre post a b r,
  wf_dag (c_dag c) -> reachable c z s -> trace s = pre ++ post ->
  In a (running pre) -> In b (running pre) ->
  In r (node_res c a) -> In r (node_res c b) -> a = b.
Proof.
  intros c z s pre post a b r Hwf HR E Ha Hb Hra Hrb.
  pose proof (trace_prefix c z s Hwf HR _ _ E) as L.
  destruct (Nat.eq_dec a b) as [|Hne]; [assumption|exfalso].
  destruct (run_l_ok c _ L) as [_ [_ G]]. rewrite run_rev in G.
  exact (G a b Ha Hb Hne r Hra Hrb).
Qed.

Lemma resource_exclusion_nodes : forall c z s pre post x y r,
  wf_dag (c_dag c) -> reachable c z s -> trace s = pre ++ post ->
  In x (d_nodes (c_dag c)) -> In y (d_nodes (c_dag c)) ->
  In (n_id x) (running pre) -> In (n_id y) (running pre) ->
  In r (t_resources (c_task c (n_task x))) -> In r (t_resources (c_task c (n_task y))) -> x = y.
Proof.
  intros c z s pre post x y r Hwf HR E Hx Hy Rx Ry Ux Uy.
  destruct (node_lookup c x Hwf Hx) as (_ & _ & Ex & _). destruct (node_lookup c y Hwf Hy) as (_ & _ & Ey & _).
  assert (Eid : n_id x = n_id y).
  { apply (resource_exclusion c z s pre post (n_id x) (n_id y) r Hwf HR E Rx Ry); [rewrite Ex|rewrite Ey]; assumption. }
  pose proof (lookup_found _ x (proj1 Hwf) Hx) as Lx. pose proof (lookup_found _ y (proj1 Hwf) Hy) as Ly.
  rewrite Eid in Lx. congruence.
Qed.

Lemma concurrency_bound : forall c z s pre post,
  wf_dag (c_dag c) -> reachable c z s -> trace s = pre ++ post ->
  (0 < c_threads c -> List.length (running pre) <= c_threads c) /\
  (c_threads c = 0 -> List.length (running pre) <= 1).
Proof.
  intros c z s pre post Hwf HR E. pose proof (trace_prefix c z s Hwf HR _ _ E) as L.
  destruct (run_l_ok c _ L) as [_ [G _]]. rewrite run_rev in G. lia.
Qed.

Lemma deferred_inside_tick : forall c z s n,
  wf_dag (c_dag c) -> reachable c z s -> c_threads c = 0 ->
  In n (running (trace s)) -> tick_running s = true.
Proof.
  intros c z s n Hwf HR H0 Hn. pose proof (r_inv c z s Hwf HR) as I.
  assert (Hf : s_fut s n = FRunning).
  { apply (k_run _ _ _ _ (i_core _ _ I)). exact Hn. }
  assert (Hd : deferred c = true) by (unfold deferred; rewrite H0; reflexivity).
  destruct (i_defer _ _ I Hd n) as [ph [sl [rest [E _]]]]; [rewrite Hf; exact Logic.I|].
  unfold tick_running. rewrite E. reflexivity.
Qed.

(** * C05 C06 C07 C55 C56 *)

Section Rules.
Variables (c : config) (z : Z) (s : state).
Hypothesis Hwf : wf_dag (c_dag c).
Hypothesis HR : reachable c z s.
Let L : log_ok c (s_log s) := r_log c z s Hwf HR.

Lemma record_facts r : In r (records (trace s)) ->
  let n := r_node r in
  In n (node_ids (c_dag c)) /\
  (forall b, runs_after (c_dag c) n b -> recorded (trace s) b) /\
  match r_status r with
  | DEPF => bad_requirement c (trace s) n /\ ~ In (ELaunch n) (trace s)
            /\ r_retcode r = 0%Z /\ r_output r = []
  | SKIP => ~ Invalidated c n /\ ~ In (ELaunch n) (trace s) /\ r_retcode r = 0%Z /\ r_output r = []
            /\ (requires_after (c_dag c) -> ~ bad_requirement c (trace s) n)
  | OK | FAIL =>
      Invalidated c n /\ In (ELaunch n) (trace s) /\ In (EBegin n) (trace s)
      /\ (requires_after (c_dag c) -> ~ bad_requirement c (trace s) n)
      /\ exists o, In (EEnd n o) (trace s) /\ r_retcode r = rr_retcode (run_lambda o)
                /\ r_output r = rr_output (run_lambda o)
                /\ In (ERunLog n (rr_log (run_lambda o))) (trace s)
                /\ (r_status r = FAIL <-> r_retcode r <> 0%Z)
  end.
Proof.
  intros Hr n. rewrite <- recs_trace in Hr.
  destruct (rec_at c _ _ L Hr) as [l1 [er [x [l2 [El [He Hok2]]]]]]. cbn [ev_cond] in He.
  destruct He as [_ [Hid [_ [_ [Har [[_ [_ Hrec]] _]]]]]]. fold n in Hid, Har, Hrec.
  assert (Hin : forall e, In e l2 -> In e (trace s)).
  { intros e He. apply trace_in. rewrite El. apply in_app_iff. right; right; exact He. }
  assert (Hrin : forall r', In r' (recs l2) -> In r' (records (trace s))).
  { intros r' H. apply recs_In in H. destruct H as [er' [x' H]]. apply records_In. exists er', x'.
    apply Hin, H. }
  assert (Hnl : ~ In (ELaunch n) l2 -> ~ In (ELaunch n) (trace s)).
  { intros H G. apply trace_in in G. rewrite El in G. apply in_app_iff in G.
    destruct G as [G|[G|G]]; [|discriminate|auto].
    apply in_split in G. destruct G as [a [b Eab]]. subst l1.
    pose proof L as L'. rewrite El, <- app_assoc in L'. cbn in L'. apply no_launch_after_record in L'.
    apply L'. apply recorded_app. exists r. split; [|reflexivity]. rewrite recs_after.
    apply in_app_iff. right; left; reflexivity. }
  assert (Hreq : (forall m r', requires (c_dag c) n m -> runs_after (c_dag c) n m -> In r' (recs l2) ->
              r_node r' = m -> is_bad (r_status r') = false) ->
              requires_after (c_dag c) -> ~ bad_requirement c (trace s) n).
  { intros G Hra [b [rb [H1 [H2 [H3 H4]]]]].
    destruct (Har b (Hra _ _ H1)) as [rb' [H5 H6]].
    assert (rb' = rb).
    { eapply rec_unique; [exact L| |rewrite recs_trace; exact H2|congruence]. rewrite recs_trace. apply Hrin, H5. }
    subst rb'. rewrite (G b rb H1 (Hra _ _ H1) H5 H3) in H4. discriminate. }
  split; [exact Hid|]. split.
  { intros b Hb. destruct (Har b Hb) as [rb [H1 H2]]. exists rb. split; [apply Hrin, H1|exact H2]. }
  assert (Hran : Invalidated c n -> In (ELaunch n) l2 ->
    (forall m r', requires (c_dag c) n m -> runs_after (c_dag c) n m -> In r' (recs l2) ->
              r_node r' = m -> is_bad (r_status r') = false) ->
    (exists o, In (EEnd n o) l2 /\ r_retcode r = rr_retcode (run_lambda o)
                /\ r_output r = rr_output (run_lambda o)
                /\ In (ERunLog n (rr_log (run_lambda o))) l2
                /\ (r_status r = FAIL <-> r_retcode r <> 0%Z)) ->
    Invalidated c n /\ In (ELaunch n) (trace s) /\ In (EBegin n) (trace s)
      /\ (requires_after (c_dag c) -> ~ bad_requirement c (trace s) n)
      /\ exists o, In (EEnd n o) (trace s) /\ r_retcode r = rr_retcode (run_lambda o)
                /\ r_output r = rr_output (run_lambda o)
                /\ In (ERunLog n (rr_log (run_lambda o))) (trace s)
                /\ (r_status r = FAIL <-> r_retcode r <> 0%Z)).
  { intros H1 H2 H3 [o [H4 [H5 [H6 [H7 H8]]]]]. split; [exact H1|]. split; [auto|].
    split; [apply Hin; eapply end_begin; eassumption|]. split; [apply Hreq, H3|]. exists o. auto 10. }
  destruct (r_status r) eqn:Est.
  - destruct Hrec as [H1 [H2 [H3 H4]]]. apply Hran; assumption.
  - destruct Hrec as [H1 [H2 [H3 [H4 H5]]]]. split; [exact H1|]. split; [auto|]. split; [exact H4|]. split; [exact H5|].
    apply Hreq. intros m r' Hm _ Hr' E. eapply H2; eassumption.
  - destruct Hrec as [[m [r' [H1 [H2 [H3 H4]]]]] [H5 [H6 H7]]]. split; [|auto].
    exists m, r'. auto.
  - destruct Hrec as [H1 [H2 [H3 H4]]]. apply Hran; assumption.
Qed.

Lemma same_record r r' : In r (records (trace s)) -> In r' (records (trace s)) ->
  r_node r = r_node r' -> r = r'.
Proof. intros. eapply rec_unique; [exact L| | |eassumption]; rewrite recs_trace; assumption. Qed.

Lemma bad_blocks a b :
  requires_after (c_dag c) -> requires (c_dag c) a b ->
  (forall r, In r (records (trace s)) -> r_node r = b -> is_bad (r_status r) = true) ->
  ~ In (ELaunch a) (trace s) /\
  forall r, In r (records (trace s)) -> r_node r = a -> r_status r = DEPF.
Proof.
  intros Hra Hab Hb. split.
  - intros H. apply trace_in in H. destruct (log_in c _ _ L H) as [l1 [l2 [El [[He _] _]]]].
    cbn [ev_cond] in He. destruct He as [_ [_ [_ [Har [_ [_ Hdep]]]]]].
    destruct (Har b (Hra _ _ Hab)) as [r [H1 H2]].
    pose proof (Hdep b r Hab H1 H2) as G. rewrite Hb in G; [discriminate| |exact H2].
    apply records_In. apply recs_In in H1. destruct H1 as [er [x H1]]. exists er, x.
    apply trace_in. rewrite El. apply in_app_iff. right; right; exact H1.
  - intros r Hr E. pose proof (record_facts r Hr) as [_ [Har F]]. cbn zeta in *.
    rewrite E in *. destruct (Har b (Hra _ _ Hab)) as [rb [H1 H2]].
    assert (Hbad : bad_requirement c (trace s) a) by (exists b, rb; auto).
    destruct (r_status r); [|destruct F as [_ [_ [_ [_ F]]]]|reflexivity|]; exfalso; try (apply F; assumption);
      destruct F as [_ [_ [_ [F _]]]]; apply F; assumption.
Qed.
End Rules.

Lemma failed_blocks_dependants : forall c z s a b rb,
  wf_dag (c_dag c) -> requires_after (c_dag c) -> reachable c z s ->
  clos_trans nid (requires (c_dag c)) a b ->
  In rb (records (trace s)) -> r_node rb = b -> is_bad (r_status rb) = true ->
  ~ In (EBegin a) (trace s) /\
  (forall ra, In ra (records (trace s)) -> r_node ra = a -> r_status ra = DEPF) /\
  (forall er, result s = RRecord er ->
     exists ra, In ra (er_runs er) /\ r_node ra = a /\ r_status ra = DEPF).
Proof.
  intros c z s a b rb Hwf Hra HR Hab Hrb Eb Hbad.
  assert (Hall : forall r, In r (records (trace s)) -> r_node r = b -> is_bad (r_status r) = true).
  { intros r Hr E. rewrite (same_record c z s Hwf HR r rb Hr Hrb); congruence. }
  clear rb Hrb Eb Hbad.
  assert (G : ~ In (ELaunch a) (trace s) /\
              forall ra, In ra (records (trace s)) -> r_node ra = a -> r_status ra = DEPF).
  { apply clos_trans_t1n in Hab. induction Hab as [a b Hab|a x b Hax _ IH].
    - eapply bad_blocks; eassumption.
    - eapply bad_blocks; try eassumption. intros r Hr E.
      destruct (IH Hall) as [_ IH']. rewrite (IH' r Hr E). reflexivity. }
  destruct G as [G1 G2]. split; [|split; [exact G2|]].
  - intros H. apply G1. apply trace_in. apply trace_in in H.
    eapply begin_launch; [apply (r_log c z s Hwf HR)|exact H].
  - intros er Her. rewrite (finished_runs c z s Hwf HR er Her).
    destruct (finished_recorded c z s Hwf HR er a Her) as [ra [H1 H2]].
    { apply clos_trans_t1n in Hab. inversion Hab as [y H|y w H]; subst; apply Hwf in H; apply H. }
    exists ra. auto.
Qed.

Lemma status_rule : forall c z s r,
  wf_dag (c_dag c) -> requires_after (c_dag c) -> reachable c z s ->
  In r (records (trace s)) ->
  let n := r_node r in
  (r_status r = DEPF <-> bad_requirement c (trace s) n) /\
  (r_status r = SKIP <-> ~ bad_requirement c (trace s) n /\ ~ Invalidated c n) /\
  (r_status r = OK \/ r_status r = FAIL ->
     exists o, In (EEnd n o) (trace s) /\ r_retcode r = rr_retcode (run_lambda o)
               /\ r_output r = rr_output (run_lambda o)
               /\ (r_status r = FAIL <-> r_retcode r <> 0%Z)) /\
  (r_status r = DEPF \/ r_status r = SKIP -> r_retcode r = 0%Z /\ r_output r = []).
Proof.
  intros c z s r Hwf Hra HR Hr n. pose proof (record_facts c z s Hwf HR r Hr) as [_ [_ F]].
  cbn zeta in F. fold n in F.
  destruct (r_status r) eqn:E.
  - destruct F as [F1 [F2 [F3 [F4 [o F5]]]]]. specialize (F4 Hra). rewrite <- E in F5.
    split; [split; [discriminate|tauto]|]. split; [split; [discriminate|tauto]|]. rewrite E in F5.
    split; [intros _; exists o; intuition|]. intros [H|H]; discriminate.
  - destruct F as [F1 [F2 [F3 [F4 F5]]]]. specialize (F5 Hra).
    split; [split; [discriminate|tauto]|]. split; [tauto|].
    split; [intros [H|H]; discriminate|]. auto.
  - destruct F as [F1 [F2 [F3 F4]]].
    split; [tauto|]. split; [split; [discriminate|tauto]|].
    split; [intros [H|H]; discriminate|]. auto.
  - destruct F as [F1 [F2 [F3 [F4 [o F5]]]]]. specialize (F4 Hra).
    split; [split; [discriminate|tauto]|]. split; [split; [discriminate|tauto]|].
    split; [intros _; exists o; intuition|]. intros [H|H]; discriminate.
Qed.

Lemma executed_iff_status : forall c z s er n,
  wf_dag (c_dag c) -> reachable c z s -> result s = RRecord er -> In n (node_ids (c_dag c)) ->
  (In (EBegin n) (trace s) <->
   exists r, In r (er_runs er) /\ r_node r = n /\ (r_status r = OK \/ r_status r = FAIL)).
Proof.
  intros c z s er n Hwf HR H Hn. rewrite (finished_runs c z s Hwf HR er H).
  destruct (finished_recorded c z s Hwf HR er n H Hn) as [r [Hr Er]].
  pose proof (record_facts c z s Hwf HR r Hr) as [_ [_ F]]. cbn zeta in F. rewrite Er in F.
  assert (Hbl : In (EBegin n) (trace s) -> In (ELaunch n) (trace s)).
  { intros G. apply trace_in. apply trace_in in G.
    eapply begin_launch; [apply (r_log c z s Hwf HR)|exact G]. }
  split.
  - intros Hb. exists r. split; [exact Hr|]. split; [exact Er|].
    destruct (r_status r); auto; exfalso; exact (proj1 (proj2 F) (Hbl Hb)).
  - intros [r' [Hr' [Er' Hs]]].
    rewrite (same_record c z s Hwf HR r' r Hr' Hr) in Hs by congruence.
    destruct Hs as [E|E]; rewrite E in F; apply F.
Qed.

Lemma not_executed_when_blocked : forall c z s r,
  wf_dag (c_dag c) -> reachable c z s -> In r (records (trace s)) ->
  r_status r = SKIP \/ r_status r = DEPF -> ~ In (EBegin (r_node r)) (trace s).
Proof.
  intros c z s r Hwf HR Hr Hs Hb. pose proof (record_facts c z s Hwf HR r Hr) as [_ [_ F]]. cbn zeta in F.
  assert (Hl : In (ELaunch (r_node r)) (trace s)).
  { apply trace_in. apply trace_in in Hb. eapply begin_launch; [apply (r_log c z s Hwf HR)|exact Hb]. }
  destruct Hs as [E|E]; rewrite E in F; exact (proj1 (proj2 F) Hl).
Qed.

Lemma skip_closed : forall c z s er a b,
  wf_dag (c_dag c) -> requires_after (c_dag c) -> reachable c z s -> result s = RRecord er ->
  (forall a b, requires (c_dag c) a b -> inval_by (c_dag c) a b) ->
  clos_trans nid (fun x y => requires (c_dag c) x y) a b ->
  (exists r, In r (er_runs er) /\ r_node r = a /\ r_status r = SKIP) ->
  exists r, In r (er_runs er) /\ r_node r = b /\ r_status r = SKIP.
Proof.
  intros c z s er a b Hwf Hra HR H Hri Hab Ha.
  rewrite (finished_runs c z s Hwf HR er H) in *. apply clos_trans_t1n in Hab.
  assert (Step : forall x y, requires (c_dag c) x y ->
    (exists r, In r (records (trace s)) /\ r_node r = x /\ r_status r = SKIP) ->
    exists r, In r (records (trace s)) /\ r_node r = y /\ r_status r = SKIP).
  { intros x y Hxy [r [H1 [H2 H3]]].
    pose proof (record_facts c z s Hwf HR r H1) as [_ [_ F]]. cbn zeta in F. rewrite H3, H2 in F.
    destruct F as [F1 [_ [_ [_ F2]]]]. specialize (F2 Hra).
    destruct (finished_recorded c z s Hwf HR er y H) as [ry [G1 G2]]; [apply Hwf in Hxy; apply Hxy|].
    exists ry. split; [exact G1|]. split; [exact G2|].
    pose proof (record_facts c z s Hwf HR ry G1) as [_ [_ F]]. cbn zeta in F. rewrite G2 in F.
    assert (Hbad : is_bad (r_status ry) = true -> False) by (intros B; apply F2; exists y, ry; auto).
    assert (Hinv : Invalidated c y -> False).
    { intros [w [Hw Hj]]. apply F1. exists w. split; [|exact Hj].
      eapply rt_trans; [apply rt_step, Hri, Hxy|exact Hw]. }
    destruct (r_status ry).
    - destruct Hinv. apply F.
    - reflexivity.
    - destruct Hbad. reflexivity.
    - destruct Hbad. reflexivity. }
  induction Hab as [a b Hab|a x b Hax _ IH]; eauto.
Qed.
