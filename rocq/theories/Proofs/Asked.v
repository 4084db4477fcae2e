(** C09: the questions exec asks the jobs. *)
From Coq Require Import Lia String.
From Verif Require Import Model.Common Model.Records Model.Jobs Model.TaskSet Model.Dag
     Model.Sched Model.Exec Spec.Graph Spec.Trace
     Proofs.Sets Proofs.SchedFacts Proofs.InvalFacts Proofs.TraceFacts Proofs.ExecInv Proofs.LogFacts
     Proofs.ExecStep Proofs.ExecCtl Proofs.ExecProps2 Proofs.ExecProps3 Proofs.StepCases Proofs.Ticks.
Open Scope nat_scope.
Open Scope list_scope.

Lemma inval_ask c log n v t : log_ok c log -> In (EInval n v t) log -> In (EAsk n) log.
Proof.
  intros L H. destruct (log_in c _ _ L H) as [l1 [l2 [-> [[He _] _]]]]. cbn [ev_cond] in He.
  destruct He as [_ [_ [_ [_ [_ [l ->]]]]]]. apply in_app_iff. cbn. auto.
Qed.

Lemma inval_answer c log n v t : log_ok c log -> In (EInval n v t) log -> exists b, c_inval c n = IvRet b t.
Proof.
  intros L H. destruct (log_in c _ _ L H) as [l1 [l2 [-> [[He _] _]]]]. cbn [ev_cond] in He.
  destruct He as [_ [_ [_ [_ [[b [E _]] _]]]]]. eauto.
Qed.

(** What may follow a question. *)
Lemma after_ask c log n e : log_ok c (e :: EAsk n :: log) ->
  (exists v t, e = EInval n v t) \/ e = EDestroyed.
Proof.
  intros [[He _] L]. pose proof L as L0. destruct L as [[Ha _] L].
  assert (NI : forall v t, ~ In (EInval n v t) (EAsk n :: log)).
  { intros v t [H|H]; [discriminate|]. cbn [ev_cond] in Ha. apply (proj1 (proj2 Ha)).
    eapply inval_ask; eassumption. }
  assert (Hn : In n (node_ids (c_dag c))) by (cbn [ev_cond] in Ha; apply Ha).
  assert (NS : ~ startup_done c (EAsk n :: log)).
  { intros [A _]. destruct (A n Hn) as [_ [v [t H]]]. exact (NI v t H). }
  assert (NB : forall m, ~ before_l (EAsk n :: log) m).
  { intros m [er H]. apply NS. eapply before_startup; eassumption. }
  assert (NE : Forall (fun x => is_enque x = true) (EAsk n :: log) -> False).
  { intros F. inversion F; discriminate. }
  destruct e; cbn [ev_cond] in He; auto.
  - exfalso. apply NE, He.
  - exfalso. apply NE, He.
  - left. destruct He as [_ [_ [_ [_ [_ [l E]]]]]]. inversion E; subst. eauto.
  - exfalso. destruct He as [_ [_ [_ [_ [_ [A _]]]]]]. destruct (A n Hn) as [_ [v [t H]]]. exact (NI v t H).
  - exfalso. apply NS, He.
  - exfalso. apply NS, He.
  - exfalso. eapply NB, He.
  - exfalso. destruct He as [He _]. eapply NB. eapply launch_before; eassumption.
  - exfalso. destruct He as [He _]. eapply NB. eapply launch_before; [exact L0|]. eapply begin_launch; eassumption.
  - exfalso. destruct He as [He _]. eapply NB. eapply launch_before; eassumption.
  - exfalso. eapply NB, He.
  - exfalso. eapply NB, He.
  - exfalso. destruct He as [_ He]. destruct (He n Hn) as [r [Hr _]].
    apply recs_In in Hr. destruct Hr as [er' [x Hr]].
    destruct (log_in c _ _ L0 Hr) as [l1 [l2 [E [[Hc _] _]]]]. cbn [ev_cond] in Hc.
    destruct Hc as [_ [_ [[er2 Hb] _]]]. apply (NB (r_node r)). exists er2. rewrite E. apply in_app_iff. cbn. auto.
  - exfalso. destruct He as [_ [_ [_ [_ [A _]]]]]. destruct (A n) as [v [t H]]; [left; reflexivity|]. exact (NI v t H).
Qed.

(** Between two steps the last thing done, but for the destructor, is a question only if
    its job threw. *)
Definition ask_head (c : config) (s : state) : Prop :=
  forall n l, s_log s = EAsk n :: l \/ s_log s = EDestroyed :: EAsk n :: l -> c_inval c n = IvThrow.

Lemma act_no_ask c s new n : asked c (s_log s) -> In n (node_ids (c_dag c)) ->
  log_ok c (new ++ s_log s) -> ~ In (EAsk n) new.
Proof.
  intros A Hn L H. apply in_split in H. destruct H as [a [b ->]]. rewrite <- app_assoc in L. cbn in L.
  apply log_ok_app in L. destruct L as [[He _] L]. cbn [ev_cond] in He. apply (proj1 (proj2 He)).
  apply in_app_iff. right. apply log_ok_app in L.
  destruct (A n Hn) as [_ [v [t H]]]. eapply inval_ask; eassumption.
Qed.

Lemma log2_head c pre e l : log2 c pre = e :: l ->
  (forall x, In x pre -> answers (node_has_job c) (c_inval c) x) ->
  (forall n, e <> EAsk n) /\ e <> EDestroyed.
Proof.
  intros E Ha. unfold log2 in E.
  destruct pre as [|x pre _] using rev_ind; cbn in E.
  - unfold log1 in E. assert (H : In e (rev (map EEnque (node_ids (c_dag c))))) by (rewrite E; left; reflexivity).
    apply in_rev, in_map_iff in H. destruct H as [y [<- _]]. split; discriminate.
  - rewrite flat_map_app, map_app, rev_app_distr in E. cbn [flat_map app] in E. rewrite app_nil_r in E.
    destruct (Ha x) as [_ Hx]; [apply in_app_iff; cbn; auto|]. unfold ans_event at 1 in E.
    destruct (c_inval c x); [|congruence]. cbn in E. inversion E; subst. split; discriminate.
Qed.

Lemma ask_head_start c s : wf_dag (c_dag c) -> Inv c s -> s_pc s = Created -> ask_head c (start c s).
Proof.
  intros Hwf HI Epc n l E. destruct (start_spec c Hwf s HI Epc) as [R _].
  inversion R as [? ? cyc L1 L2 L3|? ? m pre post L2 L1 L3 L4 L5 L6 L7|? ? m pre post L2 L1 L3 L4 L5 L6 L7 L8
                 |? ? s1 evd todo E1 T L1 L2 L3 L4 L5 L6 L7 L8 L9]; subst.
  - rewrite L1 in E. destruct E; discriminate.
  - exfalso. rewrite L1 in E. destruct E as [E|E]; destruct (log2_head c pre _ _ E L6) as [G1 G2];
      [exact (G1 n eq_refl)|exact (G2 eq_refl)].
  - rewrite L1 in E. destruct E as [E|E]; inversion E; subst. exact L5.
  - exfalso. rewrite E1 in E. unfold main_top, drain_top in E. rewrite L5 in E.
    destruct (s_todo s1); destruct E; discriminate.
Qed.

Lemma ask_head_step c s l s' : wf_dag (c_dag c) -> Inv c s -> step c s l = Some s' ->
  ask_head c s -> ask_head c s'.
Proof.
  intros Hwf HI E H.
  pose proof (step_inv c Hwf s l s' HI E) as HI'.
  pose proof (k_log _ _ _ _ (i_core _ _ HI')) as L'.
  destruct (step_log c s l s' Hwf HI E) as [new En].
  assert (G : (forall n, In n (node_ids (c_dag c)) -> ~ In (EAsk n) new) -> ask_head c s').
  { intros N n l0 E0.
    assert (Hid : In n (node_ids (c_dag c))).
    { destruct E0 as [E0|E0]; rewrite E0 in L'; [|destruct L' as [_ L']]; destruct L' as [[He _] _];
        cbn [ev_cond] in He; apply He. }
    specialize (N n Hid). rewrite En in E0. destruct new as [|e new]; [exact (H n l0 E0)|].
    cbn in E0. destruct E0 as [E0|E0]; inversion E0; subst; [destruct N; left; reflexivity|].
    destruct new as [|e new]; [|cbn in *; inversion E0; subst; destruct N; right; left; reflexivity].
    apply (H n l0). left. assumption. }
  pose proof (i_pc _ _ HI) as P. unfold pc_inv in P.
  assert (Gact : asked c (s_log s) -> ask_head c s').
  { intros A. apply G. intros n Hn. apply (act_no_ask c s new n A Hn). rewrite <- En. exact L'. }
  assert (Gin : inactive (s_pc s) -> ask_head c s').
  { intros Hp. apply G. intros n _ Hi. destruct (inactive_step c s l s' Hp E) as [_ [new' [En' Hl]]].
    rewrite En in En'. apply app_inv_tail in En'. subst new'. exact (Hl _ Hi). }
  destruct (s_pc s) as [|ph|ph kept rest|e rest|rest| | | |] eqn:Epc;
    try (apply Gin; rewrite ?Epc; exact I).
  - destruct P as (_ & _ & _ & Pc & Pf & _ & Pl).
    destruct l; cbn [step] in E.
    + unfold tick in E. rewrite Epc in E. inversion E; subst. apply ask_head_start; assumption.
    + rewrite Epc in E. inversion E; subst. exact H.
    + unfold ctl in E. rewrite Epc in E. discriminate.
    + unfold ctl in E. rewrite Epc in E. discriminate.
    + rewrite Epc in E. destruct (tick c s) as [s1|] eqn:E1; [|discriminate].
      unfold visitor_throws in E. unfold tick in E1. rewrite Epc in E1. inversion E1; subst s1.
      destruct (new_start c Hwf s HI Epc) as [cb [nb V]].
      assert (Enew : rev (firstn (List.length (s_log (start c s)) - List.length (s_log s)) (s_log (start c s))) = cb ++ nb).
      { rewrite (v_log _ _ _ _ _ V), app_length.
        replace (List.length (rev (cb ++ nb)) + List.length (s_log s) - List.length (s_log s))
          with (List.length (rev (cb ++ nb)) + 0) by lia.
        rewrite firstn_app_2. cbn. rewrite app_nil_r, rev_involutive. reflexivity. }
      rewrite Enew in E. destruct (cut_at k (cb ++ nb)) as [es|] eqn:Ecut; [|discriminate].
      destruct (cut_at_prefix cb nb (v_cb _ _ _ _ _ V) (v_nb _ _ _ _ _ V) k es Ecut) as [es' [e [post [Ees [Ecb He]]]]].
      intros n l0 E0. inversion E; subst s'. rewrite emits_eq in E0. cbn in E0.
      rewrite Ees, rev_app_distr in E0. cbn in E0. destruct E0 as [E0|E0]; inversion E0; subst; discriminate.
    + rewrite Pf in E. discriminate.
    + rewrite Pf in E. discriminate.
    + inversion E; subst. exact H.
  - apply Gact. destruct P as [A _]. apply (a_start _ _ _ _ _ _ _ _ A).
  - apply Gact. destruct P as [A _]. apply (a_start _ _ _ _ _ _ _ _ A).
Qed.

Lemma ask_head_reach c z s : wf_dag (c_dag c) -> reachable c z s -> ask_head c s.
Proof.
  intros Hwf [ls E].
  assert (G : forall ls s0 s1, Inv c s0 -> ask_head c s0 -> run_labels c s0 ls = Some s1 -> ask_head c s1).
  { clear - Hwf. induction ls as [|l ls IH]; intros s0 s1 HI H E; [inversion E; subst; exact H|].
    cbn in E. destruct (step c s0 l) as [s2|] eqn:E1; [|discriminate].
    eapply IH; [eapply step_inv; eassumption|eapply ask_head_step; eassumption|exact E]. }
  eapply G; [apply inv_init| |exact E]. intros n l [H|H]; discriminate.
Qed.

(** * The statements *)

Lemma ask_once : forall c z s pre n post,
  wf_dag (c_dag c) -> reachable c z s -> trace s = pre ++ EAsk n :: post ->
  In n (node_ids (c_dag c)) /\ ~ In (EAsk n) pre /\ ~ In (EAsk n) post /\
  (forall m, In m (node_ids (c_dag c)) -> In (EEnque m) pre) /\
  (forall e, In e pre -> ~ job_activity e).
Proof.
  intros c z s pre n post Hwf HR E.
  destruct (trace_at c z s Hwf HR _ _ _ E) as [[He _] Hl]. cbn [ev_cond] in He.
  destruct He as [H1 [H2 [H3 [[H4 _] _]]]]. split; [exact H1|].
  split; [intros H; apply H2; apply -> in_rev; exact H|]. split; [|split].
  - intros H. apply in_split in H. destruct H as [p1 [p2 ->]].
    assert (E' : trace s = (pre ++ EAsk n :: p1) ++ EAsk n :: p2) by (rewrite <- app_assoc; exact E).
    destruct (trace_at c z s Hwf HR _ _ _ E') as [[He' _] _]. cbn [ev_cond] in He'.
    apply (proj1 (proj2 He')). apply -> in_rev. apply in_app_iff. right; left; reflexivity.
  - intros m Hm. apply in_rev, H4, Hm.
  - intros e H Hj. apply in_rev in H. rewrite Forall_forall in H3. specialize (H3 _ H).
    destruct e; cbn in *; try contradiction; discriminate.
Qed.

Lemma ask_followed : forall c z s pre n post,
  wf_dag (c_dag c) -> reachable c z s -> trace s = pre ++ EAsk n :: post ->
  match c_inval c n with
  | IvRet b t => exists post', post = EInval n (if b then INVALID else VALID) t :: post'
  | IvThrow => post = [] \/ post = [EDestroyed]
  end.
Proof.
  intros c z s pre n post Hwf HR E.
  destruct post as [|e post].
  - assert (H : c_inval c n = IvThrow).
    { apply (ask_head_reach c z s Hwf HR n (rev pre)). left. unfold trace in E.
      rewrite <- (rev_involutive (s_log s)), E, rev_app_distr. reflexivity. }
    rewrite H. auto.
  - assert (E' : trace s = (pre ++ [EAsk n]) ++ e :: post) by (rewrite <- app_assoc; exact E).
    destruct (trace_at c z s Hwf HR _ _ _ E') as [He Hl].
    rewrite rev_app_distr in He, Hl. cbn [rev app] in He, Hl.
    destruct (after_ask c (rev pre) n e (conj He Hl)) as [[v [t ->]]| ->].
    + destruct He as [He _]. cbn [ev_cond] in He. destruct He as [_ [_ [_ [_ [[b [-> ->]] _]]]]]. eauto.
    + assert (post = []) as ->.
      { destruct post as [|e post]; [reflexivity|].
        assert (E2 : trace s = (pre ++ [EAsk n; EDestroyed]) ++ e :: post) by (rewrite <- app_assoc; exact E).
        destruct (trace_at c z s Hwf HR _ _ _ E2) as [[_ [He2 _]] _]. exfalso. apply He2.
        apply -> in_rev. apply in_app_iff. cbn. auto. }
      destruct (c_inval c n) as [b t|] eqn:Ea; [|auto]. exfalso.
      assert (H : c_inval c n = IvThrow); [|congruence].
      apply (ask_head_reach c z s Hwf HR n (rev pre)). right. unfold trace in E.
      rewrite <- (rev_involutive (s_log s)), E, rev_app_distr. reflexivity.
Qed.

Lemma ask_before_jobs : forall c z s pre e post n,
  wf_dag (c_dag c) -> reachable c z s -> trace s = pre ++ e :: post -> job_activity e ->
  (In n (node_ids (c_dag c)) -> In (EAsk n) pre) /\ ~ In (EAsk n) post.
Proof.
  intros c z s pre e post n Hwf HR E Hj.
  destruct (trace_at c z s Hwf HR _ _ _ E) as [[He _] Hl].
  assert (Hall : forall m, In m (node_ids (c_dag c)) -> In (EAsk m) pre).
  { assert (Hs : startup_done c (rev pre)).
    { assert (Hb : exists m, before_l (rev pre) m).
      { destruct e; try contradiction; cbn [ev_cond] in He.
        - exists n0. apply He.
        - exists n0. destruct He as [He _]. eapply launch_before; eassumption.
        - exists n0. destruct He as [He _]. eapply launch_before; [exact Hl|]. eapply begin_launch; eassumption. }
      destruct Hb as [m [er Hb]]. eapply before_startup; eassumption. }
    intros m Hm. destruct Hs as [A _]. destruct (A m Hm) as [_ [v [t H]]].
    apply in_rev. eapply inval_ask; eassumption. }
  split; [apply Hall|]. intros H. apply in_split in H. destruct H as [p1 [p2 ->]].
  assert (E' : trace s = (pre ++ e :: p1) ++ EAsk n :: p2) by (rewrite <- app_assoc; exact E).
  destruct (ask_once c z s _ _ _ Hwf HR E') as (Hn & Hp & _). apply Hp. apply in_app_iff. left. apply Hall, Hn.
Qed.

Lemma ask_acyclic : forall c z s n,
  wf_dag (c_dag c) -> reachable c z s -> In (EAsk n) (trace s) -> ~ has_after_cycle (c_dag c).
Proof.
  intros c z s n Hwf HR H. apply trace_in in H.
  destruct (log_in c _ _ (r_log c z s Hwf HR) H) as [l1 [l2 [_ [[He _] _]]]]. cbn [ev_cond] in He. apply He.
Qed.

Lemma ask_all : forall c z s er n,
  wf_dag (c_dag c) -> reachable c z s -> result s = RRecord er -> In n (node_ids (c_dag c)) ->
  In (EAsk n) (trace s).
Proof.
  intros c z s er n Hwf HR Hres Hn. pose proof (r_inv c z s Hwf HR) as HI. pose proof (r_log c z s Hwf HR) as L.
  pose proof (i_pc _ _ HI) as P. unfold pc_inv in P. unfold result in Hres.
  destruct (s_pc s) eqn:Epc; try discriminate. destruct P as [_ [l E]].
  assert (Hr : recorded_l l n).
  { rewrite E in L. destruct L as [[He _] _]. cbn [ev_cond] in He. apply He, Hn. }
  destruct Hr as [r [Hr _]]. apply recs_In in Hr. destruct Hr as [er' [x Hr]].
  assert (Hr' : In (EAfterRun er' r x) (s_log s)) by (rewrite E; right; exact Hr).
  destruct (log_in c _ _ L Hr') as [l1 [l2 [E2 [[Hc _] L2]]]]. cbn [ev_cond] in Hc.
  destruct Hc as [_ [_ [[er2 Hb] _]]].
  destruct (proj1 (before_startup c _ _ _ L2 Hb) n Hn) as [_ [v [t H]]].
  apply trace_in. rewrite E2. apply in_app_iff. right; right. eapply inval_ask; eassumption.
Qed.

Lemma ask_thrower : forall c z s n,
  wf_dag (c_dag c) -> reachable c z s -> result s = RThrow (ExcInval n) ->
  c_inval c n = IvThrow /\ exists pre, trace s = pre ++ [EAsk n].
Proof.
  intros c z s n Hwf HR Hres. pose proof (r_inv c z s Hwf HR) as HI.
  pose proof (i_pc _ _ HI) as P. unfold pc_inv in P. unfold result in Hres.
  destruct (s_pc s) eqn:Epc; try discriminate. inversion Hres; subst. destruct P as [_ [_ [P [_ [l E]]]]].
  split; [exact P|]. exists (rev l). unfold trace. rewrite E. reflexivity.
Qed.

(** * after_dep_inval *)

Lemma dep_report : forall c z s pre n m post,
  wf_dag (c_dag c) -> reachable c z s -> trace s = pre ++ EDepInval n m :: post ->
  inval_by (c_dag c) n m /\
  (exists t, In (EInval n VALID t) pre) /\
  ((exists t, In (EInval m INVALID t) pre) \/ exists p, In (EDepInval m p) pre) /\
  (forall k, In k (node_ids (c_dag c)) -> exists v t, In (EInval k v t) pre) /\
  (forall er, ~ In (EOnTick er) pre).
Proof.
  intros c z s pre n m post Hwf HR E.
  destruct (trace_at c z s Hwf HR _ _ _ E) as [[He _] Hl]. cbn [ev_cond] in He.
  destruct He as [H1 [H2 [_ [_ [H5 [H6 [H7 _]]]]]]].
  assert (G : forall e, In e (rev pre) -> In e pre) by (intros e; apply in_rev).
  split; [exact H1|]. split; [|split; [|split]].
  - destruct (H6 n (proj1 (proj2 Hwf _ H1))) as [_ [v [t H]]]. exists t.
    assert (H0 := H). destruct (log_in c _ _ Hl H) as [l1 [l2 [_ [[Hc _] _]]]]. cbn [ev_cond] in Hc.
    destruct Hc as [_ [_ [_ [_ [[b [Hb ->]] _]]]]]. destruct b; [|apply G, H0].
    destruct H2. exists t. exact Hb.
  - destruct H7 as [[t H]|[p H]]; [left|right]; eauto.
  - intros k Hk. destruct (H6 k Hk) as [_ [v [t H]]]. eauto.
  - intros er H. rewrite Forall_forall in H5. apply in_rev in H. specialize (H5 _ H). discriminate.
Qed.

Lemma dep_reports_once : forall c z s n m,
  wf_dag (c_dag c) -> reachable c z s -> dep_reports n m (trace s) <= inval_edges (c_dag c) n m.
Proof.
  intros c z s n m Hwf HR. pose proof (r_log c z s Hwf HR) as L.
  assert (F : forall f (l : list event), List.length (filter f (rev l)) = List.length (filter f l)).
  { intros f l. induction l as [|x l IH]; [reflexivity|]. cbn. rewrite filter_app, app_length, IH.
    cbn. destruct (f x); cbn; lia. }
  unfold dep_reports, trace. rewrite F. induction (s_log s) as [|e l IH]; [cbn; lia|].
  destruct L as [[He _] L]. cbn [filter]. destruct e; try exact (IH L).
  destruct ((n0 =? n) && (m0 =? m)) eqn:Eb; [|exact (IH L)].
  apply andb_prop in Eb. destruct Eb as [E1 E2]. apply Nat.eqb_eq in E1, E2. subst.
  cbn [ev_cond] in He. destruct He as [_ [_ [_ [_ [_ [_ [_ He]]]]]]]. exact He.
Qed.
