(** When a job is polled (C115). *)
From Coq Require Import Lia String Permutation Relations.
From Verif Require Import Model.Common Model.Records Model.Jobs Model.TaskSet Model.Dag
     Model.Sched Model.Exec Spec.Graph Spec.Trace Spec.Parallel Spec.Polls
     Proofs.Sets Proofs.SchedFacts Proofs.InvalFacts Proofs.TraceFacts Proofs.ExecInv
     Proofs.ExecStep Proofs.ExecCtl Proofs.LogFacts Proofs.ExecProps Proofs.ExecProps2
     Proofs.StepCases Proofs.ExecProps3 Proofs.Ticks Proofs.Dispatch Proofs.MachineFacts
     Proofs.ParallelFacts Proofs.Between.
Open Scope nat_scope.
Open Scope list_scope.

Definition b2n (b : bool) : nat := if b then 1 else 0.

(** [H]: the states in which tick() was called. *)
Definition Q (u : nid) (H : list state) (s : state) : Prop :=
  match s_pc s with
  | Created => H = [] /\ tmu u (s_log s) = 0
  | Suspended _ => tmu u (s_log s) = cw u H + b2n (waitl u (live s))
  | Clean _ kept _ => tmu u (s_log s) = cw u H + b2n (waitl u kept)
  | Finished => tmu u (s_log s) = cw u H
  | _ => True
  end.

Lemma tmu_log3 c u evd todo : tmu u (log3 c evd todo) = 0.
Proof.
  unfold tmu. replace (filter _ (log3 c evd todo)) with (@nil event); [reflexivity|]. symmetry.
  assert (G : forall l, (forall e, In e l -> match e with ETimeout m => m =? u | _ => false end = false) ->
    filter (fun e => match e with ETimeout m => m =? u | _ => false end) l = []).
  { induction l as [|e l IH]; intros Hl; [reflexivity|]. cbn [filter]. rewrite (Hl e (or_introl eq_refl)). apply IH. intros x Hx. apply Hl. right. exact Hx. }
  apply G. intros e He. unfold log3, log2, log1 in He.
  repeat (apply in_app_iff in He; destruct He as [He|He]); apply in_rev in He; apply in_map_iff in He; destruct He as (x & <- & _);
    [destruct x; reflexivity|destruct x; reflexivity|reflexivity].
Qed.

Lemma Q_tick c u H s s' : wf_dag (c_dag c) -> Inv c s -> Q u H s -> tick c s = Some s' -> Q u (H ++ [s]) s'.
Proof.
  intros Hwf HI HQ E. pose proof (i_pc _ _ HI) as P. unfold pc_inv in P.
  unfold tick in E. unfold Q in HQ. destruct (s_pc s) as [|ph| | | | | | |] eqn:Epc; try discriminate.
  - destruct HQ as [-> HQ]. assert (Hcw : cw u ([] ++ [s]) = 0).
    { destruct P as (_ & _ & _ & Pc & _). rewrite cw_app. unfold live. rewrite Epc, Pc. reflexivity. }
    inversion E; subst s'. destruct (start_spec c Hwf s HI Epc) as [R [_ [Rc _]]].
    inversion R as [? ? cyc L1 L2 L3|? ? m pre post L2 L1 L3 L4 L5 L6 L7|? ? m pre post L2 L1 L3 L4 L5 L6 L7
               |? ? s1 evd todo Es T1 El Ep Et Hso Ec].
    + unfold Q. rewrite L2. exact I.
    + unfold Q. rewrite L2. exact I.
    + unfold Q. rewrite L2. exact I.
    + subst. rewrite Es. unfold main_top, drain_top. rewrite Ec.
      destruct (s_todo s1) as [|x xs] eqn:Et; unfold Q; cbn [s_pc set_pc emit s_log]; rewrite tmu_cons, El, tmu_log3, Hcw; reflexivity.
  - assert (Hlive : live s = map sl_coro (s_coros s)) by (unfold live; rewrite Epc; reflexivity).
    assert (Hc : cw u (H ++ [s]) = tmu u (s_log s)) by (rewrite cw_app, HQ; unfold b2n; reflexivity).
    assert (D : Q u (H ++ [s]) (drain_top s)).
    { unfold drain_top, Q. destruct (s_coros s) as [|sl cs] eqn:Ec; cbn [s_pc set_pc s_log emit].
      - rewrite tmu_cons, Hc. reflexivity.
      - rewrite Hc. cbn. lia. }
    destruct ph; inversion E; subst s'; [|exact D].
    unfold main_top. destruct (s_todo s) as [|x xs] eqn:Et; [exact D|].
    unfold Q. cbn [s_pc set_pc s_log emit]. rewrite tmu_cons, Hc. cbn. lia.
  - inversion E; subst s'. exact I.
  - inversion E; subst s'. exact I.
Qed.

Lemma Q_env u H s s' e : Q u H s -> s_pc s' = s_pc s -> s_coros s' = s_coros s -> s_log s' = e :: s_log s ->
  (forall m, e <> ETimeout m) -> Q u H s'.
Proof.
  unfold Q, live. intros HQ -> -> El He. rewrite El, tmu_cons.
  assert (E : (match e with ETimeout m => if m =? u then 1 else 0 | _ => 0 end) = 0) by (destruct e; try reflexivity; destruct (He n); reflexivity).
  rewrite E. exact HQ.
Qed.

Lemma Q_complete u H s s0 ph kept sl rest rec e :
  Q u H s -> s_pc s = Clean ph kept (sl :: rest) -> s_log s0 = e :: s_log s -> (forall m, e <> ETimeout m) ->
  Q u H (complete s0 ph kept sl rest rec).
Proof.
  intros HQ Epc El He. unfold Q in *. rewrite Epc in HQ. unfold complete. cbn [s_pc set_pc s_log emit set_erec] in *.
  rewrite !tmu_cons, El, tmu_cons, HQ.
  assert (E : (match e with ETimeout m => if m =? u then 1 else 0 | _ => 0 end) = 0) by (destruct e; try reflexivity; destruct (He n); reflexivity).
  rewrite E. reflexivity.
Qed.

Lemma waitl_app u a b : waitl u (a ++ b) = waitl u a || waitl u b.
Proof. unfold waitl. apply existsb_app. Qed.

Lemma Q_ctl c u H s s' : wf_dag (c_dag c) -> Inv c s -> Q u H s -> ctl c s true = Some s' -> Q u H s'.
Proof.
  intros Hwf HI HQ E. pose proof (i_pc _ _ HI) as P. unfold pc_inv in P.
  destruct (ctl_cases c s s' HI E) as
      [ph kept sl rest n s' Epc Esl _ Es|ph kept sl rest n s' Epc Esl _ _ Es
      |ph kept sl rest n s1 s' Epc Esl _ _ Es1 Es|ph kept sl rest n rec s' Epc Esl _ Es
      |ph kept sl rest n rec s' Epc Esl _ Es|ph kept sl rest n rec o s1 s2 s' Epc Esl _ Es1 Es2 Es
      |kept s1 s' Epc Es1 Es|kept s1 s' Epc Es1 Es|e s' Epc Es|e sl rest s' Epc _ Es|s' Epc Es|sl rest s' Epc _ Es].
  - subst s'. eapply (Q_complete u H s _ ph kept sl rest); [exact HQ|exact Epc|reflexivity|discriminate].
  - subst s'. eapply (Q_complete u H s _ ph kept sl rest); [exact HQ|exact Epc|reflexivity|discriminate].
  - subst s' s1. unfold Q in *. rewrite Epc in HQ. cbn [s_pc set_pc s_log emit set_fut set_used set_started set_ns] in *.
    rewrite !tmu_cons. exact HQ.
  - subst s'. eapply (Q_env u H s); [exact HQ|reflexivity|reflexivity|reflexivity|discriminate].
  - rewrite Epc in P. destruct P as [A _]. subst s'. unfold Q in *. rewrite Epc in HQ. cbn [s_pc set_pc s_log emit] in *.
    rewrite tmu_cons, HQ, waitl_app, waitl_cons. cbn [co_node freshc co_st negb waitl existsb]. rewrite andb_true_r, orb_false_r.
    destruct (n =? u) eqn:En; [|rewrite orb_false_r; unfold b2n; lia].
    apply Nat.eqb_eq in En. subst u.
    assert (Hw : waitl n kept = false).
    { destruct (waitl n kept) eqn:Ew; [|reflexivity]. exfalso. apply waitl_In in Ew. destruct Ew as [rec' Ew].
      pose proof (act_nodup c _ _ _ _ _ _ _ (proj1 Hwf) A) as N. apply NoDup_app_iff in N. destruct N as [_ [N _]].
      apply NoDup_app_iff in N. destruct N as [N _]. unfold live in N. rewrite Epc, map_app in N. apply NoDup_app_iff in N.
      destruct N as [_ [_ N]]. apply (N n); [apply in_map_iff; eexists; split; [|exact Ew]; reflexivity|].
      cbn [map]. left. rewrite Esl. reflexivity. }
    rewrite Hw. cbn [orb b2n]. lia.
  - subst s'. eapply (Q_complete u H s _ ph kept sl rest); [exact HQ|exact Epc| |].
    + subst s2 s1. destruct (negb _); reflexivity.
    + discriminate.
  - subst s1. rewrite Epc in P. destruct P as [A [_ [Pw [P2 _]]]]. cbn [List.length] in P2.
    assert (Hc : map sl_coro (compact (s_coros s) kept) = kept) by (apply compact_coros; lia).
    unfold Q in HQ. rewrite Epc in HQ.
    destruct (dispatch_cases c s kept s' Hwf HI Epc Es) as [s' E1 E2 E3 E4|m0 s' E1 E2 E3 E4|s' E1 E2 E3]; clear Es; subst s';
      unfold Q, live; cbn [s_pc set_pc s_log set_coros set_todo s_coros] in *; rewrite ?map_app, Hc, ?waitl_app; try exact HQ.
    cbn [map sl_coro waitl existsb co_node freshc co_st negb]. rewrite andb_false_r, !orb_false_r. exact HQ.
  - subst s1 s'. rewrite Epc in P. destruct P as [A [_ [Pw [P2 _]]]]. cbn [List.length] in P2.
    assert (Hc : map sl_coro (compact (s_coros s) kept) = kept) by (apply compact_coros; lia).
    unfold Q in *. rewrite Epc in HQ. unfold live. cbn [s_pc set_pc s_log set_coros s_coros] in *. rewrite Hc. exact HQ.
  - subst s'. exact I.
  - subst s'. exact I.
  - subst s'. exact I.
  - subst s'. exact I.
Qed.

Lemma Q_step c u s l s' H : wf_dag (c_dag c) -> Inv c s -> Q u H s -> step c s l = Some s' -> Q u (snap l s H) s'.
Proof.
  intros Hwf HI HQ E. unfold snap. destruct l; cbn [is_tick]; cbn [step] in E.
  - apply (Q_tick c u H s s' Hwf HI HQ E).
  - destruct (s_pc s); try discriminate; inversion E; subst; exact I.
  - apply (Q_ctl c u H s s' Hwf HI HQ E).
  - destruct (launchfail_cases c s s' HI E) as [ph [kept [sl [rest [n [Epc [_ [_ [Ep _]]]]]]]]].
    unfold Q. rewrite Ep. exact I.
  - assert (Hpc : exists rest, s_pc s' = Unwind ExcVisitor rest).
    { destruct (match s_pc s with Created | Suspended _ => tick c s | Clean _ _ _ => ctl c s true | _ => None end) as [s1|]; [|discriminate].
      unfold visitor_throws in E. destruct (cut_at k _) as [es|]; [|discriminate]. inversion E. eexists. reflexivity. }
    destruct Hpc as [rest Ep]. unfold Q. rewrite Ep. exact I.
  - destruct (s_fut s n); try discriminate. inversion E; subst.
    eapply (Q_env u H s); [exact HQ|reflexivity|reflexivity|reflexivity|discriminate].
  - destruct (s_fut s n); try discriminate. inversion E; subst.
    eapply (Q_env u H s); [exact HQ|reflexivity|reflexivity|reflexivity|discriminate].
  - inversion E; subst. exact HQ.
Qed.

Lemma Q_run c u : wf_dag (c_dag c) -> forall ls s s' H, Inv c s -> Q u H s -> run_labels c s ls = Some s' ->
  Q u (H ++ snaps c s ls) s'.
Proof.
  intros Hwf. induction ls as [|l ls IH]; intros s s' H HI HQ E; cbn [run_labels snaps] in *.
  - inversion E; subst. rewrite app_nil_r. exact HQ.
  - destruct (step c s l) as [s1|] eqn:E1; [|discriminate].
    rewrite app_assoc. replace (H ++ (if is_tick l then [s] else [])) with (snap l s H)
      by (unfold snap; destruct (is_tick l); [reflexivity|symmetry; apply app_nil_r]).
    apply IH; [eapply step_inv; eassumption|eapply Q_step; eassumption|exact E].
Qed.

(** * Under way *)
Lemma under_way_iff tr n : is_under_way tr n = true <-> task_begun tr n /\ ~ recorded tr n.
Proof.
  unfold is_under_way. rewrite andb_true_iff, negb_true_iff. 
  assert (A : existsb (fun e => match e with EBeforeRun _ m => m =? n | _ => false end) tr = true <-> task_begun tr n).
  { rewrite existsb_exists. split.
    - intros (e & He & E). destruct e; try discriminate. apply Nat.eqb_eq in E. subst. eexists. exact He.
    - intros [er He]. eexists. split; [exact He|]. apply Nat.eqb_refl. }
  assert (B : existsb (fun e => match e with EAfterRun _ r _ => r_node r =? n | _ => false end) tr = true <-> recorded tr n).
  { rewrite existsb_exists. unfold recorded. split.
    - intros (e & He & E). destruct e; try discriminate. apply Nat.eqb_eq in E. exists r. split; [|exact E].
      apply in_split in He. destruct He as (p & q & ->). rewrite records_app. apply in_app_iff. right. left. reflexivity.
    - intros (r & Hr & E). clear A. induction tr as [|e tr IH]; [destruct Hr|].
      destruct e; try (destruct (IH Hr) as (x & Hx & Ex); exists x; split; [right; exact Hx|exact Ex]).
      cbn in Hr. destruct Hr as [<-|Hr].
      + eexists. split; [left; reflexivity|]. cbn. apply Nat.eqb_eq, E.
      + destruct (IH Hr) as (x & Hx & Ex). exists x. split; [right; exact Hx|exact Ex]. }
  rewrite A. destruct (existsb (fun e => match e with EAfterRun _ r _ => r_node r =? n | _ => false end) tr) eqn:E.
  - split; [intros [_ D]; discriminate|]. intros [_ D]. exfalso. apply D, B. reflexivity.
  - split; intros [H1 _]; (split; [exact H1|]); [|reflexivity]. intros D. apply B in D. discriminate.
Qed.

Lemma rest_under_way c s n ph : wf_dag (c_dag c) -> Inv c s -> s_pc s = Suspended ph -> is_under_way (trace s) n = waitl n (live s).
Proof.
  intros Hwf HI Epc. pose proof (i_pc _ _ HI) as P. unfold pc_inv in P. rewrite Epc in P. destruct P as [A _].
  assert (G : is_under_way (trace s) n = true <-> waitl n (live s) = true).
  { rewrite under_way_iff, waitl_In. split.
    - intros [[er B] R]. apply trace_in in B.
      assert (Hid : In n (node_ids (c_dag c))).
      { destruct (log_in c _ _ (k_log _ _ _ _ (i_core _ _ HI)) B) as (l1 & l2 & _ & He & _). cbn in He. apply He. }
      apply (act_where c _ _ _ _ _ _ _ A) in Hid. destruct Hid as [Hid|[Hid|Hid]].
      + exfalso. apply (a_idle _ _ _ _ _ _ _ _ A n (or_introl Hid)). exists er. exact B.
      + apply act_lv_cases in Hid. destruct Hid as [Hid|Hid]; [|exact Hid].
        exfalso. apply (a_idle _ _ _ _ _ _ _ _ A n (or_intror Hid)). exists er. exact B.
      + exfalso. apply R. change (recorded_l (s_log s) n). apply (act_recorded c _ _ _ _ _ _ _ A). exact Hid.
    - intros [rec Hin]. split.
      + destruct (w_before _ _ _ _ _ _ (a_wait _ _ _ _ _ _ _ _ A n rec Hin)) as [er B]. exists er. apply trace_in. exact B.
      + intros R. eapply (act_lv_not_recorded c); [apply Hwf|exact A| |exact R].
        apply in_map_iff. eexists. split; [|exact Hin]. reflexivity. }
  destruct (is_under_way (trace s) n), (waitl n (live s)); try reflexivity; [symmetry; apply G; reflexivity|apply G; reflexivity].
Qed.

(** * A finished execution *)
Definition lost (p : pc) : Prop := match p with Bad _ | Destroying _ | Destroyed => True | _ => False end.
Lemma lost_step c s l s' : Inv c s -> lost (s_pc s) -> step c s l = Some s' -> lost (s_pc s').
Proof.
  intros HI HL E. destruct l; cbn [step] in E.
  - unfold tick in E. destruct (s_pc s); try discriminate; try destruct HL.
  - destruct (s_pc s); try discriminate; inversion E; subst; exact I.
  - destruct (ctl_cases c s s' HI E) as
      [ph kept sl rest n s' Epc Esl _ Es|ph kept sl rest n s' Epc Esl _ _ Es
      |ph kept sl rest n s1 s' Epc Esl _ _ Es1 Es|ph kept sl rest n rec s' Epc Esl _ Es
      |ph kept sl rest n rec s' Epc Esl _ Es|ph kept sl rest n rec o s1 s2 s' Epc Esl _ Es1 Es2 Es
      |kept s1 s' Epc Es1 Es|kept s1 s' Epc Es1 Es|e s' Epc Es|e sl rest s' Epc _ Es|s' Epc Es|sl rest s' Epc _ Es];
      rewrite Epc in HL; try destruct HL; subst s'; exact I.
  - destruct (launchfail_cases c s s' HI E) as [ph [kept [sl [rest [n [Epc _]]]]]]. rewrite Epc in HL. destruct HL.
  - destruct (s_pc s); try discriminate; destruct HL.
  - destruct (s_fut s n); try discriminate. inversion E; subst. exact HL.
  - destruct (s_fut s n); try discriminate. inversion E; subst. exact HL.
  - inversion E; subst. exact HL.
Qed.
Lemma lost_run c : wf_dag (c_dag c) -> forall ls s s', Inv c s -> lost (s_pc s) -> run_labels c s ls = Some s' -> lost (s_pc s').
Proof.
  intros Hwf. induction ls as [|l ls IH]; intros s s' HI HL E; cbn [run_labels] in *; [inversion E; subst; exact HL|].
  destruct (step c s l) as [s1|] eqn:E1; [|discriminate].
  eapply (IH s1 s'); [eapply step_inv; eassumption|eapply lost_step; eassumption|exact E].
Qed.
Lemma snaps_before c : wf_dag (c_dag c) -> forall ls s s' n, Inv c s -> run_labels c s ls = Some s' -> s_pc s' = Finished ->
  cw n (snaps c s ls) = List.length (filter (fun tr => is_under_way tr n) (tick_calls c s ls)).
Proof.
  intros Hwf. induction ls as [|l ls IH]; intros s s' n HI E Ef; cbn [run_labels snaps tick_calls] in *; [reflexivity|].
  destruct (step c s l) as [s1|] eqn:E1; [|discriminate].
  assert (HI1 : Inv c s1) by (eapply step_inv; eassumption).
  specialize (IH s1 s' n HI1 E Ef). destruct (is_tick l) eqn:Et; [|exact IH].
  destruct l; try discriminate. unfold cw in *. cbn [app filter].
  assert (G : waitl n (live s) = is_under_way (trace s) n).
  { cbn [step] in E1. unfold tick in E1. pose proof (i_pc _ _ HI) as P. unfold pc_inv in P. destruct (s_pc s) as [|ph| | | | | | |] eqn:Epc; try discriminate.
    - destruct P as (_ & _ & _ & Pc & _ & _ & Pl). unfold live, trace. rewrite Epc, Pc, Pl. reflexivity.
    - symmetry. eapply rest_under_way; eassumption.
    - exfalso. assert (HL : lost (s_pc s1)) by (inversion E1; exact I). apply (lost_run c Hwf ls s1 s' HI1 HL) in E. rewrite Ef in E. exact E.
    - exfalso. assert (HL : lost (s_pc s1)) by (inversion E1; exact I). apply (lost_run c Hwf ls s1 s' HI1 HL) in E. rewrite Ef in E. exact E. }
  rewrite G. destruct (is_under_way (trace s) n); cbn [List.length]; rewrite IH; reflexivity.
Qed.

Theorem polls_are_ticks : forall c z ls s er n,
  wf_dag (c_dag c) -> run_labels c (init z) ls = Some s -> result s = RRecord er ->
  polls (trace s) n = List.length (filter (fun tr => is_under_way tr n) (tick_calls c (init z) ls)).
Proof.
  intros c z ls s er n Hwf E Hr. assert (Epc : s_pc s = Finished) by (unfold result in Hr; destruct (s_pc s); congruence).
  pose proof (Q_run c n Hwf ls (init z) s [] (inv_init c z) (conj eq_refl eq_refl) E) as HQ. unfold Q in HQ. rewrite Epc in HQ.
  cbn [app] in HQ. rewrite <- tmu_polls, HQ. apply (snaps_before c Hwf ls (init z) s n (inv_init c z) E Epc).
Qed.

(** * One call of tick() *)
Definition going (p : pc) : Prop :=
  match p with Created | Destroying _ | Destroyed | Bad BadResumeDone => False | _ => True end.
Lemma going_start c s s' : wf_dag (c_dag c) -> Inv c s -> done s = false -> tick c s = Some s' -> going (s_pc s').
Proof.
  intros Hwf HI Hd E. unfold tick in E. unfold done in Hd. destruct (s_pc s) as [|ph| | | | | | |] eqn:Epc; try discriminate.
  - inversion E; subst s'. destruct (start_spec c Hwf s HI Epc) as [R [_ [Rc _]]].
    inversion R as [? ? cyc L1 L2 L3|? ? m pre post L2 L1 L3 L4 L5 L6 L7|? ? m pre post L2 L1 L3 L4 L5 L6 L7
               |? ? s1 evd todo Es T1 El Ep Et Hso Ec];
      [rewrite L2; exact I..|].
    subst. rewrite Es. unfold main_top, drain_top. rewrite Ec. destruct (s_todo s1); exact I.
  - destruct ph; inversion E; subst s'; unfold main_top, drain_top; destruct (s_todo s), (s_coros s); exact I.
Qed.
Lemma going_step c s l s' : wf_dag (c_dag c) -> Inv c s -> going (s_pc s) -> inner_label l = true -> step c s l = Some s' -> going (s_pc s').
Proof.
  intros Hwf HI HL Hl E. destruct l; try discriminate; cbn [step] in E.
  - destruct (ctl_cases c s s' HI E) as
      [ph kept sl rest n s' Epc Esl _ Es|ph kept sl rest n s' Epc Esl _ _ Es
      |ph kept sl rest n s1 s' Epc Esl _ _ Es1 Es|ph kept sl rest n rec s' Epc Esl _ Es
      |ph kept sl rest n rec s' Epc Esl _ Es|ph kept sl rest n rec o s1 s2 s' Epc Esl _ Es1 Es2 Es
      |kept s1 s' Epc Es1 Es|kept s1 s' Epc Es1 Es|e s' Epc Es|e sl rest s' Epc _ Es|s' Epc Es|sl rest s' Epc _ Es];
      try (rewrite Epc in HL; destruct HL; fail); try (subst s'; exact I).
    all: try (subst s'; cbn; rewrite Epc; exact I).
    subst s1.
    destruct (dispatch_cases c s kept s' Hwf HI Epc Es) as [s' E1 E2 E3 E4|m0 s' E1 E2 E3 E4|s' E1 E2 E3]; clear Es; subst s'; exact I.
  - destruct (launchfail_cases c s s' HI E) as [ph [kept [sl [rest [n [Epc [_ [_ [Ep _]]]]]]]]]. rewrite Ep. exact I.
  - destruct (match s_pc s with Created | Suspended _ => tick c s | Clean _ _ _ => ctl c s true | _ => None end) as [s1|]; [|discriminate].
    destruct (visthrow_cases _ _ _ _ E) as (es & r & -> & _). exact I.
  - destruct (s_fut s n); try discriminate. inversion E; subst. exact HL.
  - destruct (s_fut s n); try discriminate. inversion E; subst. exact HL.
  - inversion E; subst. exact HL.
Qed.
Lemma going_run c : wf_dag (c_dag c) -> forall ls s s', Inv c s -> going (s_pc s) -> forallb inner_label ls = true ->
  run_labels c s ls = Some s' -> going (s_pc s') /\ snaps c s ls = [] /\ Inv c s'.
Proof.
  intros Hwf. induction ls as [|l ls IH]; intros s s' HI HL Hl E; cbn [run_labels snaps forallb] in *; [inversion E; subst; auto|].
  apply andb_prop in Hl. destruct Hl as [Hl Hls].
  destruct (step c s l) as [s1|] eqn:E1; [|discriminate].
  assert (HI1 : Inv c s1) by (eapply step_inv; eassumption).
  destruct (IH s1 s' HI1 (going_step _ _ _ _ Hwf HI HL Hl E1) Hls E) as (G1 & G2 & G3).
  split; [exact G1|]. split; [|exact G3]. destruct l; try discriminate; exact G2.
Qed.

Theorem one_tick_polls : forall c z s s1 s2 ls new n,
  wf_dag (c_dag c) -> reachable c z s -> done s = false ->
  step c s LTick = Some s1 -> forallb inner_label ls = true -> run_labels c s1 ls = Some s2 ->
  extends s s2 new -> tick_running s2 = false -> (forall e, result s2 <> RThrow e) ->
  polls new n = if is_under_way (trace s2) n then 1 else 0.
Proof.
  intros c z s s1 s2 ls new n Hwf [ls0 E0] Hd E1 Hl E2 Hx Hr Hn.
  assert (HI : Inv c s) by (apply (r_inv c z s Hwf); exists ls0; exact E0).
  assert (HI1 : Inv c s1) by (eapply step_inv; eassumption).
  pose proof (Q_run c n Hwf ls0 (init z) s [] (inv_init c z) (conj eq_refl eq_refl) E0) as HQ.
  set (H := [] ++ snaps c (init z) ls0) in *. clearbody H.
  pose proof (Q_tick c n H s s1 Hwf HI HQ E1) as HQ1.
  destruct (going_run c Hwf ls s1 s2 HI1 (going_start _ _ _ Hwf HI Hd E1) Hl E2) as (G & Gs & HI2).
  pose proof (Q_run c n Hwf ls s1 s2 (H ++ [s]) HI1 HQ1 E2) as HQ2. rewrite Gs, app_nil_r in HQ2.
  assert (Ht : tmu n (s_log s2) = tmu n (s_log s) + polls new n).
  { rewrite !tmu_polls. unfold extends in Hx. rewrite Hx. unfold polls. rewrite filter_app, app_length. reflexivity. }
  assert (Hs : tmu n (s_log s) = cw n (H ++ [s])).
  { rewrite cw_app. cbn [step] in E1. unfold tick in E1. unfold done in Hd. unfold Q in HQ. pose proof (i_pc _ _ HI) as P. unfold pc_inv in P.
    destruct (s_pc s) as [|ph| | | | | | |] eqn:Epc; try discriminate.
    - destruct HQ as [-> HQ]. destruct P as (_ & _ & _ & Pc & _). unfold live. rewrite Epc, Pc, HQ. reflexivity.
    - rewrite HQ. unfold b2n. reflexivity. }
  assert (HR2 : reachable c z s2) by (exists (ls0 ++ LTick :: ls); rewrite run_labels_app, E0; cbn [run_labels]; rewrite E1; exact E2).
  pose proof (i_pc _ _ HI2) as P. unfold pc_inv in P. unfold tick_running in Hr. unfold result in Hn. unfold Q in HQ2.
  destruct (s_pc s2) as [|ph| | | | |e| |b] eqn:Epc; try discriminate; try (destruct G; fail).
  - rewrite (rest_under_way c s2 n ph Hwf HI2 Epc). unfold b2n in HQ2. destruct (waitl n (live s2)); lia.
  - assert (Hu : is_under_way (trace s2) n = false).
    { destruct (is_under_way (trace s2) n) eqn:Hu; [|reflexivity]. exfalso. apply under_way_iff in Hu. destruct Hu as [Hb Hu]. apply Hu.
      destruct Hb as [er Hb]. eapply (finished_recorded c z s2 Hwf HR2); [unfold result; rewrite Epc; reflexivity|].
      apply in_split in Hb as (a & b & B). destruct (trace_at c z s2 Hwf HR2 _ _ _ B) as [[He _] _]. cbn [ev_cond] in He. apply He. }
    rewrite Hu. lia.
  - destruct (Hn e). reflexivity.
  - destruct b; try (destruct P; fail); try (destruct G; fail).
    destruct P as (_ & _ & _ & P).
    assert (Hz : forall l, Forall (fun x => is_jobinv x = true) l -> tmu n l = 0).
    { induction l as [|x l IH]; intros Hf; [reflexivity|]. inversion Hf; subst. rewrite tmu_cons, IH by assumption. destruct x; try discriminate; reflexivity. }
    assert (Hu : is_under_way (trace s2) n = false).
    { destruct (is_under_way (trace s2) n) eqn:Hu; [|reflexivity]. exfalso. apply under_way_iff in Hu. destruct Hu as [[er Hb] _].
      apply in_rev in Hb. rewrite Forall_forall in P. apply P in Hb. discriminate. }
    rewrite Hu. rewrite (Hz _ P) in Ht. lia.
Qed.

(** * Also when the call ends with an exception *)
Lemma tmu_rev u l : tmu u (rev l) = tmu u l.
Proof. induction l as [|e l IH]; [reflexivity|]. cbn [rev]. rewrite tmu_app, IH, !tmu_cons. unfold tmu at 2. cbn. lia. Qed.
Lemma once_ctl c u H s s' : wf_dag (c_dag c) -> Inv c s -> Q u H s -> tmu u (s_log s) <= S (cw u H) ->
  ctl c s true = Some s' -> tmu u (s_log s') <= S (cw u H).
Proof.
  intros Hwf HI HQ HB E. pose proof (Q_ctl c u H s s' Hwf HI HQ E) as HQ'.
  assert (G : forall ph kept rest, s_pc s' = Clean ph kept rest -> tmu u (s_log s') <= S (cw u H)).
  { intros ph kept rest Epc. unfold Q in HQ'. rewrite Epc in HQ'. unfold b2n in HQ'. destruct (waitl u kept); lia. }
  destruct (ctl_cases c s s' HI E) as
      [ph kept sl rest n s' Epc Esl _ Es|ph kept sl rest n s' Epc Esl _ _ Es
      |ph kept sl rest n s1 s' Epc Esl _ _ Es1 Es|ph kept sl rest n rec s' Epc Esl _ Es
      |ph kept sl rest n rec s' Epc Esl _ Es|ph kept sl rest n rec o s1 s2 s' Epc Esl _ Es1 Es2 Es
      |kept s1 s' Epc Es1 Es|kept s1 s' Epc Es1 Es|e s' Epc Es|e sl rest s' Epc _ Es|s' Epc Es|sl rest s' Epc _ Es];
    try (subst s'; eapply G; reflexivity); try (subst s'; eapply G; exact Epc); try (subst s'; exact HB).
  - subst s1. destruct (dispatch_cases c s kept s' Hwf HI Epc Es) as [s' E1 E2 E3 E4|m0 s' E1 E2 E3 E4|s' E1 E2 E3]; clear Es; subst s'; exact HB.
  - subst s' s1. exact HB.
Qed.
Lemma once_step c u H s l s' : wf_dag (c_dag c) -> Inv c s -> going (s_pc s) -> Q u H s -> tmu u (s_log s) <= S (cw u H) ->
  inner_label l = true -> step c s l = Some s' -> tmu u (s_log s') <= S (cw u H).
Proof.
  intros Hwf HI HG HQ HB Hl E. destruct l; try discriminate; cbn [step] in E.
  - eapply once_ctl; eassumption.
  - destruct (launchfail_cases c s s' HI E) as (ph & kept & sl & rest & n & _ & _ & _ & _ & El & _). rewrite El, tmu_cons. exact HB.
  - destruct (match s_pc s with Created | Suspended _ => tick c s | Clean _ _ _ => ctl c s true | _ => None end) as [s1|] eqn:E1; [|discriminate].
    assert (H1 : tmu u (s_log s1) <= S (cw u H) /\ exists new, s_log s1 = new ++ s_log s).
    { destruct (s_pc s) as [|ph|ph kept rest| | | | | |] eqn:Epc; try discriminate; [destruct HG| |].
      - split; [|apply (step_log c s LTick s1 Hwf HI E1)]. unfold tick in E1. rewrite Epc in E1.
        destruct ph; inversion E1; subst s1; unfold main_top, drain_top; destruct (s_todo s), (s_coros s);
          cbn [s_log set_pc emit]; rewrite ?tmu_cons; exact HB.
      - split; [eapply once_ctl; eassumption|apply (step_log c s LCtl s1 Hwf HI E1)]. }
    destruct H1 as [H1 [new En]].
    destruct (visthrow_cases s s1 k s' E) as [es [rest [Es [es2 Ees]]]].
    rewrite En, app_length, Nat.add_sub, firstn_app, Nat.sub_diag, firstn_O, app_nil_r, firstn_all in Ees.
    assert (El1 : s_log s1 = rev (es ++ es2) ++ s_log s) by (rewrite <- Ees, rev_involutive; exact En).
    assert (El : s_log s' = rev es ++ s_log s) by (rewrite Es, emits_eq; destruct s; reflexivity).
    rewrite El1, tmu_app, tmu_rev, tmu_app in H1. rewrite El, tmu_app, tmu_rev. lia.
  - destruct (s_fut s n); try discriminate. inversion E; subst. cbn [s_log emit set_fut]. rewrite tmu_cons. exact HB.
  - destruct (s_fut s n); try discriminate. inversion E; subst. cbn [s_log emit set_fut]. rewrite tmu_cons. exact HB.
  - inversion E; subst. exact HB.
Qed.
Lemma once_run c u H : wf_dag (c_dag c) -> forall ls s s', Inv c s -> going (s_pc s) -> Q u H s -> tmu u (s_log s) <= S (cw u H) ->
  forallb inner_label ls = true -> run_labels c s ls = Some s' -> tmu u (s_log s') <= S (cw u H).
Proof.
  intros Hwf. induction ls as [|l ls IH]; intros s s' HI HG HQ HB Hl E; cbn [run_labels forallb] in *; [inversion E; subst; exact HB|].
  apply andb_prop in Hl. destruct Hl as [Hl Hls].
  destruct (step c s l) as [s1|] eqn:E1; [|discriminate].
  assert (HI1 : Inv c s1) by (eapply step_inv; eassumption).
  eapply (IH s1 s'); [exact HI1|exact (going_step c s l s1 Hwf HI HG Hl E1)| |exact (once_step c u H s l s1 Hwf HI HG HQ HB Hl E1)|exact Hls|exact E].
  pose proof (Q_step c u s l s1 H Hwf HI HQ E1) as HQ1. destruct l; try discriminate; exact HQ1.
Qed.
Theorem once_per_tick : forall c z s s1 s2 ls new n,
  wf_dag (c_dag c) -> reachable c z s -> done s = false ->
  step c s LTick = Some s1 -> forallb inner_label ls = true -> run_labels c s1 ls = Some s2 ->
  extends s s2 new -> polls new n <= 1.
Proof.
  intros c z s s1 s2 ls new n Hwf [ls0 E0] Hd E1 Hl E2 Hx.
  assert (HI : Inv c s) by (apply (r_inv c z s Hwf); exists ls0; exact E0).
  assert (HI1 : Inv c s1) by (eapply step_inv; eassumption).
  pose proof (Q_run c n Hwf ls0 (init z) s [] (inv_init c z) (conj eq_refl eq_refl) E0) as HQ.
  set (H := [] ++ snaps c (init z) ls0) in *. clearbody H.
  pose proof (Q_tick c n H s s1 Hwf HI HQ E1) as HQ1.
  assert (Ht : tmu n (s_log s2) = tmu n (s_log s) + polls new n).
  { rewrite !tmu_polls. unfold extends in Hx. rewrite Hx. unfold polls. rewrite filter_app, app_length. reflexivity. }
  assert (Hs : tmu n (s_log s) = cw n (H ++ [s])).
  { rewrite cw_app. cbn [step] in E1. unfold tick in E1. unfold done in Hd. unfold Q in HQ. pose proof (i_pc _ _ HI) as P. unfold pc_inv in P.
    destruct (s_pc s) as [|ph| | | | | | |] eqn:Epc; try discriminate.
    - destruct HQ as [-> HQ]. destruct P as (_ & _ & _ & Pc & _). unfold live. rewrite Epc, Pc, HQ. reflexivity.
    - rewrite HQ. unfold b2n. reflexivity. }
  assert (HB : tmu n (s_log s1) <= S (cw n (H ++ [s]))).
  { rewrite <- Hs. cbn [step] in E1. unfold tick in E1. unfold done in Hd. destruct (s_pc s) as [|ph| | | | | | |] eqn:Epc; try discriminate.
    - enough (tmu n (s_log s1) = 0) by lia. inversion E1; subst s1. destruct (start_spec c Hwf s HI Epc) as [R _].
      inversion R as [? ? cyc L1 L2 L3|? ? m pre post L2 L1 L3 L4 L5 L6 L7|? ? m pre post L2 L1 L3 L4 L5 L6 L7
                 |? ? s0 evd todo Es T1 El Ep Et Hso Ec].
      + rewrite L1, tmu_cons. exact (tmu_log3 c n [] []).
      + rewrite L1. exact (tmu_log3 c n [] pre).
      + rewrite L1, tmu_cons. exact (tmu_log3 c n [] pre).
      + rewrite Es. unfold main_top, drain_top. rewrite Ec. destruct (s_todo s0); cbn [s_log set_pc emit]; rewrite tmu_cons, El; apply tmu_log3.
    - destruct ph; inversion E1; subst s1; unfold main_top, drain_top; destruct (s_todo s), (s_coros s);
        cbn [s_log set_pc emit]; rewrite ?tmu_cons; lia. }
  pose proof (once_run c n (H ++ [s]) Hwf ls s1 s2 HI1 (going_start _ _ _ Hwf HI Hd E1) HQ1 HB Hl E2). lia.
Qed.
