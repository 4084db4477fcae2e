(** Two tasks without a common resource and without a path between them that can never
    run at the same time (C100). *)
From Coq Require Import Lia String Permutation Relations.
From Verif Require Import Model.Common Model.Records Model.Jobs Model.TaskSet Model.Dag
     Model.Sched Model.Exec Spec.Graph Spec.Trace
     Proofs.Sets Proofs.SchedFacts Proofs.InvalFacts Proofs.TraceFacts Proofs.ExecInv
     Proofs.ExecStep Proofs.ExecCtl Proofs.LogFacts Proofs.ExecProps Proofs.ExecProps2
     Proofs.StepCases Proofs.ExecProps3 Proofs.Ticks Proofs.Threads Proofs.Determinism
     Spec.Parallel Spec.Machine Proofs.DemoFacts Proofs.MachineFacts.
Open Scope string_scope.
Open Scope nat_scope.
Open Scope list_scope.

(** 1 and 2 share the resource 7, 3 runs after 2; a thread for everyone. *)
Definition bypass : config :=
  Config (Dag [DNode 1 "b" 1; DNode 2 "v" 2; DNode 3 "a" 3] [Edge 3 2 AFTER]) 3
         (fun t => Task true [] [] [] (if t =? 3 then [] else [7]) false) (fun _ => IvRet true "").
Lemma bypass_wf : wf_dag (c_dag bypass).
Proof. apply wf_dagb_wf. vm_compute. reflexivity. Qed.
Lemma bypass_after a b : runs_after (c_dag bypass) a b -> a = 3 /\ b = 2.
Proof. intros [H|[]]. injection H as <- <-. auto. Qed.
Lemma bypass_path a b : clos_trans nid (runs_after (c_dag bypass)) a b -> a = 3 /\ b = 2.
Proof.
  induction 1 as [x y H|x y z _ [-> ->] _ [H _]]; [exact (bypass_after _ _ H)|discriminate].
Qed.
Lemma bypass_executable : executable bypass.
Proof.
  split; [intros [n H]; apply bypass_path in H; lia|].
  intros n [<-|[<-|[<-|[]]]]; split; try reflexivity; discriminate.
Qed.
Lemma bypass_inval n : Invalidated bypass n.
Proof. exists n. split; [apply rt_refl|]. exists "". reflexivity. Qed.
Lemma bypass_res : no_shared_resource bypass 1 3.
Proof. intros r _ H. exact H. Qed.

Definition second_later (s : state) : Prop :=
  Determinism.active (s_pc s) -> In 2 (s_todo s) \/ recorded_l (s_log s) 1.

Lemma bypass_first used ns todo m : In 1 todo -> sorted todo -> ~ In 0 todo ->
  ns_started (ns 1) = false -> ns_done (ns 1) = false -> ~ In 7 used ->
  find_candidate (fuel_of bypass) (c_dag bypass) ns (node_res bypass) used todo [] = Some (Some m) -> m = 1.
Proof.
  intros Hin Hso H0 Hs Hd Hu E. destruct todo as [|x r]; [destruct Hin|].
  assert (x = 1) as ->.
  { destruct Hin as [->|Hin]; [reflexivity|]. inversion Hso as [|x0 l0 Hx _]; subst.
    specialize (Hx 1 Hin). assert (x = 0) as -> by lia. exfalso. apply H0. left; reflexivity. }
  change (fuel_of bypass) with 5 in E. cbn [find_candidate find_node] in E. rewrite Hs, Hd in E.
  change (after_targets (c_dag bypass) 1) with (@nil nid) in E.
  change (node_res bypass 1) with [7] in E. cbn [orb mem all_done forallb negb find_loop any_resource_used existsb] in E.
  destruct (mem 7 used) eqn:Em; [apply mem_In in Em; contradiction|].
  cbn in E. injection E as <-. reflexivity.
Qed.

Lemma bypass_step z s l s' : reachable bypass z s -> second_later s -> step bypass s l = Some s' -> second_later s'.
Proof.
  intros HR H E Ha. pose proof (r_inv bypass z s bypass_wf HR) as HI.
  assert (K : Determinism.active (s_pc s) -> s_todo s' = s_todo s -> In 2 (s_todo s') \/ recorded_l (s_log s') 1).
  { intros H1 H2. destruct (H H1) as [H3|(r & H3 & H4)]; [left; rewrite H2; exact H3|right; exists r].
    split; [|exact H4]. destruct (step_log bypass s l s' bypass_wf HI E) as [new ->].
    rewrite recs_In in *. destruct H3 as (er & x & H3). exists er, x. apply in_app_iff. right; exact H3. }
  destruct l as [| | | |k|n|n o|t]; cbn [step] in E.
  - unfold tick in E. destruct (s_pc s) as [|ph| | | | | | |] eqn:Epc; try discriminate.
    + injection E as <-. destruct (start_spec bypass bypass_wf s HI Epc) as [HS _].
      destruct HS as [s s' cyc _ HP|s s' n pre post HP|s s' n pre post HP|s s' s1 evd todo -> _ _ _ Et _ _ _ Hin].
      1-3: rewrite HP in Ha; destruct Ha.
      left. assert (G : In 2 (s_todo s1)) by (rewrite Et; apply Hin; vm_compute; tauto).
      unfold main_top. destruct (s_todo s1) as [|x r] eqn:E1; [destruct G|]. cbn [emit set_pc s_todo]. rewrite E1. exact G.
    + apply K; [exact I|]. unfold main_top, drain_top in E.
      destruct ph; [destruct (s_todo s) eqn:Et|]; try destruct (s_coros s); injection E as <-; cbn; try rewrite Et; reflexivity.
    + injection E as <-. destruct Ha.
    + injection E as <-. destruct Ha.
  - destruct (s_pc s); try discriminate; injection E as <-; destruct Ha.
  - destruct (ctl_cases bypass s s' HI E)
      as [ph kept sl rest n s' Epc Esl Ed Es|ph kept sl rest n s' Epc Esl Ed Ei Es
         |ph kept sl rest n s1 s' Epc Esl Ed Ei Es1 Es|ph kept sl rest n rec s' Epc Esl Ef Es
         |ph kept sl rest n rec s' Epc Esl Ef Es|ph kept sl rest n rec o s1 s2 s' Epc Esl Ef Es1 Es2 Es
         |kept s1 s' Epc Es1 Es|kept s1 s' Epc Es1 Es|e0 s' Epc Es|e0 sl rest s' Epc Ed Es|s' Epc Es|sl rest s' Epc Ed Es].
    9-12: subst s'; destruct Ha.
    1-6,8: apply K; [rewrite Epc; exact I|].
    1-5: subst; reflexivity.
    1: subst s' s2 s1; destruct (negb _); reflexivity.
    1: subst; reflexivity.
    subst s1. assert (Act0 : Determinism.active (s_pc s)) by (rewrite Epc; exact I).
    destruct (dispatch_cases bypass s kept s' bypass_wf HI Epc Es) as [s' E1 E2 E3 E4|m s' E1 E2 E3 E4|s' E1 E2 E3];
      [apply K; [exact Act0|rewrite E1; reflexivity]| |apply K; [exact Act0|rewrite E1; reflexivity]].
    destruct (Nat.eq_dec m 2) as [->|Hm].
    + right. rewrite E1. cbn [set_pc set_coros set_todo s_log].
      cbn [set_coros s_todo s_ns s_used] in E2, E3, E4.
      pose proof (i_pc _ _ HI) as P. unfold pc_inv in P. rewrite Epc in P. destruct P as (A & _ & Hk & _). unfold act in A.
      assert (H1 : In 1 (node_ids (c_dag bypass))) by (left; reflexivity).
      assert (U : ~ In 7 (s_used s)) by (apply (proj2 (proj2 E3)); left; reflexivity).
      apply (act_where _ _ _ _ _ _ _ _ A) in H1. destruct H1 as [H1|[H1|H1]].
      * exfalso. destruct (a_idle _ _ _ _ _ _ _ _ A 1 (or_introl H1)) as (Fl & _). injection Fl as Fs Fd _.
        assert (2 = 1); [|discriminate].
        eapply bypass_first; [exact H1|apply (a_sorted _ _ _ _ _ _ _ _ A)| |exact Fs|exact Fd|exact U|exact E4].
        intros H0. assert (Hi : In 0 (node_ids (c_dag bypass))) by (apply (act_where _ _ _ _ _ _ _ _ A); left; exact H0).
        vm_compute in Hi. intuition discriminate.
      * exfalso. apply in_map_iff in H1. destruct H1 as ([n st] & Hn & Hl). cbn in Hn. subst n.
        assert (W : is_wait (Coro 1 st)).
        { unfold live in Hl. rewrite Epc in Hl. cbn [map] in Hl. rewrite app_nil_r in Hl. exact (Hk _ Hl). }
        destruct W as [rec W]. cbn in W. subst st. apply U. apply (a_used _ _ _ _ _ _ _ _ A). exists 1, rec.
        split; [exact Hl|]. left; reflexivity.
      * apply in_map_iff in H1. destruct H1 as (r & Hr & Hi). exists r. split; [|exact Hr].
        destruct (a_snap _ _ _ _ _ _ _ _ A) as [Hs _]. rewrite <- Hs. exact Hi.
    + destruct (H Act0) as [G|G].
      * left. rewrite E1. cbn [set_pc set_coros set_todo s_todo]. apply set_erase_In.
        split; [exact G|intros X; apply Hm; symmetry; exact X].
      * right. rewrite E1. exact G.
  - destruct (launchfail_cases bypass s s' HI E) as (ph & kept & sl & rest & n & _ & _ & _ & Ep & _).
    rewrite Ep in Ha. destruct Ha.
  - destruct (match s_pc s with Created | Suspended _ => tick bypass s | Clean _ _ _ => ctl bypass s true | _ => None end) as [s0|]; [|discriminate].
    destruct (visthrow_cases _ _ _ _ E) as (es & r & -> & _). destruct Ha.
  - destruct (s_fut s n); try discriminate. injection E as <-. apply K; [exact Ha|reflexivity].
  - destruct (s_fut s n); try discriminate. injection E as <-. apply K; [exact Ha|reflexivity].
  - injection E as <-. apply K; [exact Ha|reflexivity].
Qed.

Definition third_later (s : state) : Prop := s_fut s 3 <> FNone -> ended_l (s_log s) 1.

Lemma bypass_step3 z s l s' : reachable bypass z s -> second_later s' -> third_later s ->
  step bypass s l = Some s' -> third_later s'.
Proof.
  intros HR H2 H E H3. pose proof (r_inv bypass z s bypass_wf HR) as HI.
  pose proof (reachable_step bypass z s l s' HR E) as HR'. pose proof (r_inv bypass z s' bypass_wf HR') as HI'.
  assert (M : s_fut s 3 <> FNone -> ended_l (s_log s') 1).
  { intros X. destruct (H X) as [o Ho]. exists o. destruct (step_log bypass s l s' bypass_wf HI E) as [new ->].
    apply in_app_iff. right; exact Ho. }
  destruct (fut_step bypass s l s' 3 bypass_wf HI E) as [F|[[F [[-> F']|[-> F']]]|[(o & F & -> & F')|(F & F' & ->)]]];
    try (apply M; congruence).
  assert (Hact : Determinism.active (s_pc s')).
  { cbn [step] in E. destruct (ctl_cases bypass s s' HI E) as
      [ph kept sl rest n s' Epc Esl _ Es|ph kept sl rest n s' Epc Esl _ _ Es
      |ph kept sl rest n s1 s' Epc Esl _ _ Es1 Es|ph kept sl rest n rec s' Epc Esl Ef Es
      |ph kept sl rest n rec s' Epc Esl Ht Es|ph kept sl rest n rec o s1 s2 s' Epc Esl _ Es1 Es2 Es
      |kept s1 s' Epc Es1 Es|kept s1 s' Epc Es1 Es|e s' Epc Es|e sl rest s' Epc _ Es|s' Epc Es|sl rest s' Epc _ Es];
    try (subst s'; cbn; rewrite ?Epc; exact I); try (subst s' s1; cbn; exact I);
    try (exfalso; apply H3; subst s'; exact F').
    subst s1. destruct (dispatch_cases bypass s kept s' bypass_wf HI Epc Es) as [s' E1 E2 E3 E4|m0 s' E1 E2 E3 E4|s' E1 E2 E3];
    rewrite E1; exact I. }
  assert (Hw : unfin (s_fut s' 3)).
  { destruct (s_fut s' 3); cbn in F |- *; try discriminate; try exact I. congruence. }
  destruct (k_unfin _ _ _ _ (i_core _ _ HI') 3 Hw) as [rec Hl].
  assert (A : Act bypass (s_todo s') (s_ns s') (s_used s') (live s') (s_fut s') (s_erec s') (s_log s')).
  { pose proof (i_pc _ _ HI') as P. unfold pc_inv in P. destruct (s_pc s'); try destruct Hact; apply P. }
  pose proof (w_after _ _ _ _ _ _ (a_wait _ _ _ _ _ _ _ _ A 3 rec Hl) 2 (or_introl eq_refl)) as R2.
  destruct (H2 Hact) as [T|R1].
  - exfalso. destruct R2 as (r & Hr & Hn). destruct (a_snap _ _ _ _ _ _ _ _ A) as [Hs _]. rewrite <- Hs in Hr.
    pose proof (act_nodup _ _ _ _ _ _ _ _ (proj1 bypass_wf) A) as ND. apply NoDup_app_iff in ND.
    destruct ND as (_ & _ & ND). apply (ND 2 T). apply in_app_iff. right. rewrite <- Hn. apply in_map. exact Hr.
  - destruct (recorded_settled bypass (s_log s') 1 (r_log bypass z s' bypass_wf HR') R1) as [[o Ho]|[Hi|(p & [Hq|[]] & _)]].
    + exists o. apply J_end, Ho.
    + destruct (Hi (bypass_inval 1)).
    + discriminate.
Qed.

Lemma bypass_never z s : reachable bypass z s -> ~ (In 1 (running (trace s)) /\ In 3 (running (trace s))).
Proof.
  intros HR [R1 R3]. assert (G : second_later s /\ third_later s).
  { destruct HR as [ls Er]. assert (X : forall ls s0, reachable bypass z s0 -> second_later s0 /\ third_later s0 ->
      run_labels bypass s0 ls = Some s -> second_later s /\ third_later s).
    { induction ls0 as [|l ls0 IH]; intros s0 HR0 [H0 H1] E0; [injection E0 as <-; split; assumption|].
      cbn [run_labels] in E0. destruct (step bypass s0 l) as [s1|] eqn:E1; [|discriminate].
      pose proof (bypass_step z s0 l s1 HR0 H0 E1) as Y.
      apply (IH s1); [eapply reachable_step; eassumption|split; [exact Y|eapply bypass_step3; eassumption]|exact E0]. }
    apply (X ls (init z)); [exists []; reflexivity|split; [intros []|intros Y; exfalso; apply Y; reflexivity]|exact Er]. }
  destruct G as [_ G]. pose proof (i_core _ _ (r_inv bypass z s bypass_wf HR)) as K.
  unfold trace in R1, R3. fold (run_l (s_log s)) in R1, R3.
  apply (k_run _ _ _ _ K) in R1. apply (k_run _ _ _ _ K) in R3.
  destruct G as [o Ho]; [congruence|]. pose proof (k_fut _ _ _ _ K 1) as F. rewrite R1 in F.
  exact (proj2 (proj2 F) o Ho).
Qed.
