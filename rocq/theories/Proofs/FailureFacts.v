(** Why an execution fails (C101). *)
From Coq Require Import Lia String Permutation.
From Verif Require Import Model.Common Model.Records Model.Jobs Model.TaskSet Model.Dag
     Model.Sched Model.Exec Spec.Graph Spec.Trace Spec.Failure
     Proofs.Sets Proofs.SchedFacts Proofs.InvalFacts Proofs.TraceFacts Proofs.ExecInv
     Proofs.ExecStep Proofs.ExecCtl Proofs.LogFacts Proofs.ExecProps Proofs.ExecProps2
     Proofs.StepCases Proofs.ExecProps3 Proofs.ExecProps4 Proofs.Ticks.
Open Scope nat_scope.
Open Scope list_scope.

(** The body of exec has been left because of [e]. *)
Definition failing_with (e : exc) (s : state) : Prop :=
  s_pc s = Failed e \/ exists r, s_pc s = Unwind e r.

Lemma cut_last : forall es k out, cut_at k es = Some out ->
  exists pre ev, out = pre ++ [ev] /\ is_callback ev = true.
Proof.
  induction es as [|a es IH]; intros k out H; [discriminate|]. cbn in H. destruct (is_callback a) eqn:Ea.
  - destruct k as [|k].
    + injection H as <-. exists [], a. split; [reflexivity|exact Ea].
    + destruct (cut_at k es) as [o|] eqn:E; [|discriminate]. injection H as <-.
      destruct (IH _ _ E) as (pre & ev & -> & Hev). exists (a :: pre), ev. split; [reflexivity|exact Hev].
  - destruct (cut_at k es) as [o|] eqn:E; [|discriminate]. injection H as <-.
    destruct (IH _ _ E) as (pre & ev & -> & Hev). exists (a :: pre), ev. split; [reflexivity|exact Hev].
Qed.

Section Fail.
Variable c : config.
Hypothesis Hwf : wf_dag (c_dag c).

Lemma drain_not_failing e s : ~ failing_with e (drain_top s).
Proof. unfold failing_with, drain_top. destruct (s_coros s); cbn; intros [H|[r H]]; discriminate. Qed.
Lemma main_not_failing e s : ~ failing_with e (main_top s).
Proof.
  unfold main_top. destruct (s_todo s); [apply drain_not_failing|].
  unfold failing_with. cbn. intros [H|[r H]]; discriminate.
Qed.

Lemma step_failing s l s' e : Inv c s -> step c s l = Some s' -> failing_with e s' ->
  (failing_with e s /\ exists new, trace s' = trace s ++ new /\ forall x, In x new -> by_a_job x) \/
  (exists pre ev, trace s' = pre ++ [ev] /\ cause c l ev e).
Proof.
  intros HI E HF.
  assert (Q : failing_with e s -> s_log s' = s_log s ->
    (failing_with e s /\ exists new, trace s' = trace s ++ new /\ forall x, In x new -> by_a_job x)).
  { intros H1 H2. split; [exact H1|]. exists []. unfold trace. rewrite H2, app_nil_r. split; [reflexivity|intros x []]. }
  assert (Q1 : forall ev, failing_with e s -> s_log s' = ev :: s_log s -> by_a_job ev ->
    (failing_with e s /\ exists new, trace s' = trace s ++ new /\ forall x, In x new -> by_a_job x)).
  { intros ev H1 H2 H3. split; [exact H1|]. exists [ev]. unfold trace. rewrite H2. split; [reflexivity|].
    intros x [<-|[]]. exact H3. }
  assert (V : forall s1 k, visitor_throws k s s1 = Some s' -> l = LVisThrow k ->
     exists pre ev, trace s' = pre ++ [ev] /\ cause c l ev e).
  { intros s1 k H Hl. unfold visitor_throws in H.
    destruct (cut_at k _) as [es|] eqn:Ec; [|discriminate]. injection H as <-.
    destruct (cut_last _ _ _ Ec) as (pre & ev & -> & Hev).
    exists (trace s ++ pre), ev. split.
    - unfold trace. cbn [set_pc s_log]. rewrite emits_eq. cbn [set_log s_log]. rewrite rev_app_distr, rev_involutive. apply app_assoc.
    - unfold failing_with in HF. cbn in HF. destruct HF as [HF|[r HF]]; [discriminate|].
      injection HF as <- _. cbn. split; [exists k; exact Hl|exact Hev]. }
  destruct l as [| | | |k|n|n o|t]; cbn [step] in E.
  - unfold tick in E. destruct (s_pc s) as [|ph| | | | | | |] eqn:Epc; try discriminate.
    + injection E as <-. destruct (start_spec c Hwf s HI Epc) as [HS _]. right.
      destruct HS as [s s' cyc HL HP HC|s s' n pre post HP|s s' n pre post HP HL Hnd Hids Hiv _ _ _|s s' s1 evd todo ->].
      * unfold failing_with in HF. rewrite HP in HF. destruct HF as [HF|[r HF]]; [|discriminate]. injection HF as <-.
        exists (rev (log1 c)), (ECycle cyc). unfold trace. rewrite HL. split; [reflexivity|].
        split; [reflexivity|]. exists cyc. split; [reflexivity|exact HC].
      * unfold failing_with in HF. rewrite HP in HF. destruct HF as [HF|[r HF]]; discriminate.
      * unfold failing_with in HF. rewrite HP in HF. destruct HF as [HF|[r HF]]; [|discriminate]. injection HF as <-.
        eexists (rev _), (EAsk n). unfold trace. rewrite HL. split; [reflexivity|].
        split; [reflexivity|]. split; [reflexivity|]. split; [|exact Hiv].
        apply Hids. apply in_app_iff. right; left; reflexivity.
      * destruct (main_not_failing _ _ HF).
    + destruct ph; injection E as <-; [destruct (main_not_failing _ _ HF)|destruct (drain_not_failing _ _ HF)].
    + injection E as <-. unfold failing_with in HF. cbn in HF. destruct HF as [HF|[r HF]]; discriminate.
    + injection E as <-. unfold failing_with in HF. cbn in HF. destruct HF as [HF|[r HF]]; discriminate.
  - destruct (s_pc s); try discriminate; injection E as <-;
      unfold failing_with in HF; cbn in HF; destruct HF as [HF|[r HF]]; discriminate.
  - left. destruct (ctl_cases c s s' HI E)
      as [ph kept sl rest n s' Epc Esl Ed Es|ph kept sl rest n s' Epc Esl Ed Ei Es
         |ph kept sl rest n s1 s' Epc Esl Ed Ei Es1 Es|ph kept sl rest n rec s' Epc Esl Ef Es
         |ph kept sl rest n rec s' Epc Esl Ef Es|ph kept sl rest n rec o s1 s2 s' Epc Esl Ef Es1 Es2 Es
         |kept s1 s' Epc Es1 Es|kept s1 s' Epc Es1 Es|e0 s' Epc Es|e0 sl rest s' Epc Ed Es|s' Epc Es|sl rest s' Epc Ed Es].
    1-3,5,6,8,11,12: exfalso; subst; unfold failing_with in HF; cbn in HF; destruct HF as [HF|[r HF]]; discriminate.
    + exfalso. subst s'. unfold failing_with in HF. cbn in HF. rewrite Epc in HF. destruct HF as [HF|[r HF]]; discriminate.
    + exfalso. subst s1. unfold failing_with in HF.
      destruct (dispatch_cases c s kept s' Hwf HI Epc Es) as [s' E1 E2 E3 E4|m0 s' E1 E2 E3 E4|s' E1 E2 E3];
        rewrite E1 in HF; cbn in HF; destruct HF as [HF|[r HF]]; discriminate.
    + subst s'. unfold failing_with in HF. cbn in HF. destruct HF as [HF|[r HF]]; [|discriminate]. injection HF as <-.
      apply Q; [right; eexists; exact Epc|reflexivity].
    + subst s'. unfold failing_with in HF. cbn in HF. destruct HF as [HF|[r HF]]; [discriminate|]. injection HF as <- _.
      apply Q; [right; eexists; exact Epc|reflexivity].
  - right. destruct (launchfail_cases c s s' HI E) as (ph & kept & sl & rest & n & Epc & Esl & _ & Ep & El & _).
    unfold failing_with in HF. rewrite Ep in HF. destruct HF as [HF|[r HF]]; [discriminate|]. injection HF as <- _.
    exists (trace s), (EBeforeRun (s_erec s) n). unfold trace. rewrite El. split; [reflexivity|].
    split; [reflexivity|]. split; [eexists; reflexivity|].
    pose proof (i_pc _ _ HI) as P. unfold pc_inv in P. rewrite Epc in P. destruct P as [A _]. unfold act in A.
    assert (Hid : In n (node_ids (c_dag c))).
    { eapply act_lv_ids; [exact A|]. unfold live. rewrite Epc, map_app, in_app_iff. right. left. rewrite Esl. reflexivity. }
    split; [exact Hid|].
    destruct (a_inv _ _ _ _ _ _ _ _ A n Hid) as [[_ H]|[H _]]; [exact H|exfalso].
    unfold ctl in E. rewrite Epc in E. rewrite Esl in E. cbn [co_st] in E. unfold run_first in E. rewrite Esl in E. cbn [co_node] in E.
    cbn zeta in E. change (s_ns (emit s (EBeforeRun (s_erec s) n))) with (s_ns s) in E. rewrite H in E. cbn [inval_eqb] in E.
    destruct (any_dep_failed (c_dag c) (s_ns s) n); discriminate E.
  - right. destruct (match s_pc s with Created | Suspended _ => tick c s | Clean _ _ _ => ctl c s true | _ => None end) as [s1|]; [|discriminate].
    exact (V s1 k E eq_refl).
  - left. destruct (s_fut s n); try discriminate. injection E as <-. eapply Q1; [exact HF|reflexivity|exact I].
  - left. destruct (s_fut s n); try discriminate. injection E as <-. eapply Q1; [exact HF|reflexivity|exact I].
  - left. injection E as <-. apply Q; [exact HF|reflexivity].
Qed.

Lemma run_failing z e : forall ls s, run_labels c (init z) ls = Some s -> failing_with e s ->
  exists ls1 l ls2 s1 s2 pre ev post,
    ls = ls1 ++ l :: ls2 /\ run_labels c (init z) ls1 = Some s1 /\ step c s1 l = Some s2 /\
    run_labels c s2 ls2 = Some s /\ trace s2 = pre ++ [ev] /\ cause c l ev e /\
    trace s = trace s2 ++ post /\ (forall x, In x post -> by_a_job x).
Proof.
  induction ls as [|l ls IH] using rev_ind; intros s E HF.
  - injection E as <-. destruct HF as [HF|[r HF]]; discriminate.
  - rewrite run_labels_app in E. destruct (run_labels c (init z) ls) as [s0|] eqn:E0; [|discriminate].
    cbn in E. destruct (step c s0 l) as [s'|] eqn:E1; [|discriminate]. injection E as ->.
    assert (HI : Inv c s0) by (eapply r_inv; [exact Hwf|exists ls; exact E0]).
    destruct (step_failing s0 l s e HI E1 HF) as [[H0 [new [T N]]]|(pre & ev & T & C)].
    + destruct (IH s0 eq_refl H0) as (ls1 & l0 & ls2 & s1 & s2 & pre & ev & post & A1 & A2 & A3 & A4 & A5 & A6 & A7 & A8).
      exists ls1, l0, (ls2 ++ [l]), s1, s2, pre, ev, (post ++ new).
      split; [rewrite A1, <- app_assoc; reflexivity|]. split; [exact A2|]. split; [exact A3|].
      split; [rewrite run_labels_app, A4; cbn; rewrite E1; reflexivity|]. split; [exact A5|]. split; [exact A6|].
      split; [rewrite T, A7; symmetry; apply app_assoc|].
      intros x Hx. apply in_app_iff in Hx. destruct Hx as [Hx|Hx]; auto.
    + exists ls, l, [], s0, s, pre, ev, []. split; [reflexivity|]. split; [exact E0|]. split; [exact E1|].
      split; [reflexivity|]. split; [exact T|]. split; [exact C|]. split; [symmetry; apply app_nil_r|intros x []].
Qed.

Lemma failure_cause : forall z ls s e, run_labels c (init z) ls = Some s -> result s = RThrow e ->
  exists ls1 l ls2 s1 s2 pre ev post,
    ls = ls1 ++ l :: ls2 /\ run_labels c (init z) ls1 = Some s1 /\ step c s1 l = Some s2 /\
    run_labels c s2 ls2 = Some s /\ trace s2 = pre ++ [ev] /\ cause c l ev e /\
    trace s = trace s2 ++ post /\ (forall x, In x post -> by_a_job x).
Proof.
  intros z ls s e E R. apply run_failing; [exact E|]. left. unfold result in R.
  destruct (s_pc s); try discriminate. injection R as ->. reflexivity.
Qed.

Lemma no_other_failure : forall z ls s e, acyclic (c_dag c) ->
  (forall n, In n (node_ids (c_dag c)) -> c_inval c n <> IvThrow) -> undisturbed ls ->
  run_labels c (init z) ls = Some s -> result s <> RThrow e.
Proof.
  intros z ls s e HA HI HU E R.
  destruct (failure_cause z ls s e E R) as (ls1 & l & ls2 & s1 & s2 & pre & ev & post & -> & _ & _ & _ & _ & C & _).
  assert (Hl : In l (ls1 ++ l :: ls2)) by (apply in_app_iff; right; left; reflexivity).
  destruct (HU l Hl) as [U1 U2]. destruct e as [|n|n|]; cbn in C.
  - destruct C as (_ & cyc & _ & C). exact (HA (is_cycle_has _ _ C)).
  - destruct C as (_ & _ & C1 & C2). exact (HI n C1 C2).
  - apply U1, C.
  - destruct C as [[k C] _]. exact (U2 k C).
Qed.

Lemma gone_step s l s' : inactive (s_pc s) -> s_pc s <> Finished -> step c s l = Some s' -> s_pc s' <> Finished.
Proof.
  intros Hp Hn E. destruct l; cbn in E; unfold tick, ctl in E.
  1-5: destruct (s_pc s) as [| | |e rest|rest| | | |]; try contradiction; try discriminate;
    try (injection E as <-; cbn; discriminate);
    destruct rest as [|sl rest]; try discriminate; try (injection E as <-; cbn; discriminate);
    destruct (destroy_one s sl); try discriminate; injection E as <-; cbn; discriminate.
  - destruct (s_fut s n); try discriminate. injection E as <-. exact Hn.
  - destruct (s_fut s n); try discriminate. injection E as <-. exact Hn.
  - injection E as <-. exact Hn.
Qed.

Lemma gone_run : forall ls s s', inactive (s_pc s) -> s_pc s <> Finished -> run_labels c s ls = Some s' ->
  s_pc s' <> Finished.
Proof.
  induction ls as [|l ls IH]; intros s s' Hp Hn E; cbn in E; [injection E as <-; exact Hn|].
  destruct (step c s l) as [s1|] eqn:E1; [|discriminate].
  apply (IH s1 s'); [apply (inactive_step c s l s1 Hp E1)|exact (gone_step s l s1 Hp Hn E1)|exact E].
Qed.

Lemma disturbed_fails : forall z s l s1 ls s2, reachable c z s ->
  l = LLaunchFail \/ (exists k, l = LVisThrow k) ->
  step c s l = Some s1 -> run_labels c s1 ls = Some s2 ->
  (forall er, result s2 <> RRecord er) /\
  exists new, trace s2 = trace s1 ++ new /\ forall x, In x new -> by_a_job x \/ x = EDestroyed.
Proof.
  intros z s l s1 ls s2 HR Hl E1 E2. pose proof (r_inv c z s Hwf HR) as HI.
  assert (HP : exists e r, s_pc s1 = Unwind e r).
  { destruct Hl as [->|[k ->]]; cbn [step] in E1.
    - destruct (launchfail_cases c s s1 HI E1) as (ph & kept & sl & rest & n & _ & _ & _ & Ep & _). eauto.
    - destruct (match s_pc s with Created | Suspended _ => tick c s | Clean _ _ _ => ctl c s true | _ => None end) as [s0|]; [|discriminate].
      destruct (visthrow_cases _ _ _ _ E1) as (es & r & -> & _). eexists _, _. reflexivity. }
  destruct HP as (e & r & HP).
  assert (Hi : inactive (s_pc s1)) by (rewrite HP; exact I).
  split.
  - intros er Hr. assert (Hn : s_pc s2 <> Finished) by (eapply gone_run; [exact Hi|rewrite HP; discriminate|exact E2]).
    unfold result in Hr. destruct (s_pc s2); try discriminate. apply Hn. reflexivity.
  - destruct (inactive_run c ls s1 s2 Hi E2) as (_ & new & T & N). exists new. split; [exact T|].
    intros x Hx. specialize (N x Hx). destruct x; try contradiction; [left; exact I|left; exact I|right; reflexivity].
Qed.

Lemma unlaunched : forall z s n, reachable c z s -> result s = RThrow (ExcLaunch n) ->
  ~ In (ELaunch n) (trace s) /\ ~ In (EBegin n) (trace s) /\ ~ recorded (trace s) n.
Proof.
  intros z s n [ls E] R.
  destruct (failure_cause z ls s _ E R) as (ls1 & l & ls2 & s1 & s2 & pre & ev & post & _ & E1 & E2 & _ & T & C & T2 & N).
  cbn in C. destruct C as (-> & [er ->] & _ & _).
  pose proof (r_inv c z s1 Hwf (ex_intro _ ls1 E1)) as HI.
  pose proof (r_inv c z s Hwf (ex_intro _ ls E)) as HI2.
  destruct (launchfail_cases c s1 s2 HI E2) as (ph & kept & sl & rest & m & Epc & Esl & _ & _ & El & _).
  assert (m = n /\ pre = trace s1) as [-> ->].
  { unfold trace in T. rewrite El in T. cbn [rev] in T. apply app_inj_tail in T. destruct T as [T1 T3].
    split; [congruence|]. symmetry. exact T1. }
  pose proof (i_pc _ _ HI) as P. unfold pc_inv in P. rewrite Epc in P. destruct P as [A _]. unfold act in A.
  assert (Hlv : In (Coro n CFresh) (live s1)).
  { unfold live. rewrite Epc, in_app_iff. right. left. exact Esl. }
  destruct (a_idle _ _ _ _ _ _ _ _ A n (or_intror Hlv)) as (_ & Hf & Hb).
  pose proof (i_core _ _ HI) as K. pose proof (k_fut _ _ _ _ K n) as F. rewrite Hf in F.
  assert (L1 : ~ In (ELaunch n) (trace s)).
  { rewrite T2, T. intros H. apply in_app_iff in H. destruct H as [H|H].
    - apply in_app_iff in H. destruct H as [H|[H|[]]]; [|discriminate]. apply in_rev in H. exact (proj1 F H).
    - destruct (N _ H). }
  split; [exact L1|]. split.
  - intros H. apply L1. unfold trace in *. rewrite <- in_rev in *. eapply begin_launch; [apply (i_core _ _ HI2)|exact H].
  - intros (r & Hr & Hn).
    assert (Ha : In r (records (trace s1))).
    { rewrite T2, T, !records_app in Hr. apply in_app_iff in Hr. destruct Hr as [Hr|Hr].
      - apply in_app_iff in Hr. destruct Hr as [Hr|[]]. exact Hr.
      - exfalso. clear - Hr N. induction post as [|x t IH]; [destruct Hr|].
        pose proof (N x (or_introl eq_refl)) as Nx. destruct x; try contradiction;
          (apply IH; [intros y Hy; apply N; right; exact Hy|exact Hr]). }
    rewrite <- recs_trace in Ha.
    destruct (a_snap _ _ _ _ _ _ _ _ A) as [Hs _]. rewrite <- Hs in Ha.
    pose proof (act_nodup _ _ _ _ _ _ _ _ (proj1 Hwf) A) as ND.
    apply NoDup_app_iff in ND. destruct ND as (_ & ND & _). apply NoDup_app_iff in ND.
    destruct ND as (_ & _ & ND). apply (ND (co_node (Coro n CFresh))).
    + apply in_map. exact Hlv.
    + cbn [co_node]. rewrite <- Hn. apply in_map. exact Ha.
Qed.
End Fail.
