(** A sharper bound on the number of ticks (C13). *)
From Coq Require Import Lia String Permutation.
From Verif Require Import Model.Common Model.Records Model.Jobs Model.TaskSet Model.Dag
     Model.Sched Model.Exec Spec.Graph Spec.Trace
     Proofs.Sets Proofs.SchedFacts Proofs.InvalFacts Proofs.TraceFacts Proofs.ExecInv
     Proofs.ExecStep Proofs.ExecCtl Proofs.LogFacts Proofs.ExecProps Proofs.ExecProps2
     Proofs.StepCases Proofs.ExecProps3 Proofs.Ticks.
Open Scope nat_scope.
Open Scope list_scope.

Definition some {A} (l : list A) : nat := match l with [] => 0 | _ => 1 end.
Lemma some_app {A} (l : list A) x : some (l ++ [x]) = 1.
Proof. destruct l; reflexivity. Qed.
Lemma some_le {A} (l : list A) : some l <= 1.
Proof. destruct l; cbn; lia. Qed.
Lemma some_nil {A} (l : list A) : l <> [] -> some l = 1.
Proof. destruct l; [congruence|reflexivity]. Qed.

(** Every tick starts a task or finds a job running, but for two at the end. *)
Definition sharp (c : config) (t : nat) (s : state) : Prop :=
  let N := List.length (node_ids (c_dag c)) in
  let W := tmo (s_log s) in
  match s_pc s with
  | Created => t = 0
  | Suspended PMain => t + List.length (s_todo s) <= N + W /\ s_coros s <> []
  | Suspended PDrain => t + some (s_coros s) <= N + W + 1
  | Clean PMain kept _ => t + some kept + List.length (s_todo s) <= N + W + 1
  | Clean PDrain kept _ => t + some kept <= N + W + 1
  | Bad _ => t <= N + W + 3
  | _ => t <= N + W + 2
  end.

Lemma sharp_step c t s l s' : wf_dag (c_dag c) -> Inv c s -> sharp c t s -> step c s l = Some s' ->
  sharp c (t + (if is_tick l then 1 else 0)) s'.
Proof.
  intros Hwf HI T E. assert (HI' : Inv c s') by (eapply step_inv; eassumption).
  set (N := List.length (node_ids (c_dag c))).
  assert (Bound : match s_pc s with Bad _ => t <= N + tmo (s_log s) + 3 | Finished | Failed _ | Destroyed | Destroying _ | Unwind _ _ => t <= N + tmo (s_log s) + 2 | _ => t <= N + tmo (s_log s) + 1 end).
  { unfold sharp in T. destruct (s_pc s) as [|[|]|[|] kept rest| | | | | |]; fold N in T; try lia. }
  assert (Hdrain : t + some (s_coros s) <= N + tmo (s_log s) + 1 -> sharp c (t + 1) (drain_top s)).
  { intros Y. unfold drain_top. destruct (s_coros s) eqn:Ec; unfold sharp; cbn -[Nat.mul]; fold N; unfold tmo in *; cbn in *; lia. }
  assert (Hmain : s_pc s = Suspended PMain -> sharp c (t + 1) (main_top s)).
  { intros Epc. unfold sharp in T. rewrite Epc in T. destruct T as [T1 T2]. fold N in T1.
    unfold main_top. destruct (s_todo s) eqn:Et.
    - apply Hdrain. rewrite (some_nil _ T2). cbn in T1. lia.
    - unfold sharp. cbn -[Nat.mul List.length]. rewrite Et. fold N. unfold tmo in *. cbn -[List.length]. lia. }
  assert (Hstart : s_pc s = Created -> sharp c 1 (start c s)).
  { intros Epc. destruct (start_spec c Hwf s HI Epc) as [R [_ [Rc _]]].
    inversion R as [? ? cyc L1 L2 L3|? ? m pre post L2 L1 L3 L4 L5 L6 L7|? ? m pre post L2 L1 L3 L4 L5 L6 L7
                 |? ? s1 evd todo Es T1 El Ep Et Hso Ec]; subst.
    - unfold sharp. rewrite L2. lia.
    - unfold sharp. rewrite L2. lia.
    - unfold sharp. rewrite L2. lia.
    - rewrite Es. unfold main_top, drain_top. rewrite Ec.
      pose proof (t_act _ _ T1) as A. pose proof (Permutation_length (a_perm _ _ _ _ _ _ _ _ A)) as Hl.
      rewrite Ec in Hl. cbn in Hl. rewrite app_length, map_length in Hl.
      destruct (s_todo s1) eqn:Et.
      + unfold sharp. cbn. lia.
      + unfold sharp. cbn -[Nat.mul List.length]. rewrite Et. fold N. fold N in Hl. cbn [List.length] in *. lia. }
  destruct l; cbn [is_tick]; rewrite ?Nat.add_0_r; cbn [step] in E.
  - unfold tick in E. destruct (s_pc s) as [|ph| | | | | | |] eqn:Epc; try discriminate.
    + inversion E; subst. unfold sharp in T. rewrite Epc in T. subst t. apply Hstart. reflexivity.
    + destruct ph; inversion E; subst; [apply Hmain; reflexivity|apply Hdrain]. unfold sharp in T. rewrite Epc in T. exact T.
    + inversion E; subst. unfold sharp. cbn -[Nat.mul]. fold N. lia.
    + inversion E; subst. unfold sharp. cbn -[Nat.mul]. fold N. lia.
  - unfold sharp in *.
    destruct (s_pc s) as [|[|]| | | | | | |]; try discriminate; inversion E; subst; unfold tmo in *; cbn -[Nat.mul]; fold N; lia.
  - destruct (ctl_cases c s s' HI E) as
      [ph kept sl rest n s' Epc Esl _ Es|ph kept sl rest n s' Epc Esl _ _ Es
      |ph kept sl rest n s1 s' Epc Esl _ _ Es1 Es|ph kept sl rest n rec s' Epc Esl _ Es
      |ph kept sl rest n rec s' Epc Esl _ Es|ph kept sl rest n rec o s1 s2 s' Epc Esl _ Es1 Es2 Es
      |kept s1 s' Epc Es1 Es|kept s1 s' Epc Es1 Es|e s' Epc Es|e sl rest s' Epc _ Es|s' Epc Es|sl rest s' Epc _ Es];
      pose proof (i_pc _ _ HI) as P; unfold pc_inv in P; rewrite Epc in P;
      unfold sharp in T; rewrite Epc in T; fold N in T.
    + subst s'. unfold sharp. cbn -[Nat.mul]. fold N. unfold tmo in *. destruct ph; cbn; exact T.
    + subst s'. unfold sharp. cbn -[Nat.mul]. fold N. unfold tmo in *. destruct ph; cbn; exact T.
    + subst s' s1. unfold sharp. cbn -[Nat.mul]. fold N. unfold tmo in *. destruct ph; cbn; exact T.
    + subst s'. unfold sharp. cbn -[Nat.mul]. rewrite Epc. fold N. unfold tmo in *. destruct ph; cbn; exact T.
    + subst s'. unfold sharp. cbn -[Nat.mul some]. fold N. rewrite some_app. unfold tmo in *. pose proof (some_le kept).
      destruct ph; cbn -[some]; lia.
    + assert (Ec : s_coros s' = s_coros s /\ s_todo s' = s_todo s /\ tmo (s_log s') = tmo (s_log s) /\ s_pc s' = Clean ph kept rest).
      { subst s' s1 s2. destruct (negb _); cbn; auto. }
      destruct Ec as [Ec [Et [El Ep]]]. unfold sharp. rewrite Ep, Et, El. fold N. exact T.
    + subst s1. destruct P as [A [_ [_ [P2 _]]]]. cbn [List.length] in P2.
      assert (Hc : compact (s_coros s) kept <> [] -> some kept = 1).
      { intros H. apply some_nil. intros ->. apply H. unfold compact. rewrite combine_nil. reflexivity. }
      destruct (dispatch_cases c s kept s' Hwf HI Epc Es) as [s' E1 E2 E3 E4|m s' E1 E2 E3 E4|s' E1 E2 E3].
      * clear Es; subst s'. unfold sharp. cbn -[Nat.mul]. fold N. cbn [s_coros set_coros] in E2. split; [|exact E2]. rewrite (Hc E2) in T. lia.
      * clear Es; subst s'. cbn [s_todo set_coros] in E2. unfold act in A.
        pose proof (erase_length m (s_todo s) (a_sorted _ _ _ _ _ _ _ _ A) E2) as El.
        unfold sharp. cbn -[Nat.mul set_erase]. fold N.
        split; [|intros H; destruct (compact (s_coros s) kept); discriminate].
        unfold nid in *. lia.
      * clear Es; subst s'. unfold sharp. cbn -[Nat.mul]. fold N. cbn [s_coros set_coros] in E2. split; [|exact E2]. rewrite (Hc E2) in T. lia.
    + subst s1 s'. unfold sharp. cbn -[Nat.mul some]. fold N.
      assert (Hc : some (compact (s_coros s) kept) <= some kept).
      { destruct kept; [unfold compact; rewrite combine_nil; reflexivity|apply some_le]. }
      lia.
    + subst s'. unfold sharp. cbn -[Nat.mul]. fold N. exact T.
    + subst s'. unfold sharp. cbn -[Nat.mul]. fold N. exact T.
    + subst s'. unfold sharp, tmo in *. cbn -[Nat.mul]. fold N. exact T.
    + subst s'. unfold sharp. cbn -[Nat.mul]. fold N. exact T.
  - destruct (launchfail_cases c s s' HI E) as [ph [kept [sl [rest [n [Epc [_ [_ [Ep [El _]]]]]]]]]].
    unfold sharp. rewrite Ep, El. unfold tmo in *. cbn -[Nat.mul]. fold N. rewrite Epc in Bound. lia.
  - assert (Hpc : exists es rest, s' = set_pc (emits s es) (Unwind ExcVisitor rest)).
    { destruct (match s_pc s with Created | Suspended _ => tick c s | Clean _ _ _ => ctl c s true | _ => None end) as [s1|]; [|discriminate].
      unfold visitor_throws in E. destruct (cut_at k _) as [es|]; [|discriminate]. inversion E. eauto. }
    destruct Hpc as [es [rest ->]]. unfold sharp. cbn -[Nat.mul emits].
    assert (El : s_log (set_pc (emits s es) (Unwind ExcVisitor rest)) = rev es ++ s_log s) by (rewrite emits_eq; destruct s; reflexivity).
    cbn [s_log set_pc] in El |- *. rewrite El. unfold tmo in *. rewrite filter_app, app_length. fold N.
    destruct (s_pc s); try discriminate E; try lia.
  - destruct (s_fut s n); try discriminate. inversion E; subst. unfold sharp, tmo in *. cbn -[Nat.mul]. exact T.
  - destruct (s_fut s n); try discriminate. inversion E; subst. unfold sharp, tmo in *. cbn -[Nat.mul]. exact T.
  - inversion E; subst. unfold sharp, tmo in *. cbn -[Nat.mul]. exact T.
Qed.

Lemma sharp_run c : wf_dag (c_dag c) -> forall ls t s s', Inv c s -> sharp c t s ->
  run_labels c s ls = Some s' -> sharp c (t + ticks ls) s'.
Proof.
  intros Hwf. induction ls as [|l ls IH]; intros t s s' HI T E.
  - inversion E; subst. unfold ticks; cbn. rewrite Nat.add_0_r. exact T.
  - cbn in E. destruct (step c s l) as [s1|] eqn:E1; [|discriminate].
    assert (HI1 : Inv c s1) by (eapply step_inv; eassumption).
    pose proof (sharp_step c t s l s1 Hwf HI T E1) as T1.
    specialize (IH _ _ _ HI1 T1 E).
    replace (t + ticks (l :: ls)) with (t + (if is_tick l then 1 else 0) + ticks ls); [exact IH|].
    unfold ticks. cbn. destruct (is_tick l); cbn; lia.
Qed.

Lemma sharp_ticks : forall c z ls s,
  wf_dag (c_dag c) -> run_labels c (init z) ls = Some s -> (forall b, s_pc s <> Bad b) ->
  let N := List.length (node_ids (c_dag c)) in
  ticks ls <= (if N =? 0 then 1 else N + 2) + timeouts (trace s).
Proof.
  intros c z ls s Hwf E Hb N. pose proof (ticks_bounded c z ls s Hwf E Hb) as B.
  pose proof (sharp_run c Hwf ls 0 (init z) s (inv_init c z) eq_refl E) as T. cbn in T.
  rewrite timeouts_log in *. fold N in B. destruct (Nat.eqb_spec N 0) as [Z|Z]; [lia|]. unfold sharp in T. fold N in T.
  destruct (s_pc s) as [|[|]|[|] kept rest| | | | | |] eqn:Epc; try lia. destruct (Hb b eq_refl).
Qed.
