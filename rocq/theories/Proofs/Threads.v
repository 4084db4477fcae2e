(** The control thread and the jobs (C64). *)
From Coq Require Import Lia String Permutation.
From Verif Require Import Model.Common Model.Records Model.Jobs Model.TaskSet Model.Dag
     Model.Sched Model.Exec Spec.Graph Spec.Trace
     Proofs.Sets Proofs.SchedFacts Proofs.InvalFacts Proofs.TraceFacts Proofs.ExecInv
     Proofs.ExecStep Proofs.ExecCtl Proofs.LogFacts Proofs.ExecProps Proofs.ExecProps2
     Proofs.StepCases Proofs.ExecProps3 Proofs.Ticks.
Open Scope nat_scope.
Open Scope list_scope.

Definition begun (f : fstate) : bool := match f with FRunning | FReady _ => true | _ => false end.
Definition over (f : fstate) : bool := match f with FReady _ => true | _ => false end.

Lemma begun_log c s n : Inv c s -> In (EBegin n) (s_log s) <-> begun (s_fut s n) = true.
Proof.
  intros HI. pose proof (k_fut _ _ _ _ (i_core _ _ HI) n) as H.
  destruct (s_fut s n); cbn in *; split; intros; try discriminate; tauto.
Qed.

Lemma over_log c s n : Inv c s -> (exists o, In (EEnd n o) (s_log s)) <-> over (s_fut s n) = true.
Proof.
  intros HI. pose proof (k_fut _ _ _ _ (i_core _ _ HI) n) as H.
  destruct (s_fut s n) eqn:E; cbn in *; split; intros G; try discriminate; try reflexivity;
    try (exists o; apply H); destruct G as [o' G]; exfalso; eapply H; eassumption.
Qed.

Definition fut_moved (c : config) (s s' : state) (l : label) (n : nid) : Prop :=
  s_fut s' n = s_fut s n \/
  (s_fut s' n = FRunning /\ ((l = LBegin n /\ s_fut s n = FPending) \/ (l = LCtl /\ s_fut s n = FDeferred))) \/
  (exists o, s_fut s' n = FReady o /\ l = LEnd n o /\ s_fut s n = FRunning) \/
  (begun (s_fut s' n) = false /\ s_fut s n = FNone /\ l = LCtl).

Lemma upd_at {A} (f : nid -> A) n v m : upd f n v m = if Nat.eqb m n then v else f m.
Proof. destruct (upd_cases f n v m) as [[-> ->]|[H ->]]; [rewrite Nat.eqb_refl; reflexivity|apply Nat.eqb_neq in H; rewrite H; reflexivity]. Qed.

Lemma fut_step c s l s' n : wf_dag (c_dag c) -> Inv c s -> step c s l = Some s' -> fut_moved c s s' l n.
Proof.
  intros Hwf HI E.
  assert (HS : forall l0, s_fut s' = s_fut s -> fut_moved c s s' l0 n) by (intros l0 Hx; left; rewrite Hx; reflexivity).
  destruct l; cbn [step] in E.
  - apply HS. unfold tick in E. destruct (s_pc s) as [|ph| | | | | | |] eqn:Epc; try discriminate.
    + inversion E. apply (start_spec c Hwf s HI Epc).
    + unfold main_top, drain_top in E.
      destruct ph; [destruct (s_todo s)|]; try destruct (s_coros s); inversion E; reflexivity.
    + inversion E; reflexivity.
    + inversion E; reflexivity.
  - apply HS. destruct (s_pc s); try discriminate; inversion E; subst; reflexivity.
  - destruct (ctl_cases c s s' HI E) as
      [ph kept sl rest n0 s' Epc Esl _ Es|ph kept sl rest n0 s' Epc Esl _ _ Es
      |ph kept sl rest n0 s1 s' Epc Esl _ _ Es1 Es|ph kept sl rest n0 rec s' Epc Esl Ef Es
      |ph kept sl rest n0 rec s' Epc Esl _ Es|ph kept sl rest n0 rec o s1 s2 s' Epc Esl _ Es1 Es2 Es
      |kept s1 s' Epc Es1 Es|kept s1 s' Epc Es1 Es|e s' Epc Es|e sl rest s' Epc _ Es|s' Epc Es|sl rest s' Epc _ Es];
      try (apply HS; subst s'; try subst s1; reflexivity).
    + destruct (upd_cases (s_fut s) n0 (if deferred c then FDeferred else FPending) n) as [[-> H]|[_ H]].
      * right; right; right. subst s' s1. cbn. rewrite H. split; [destruct (deferred c); reflexivity|].
        split; [|reflexivity].
        pose proof (i_pc _ _ HI) as P; unfold pc_inv in P; rewrite Epc in P; destruct P as [A _].
        assert (Hin : In (Coro n0 CFresh) (live s)) by (unfold live; rewrite Epc; apply in_app_iff; right; left; exact Esl).
        apply (a_idle _ _ _ _ _ _ _ _ A n0 (or_intror Hin)).
      * left. subst s' s1. cbn. exact H.
    + destruct (upd_cases (s_fut s) n0 FRunning n) as [[-> H]|[_ H]].
      * right; left. subst s'. cbn. auto.
      * left. subst s'. cbn. exact H.
    + apply HS. subst s' s2 s1. destruct (negb _); reflexivity.
    + apply HS. subst s1. destruct (dispatch_cases c s kept s' Hwf HI Epc Es) as [s' X1 X2 X3 X4|m0 s' X1 X2 X3 X4|s' X1 X2 X3];
          rewrite X1; reflexivity.
  - apply HS. destruct (launchfail_cases c s s' HI E) as [ph [kept [sl [rest [n0 [Epc [_ [_ [Ep [El [_ [Ek [Ef _]]]]]]]]]]]]]. exact Ef.
  - apply HS. destruct (match s_pc s with Created | Suspended _ => tick c s | Clean _ _ _ => ctl c s true | _ => None end) as [s1|]; [|discriminate].
    destruct (visthrow_cases s s1 k s' E) as [es [rest [Es _]]]. rewrite Es, emits_eq. destruct s; reflexivity.
  - destruct (s_fut s n0) eqn:Ef; try discriminate. inversion E; subst.
    destruct (upd_cases (s_fut s) n0 FRunning n) as [[-> H]|[_ H]]; [|left; exact H].
    right; left. cbn. auto.
  - destruct (s_fut s n0) eqn:Ef; try discriminate. inversion E; subst.
    destruct (upd_cases (s_fut s) n0 (FReady o) n) as [[-> H]|[_ H]]; [|left; exact H].
    right; right; left. exists o. cbn. auto.
  - apply HS. inversion E; reflexivity.
Qed.

(** ** Who executes the jobs *)
Lemma who_begins : forall c z s l s' n,
  wf_dag (c_dag c) -> reachable c z s -> step c s l = Some s' ->
  ~ In (EBegin n) (trace s) -> In (EBegin n) (trace s') ->
  (0 < c_threads c -> l = LBegin n) /\ (c_threads c = 0 -> l = LCtl /\ tick_running s = true).
Proof.
  intros c z s l s' n Hwf HR E H1 H2.
  pose proof (r_inv c z s Hwf HR) as HI. assert (HI' : Inv c s') by (eapply step_inv; eassumption).
  rewrite trace_in in H1, H2. rewrite begun_log in H1, H2 by eassumption.
  pose proof (k_kind _ _ _ _ (i_core _ _ HI) n) as Hk. unfold deferred in Hk.
  destruct (fut_step c s l s' n Hwf HI E) as [H|[[H [[-> Hf]|[-> Hf]]]|[[o [H [-> Hf]]]|[H [Hf ->]]]]].
  - congruence.
  - split; [reflexivity|]. intros H0. rewrite H0 in Hk. cbn in Hk. congruence.
  - split; intros H0; [destruct (Nat.eqb_spec (c_threads c) 0); [lia|congruence]|].
    split; [reflexivity|]. assert (Hd : deferred c = true) by (unfold deferred; rewrite H0; reflexivity).
    destruct (i_defer _ _ HI Hd n) as [ph [sl [rest [Ep _]]]]; [rewrite Hf; exact I|].
    unfold tick_running. rewrite Ep. reflexivity.
  - rewrite Hf in H1. cbn in H1. congruence.
  - congruence.
Qed.

(** While a job runs with 0 threads, neither client nor control thread can do anything. *)
Lemma control_thread_in_job : forall c z s n l,
  wf_dag (c_dag c) -> reachable c z s -> c_threads c = 0 -> In n (running (trace s)) ->
  env_label l = false -> step c s l = None.
Proof.
  intros c z s n l Hwf HR H0 Hn Hl. pose proof (r_inv c z s Hwf HR) as HI.
  assert (Hf : s_fut s n = FRunning) by (apply (k_run _ _ _ _ (i_core _ _ HI)); exact Hn).
  assert (Hd : deferred c = true) by (unfold deferred; rewrite H0; reflexivity).
  destruct (i_defer _ _ HI Hd n) as [ph [sl [rest [Ep En]]]]; [rewrite Hf; exact I|].
  pose proof (k_unfin _ _ _ _ (i_core _ _ HI) n) as Hw. rewrite Hf in Hw. destruct (Hw I) as [rec Hin].
  pose proof (k_bound _ _ _ _ (i_core _ _ HI)) as Hb. rewrite H0 in Hb. unfold live in Hin, Hb. rewrite Ep in Hin, Hb.
  cbn in Hin, Hb. destruct rest; [|cbn in Hb; lia]. destruct Hin as [Hin|[]].
  assert (Hc : ctl c s true = None).
  { unfold ctl. rewrite Ep, Hin. cbn. unfold run_poll. rewrite Hin. cbn. rewrite Hf, Hd. reflexivity. }
  destruct l; try discriminate; cbn.
  - unfold tick. rewrite Ep. reflexivity.
  - rewrite Ep. reflexivity.
  - exact Hc.
  - unfold ctl. rewrite Ep, Hin. reflexivity.
  - rewrite Ep, Hc. reflexivity.
Qed.

(** ** tick() does not wait for jobs *)
Lemma tick_never_waits : forall c z s,
  wf_dag (c_dag c) -> reachable c z s -> 0 < c_threads c -> tick_running s = true ->
  (forall e rest, s_pc s <> Unwind e rest) -> exists s', step c s LCtl = Some s'.
Proof.
  intros c z s Hwf HR H0 Ht Hu. pose proof (r_inv c z s Hwf HR) as HI.
  unfold tick_running in Ht. destruct (s_pc s) as [|ph|ph kept rest|e rest|rest| | | |] eqn:Epc; try discriminate.
  2:{ destruct (Hu e rest eq_refl). }
  assert (Hd : deferred c = false) by (unfold deferred; apply Nat.eqb_neq; lia).
  cbn. unfold ctl. rewrite Epc. destruct rest as [|sl rest]; [destruct ph; eauto|].
  destruct (sl_coro sl) as [n st] eqn:Esl. cbn [co_st]. destruct st as [|rec].
  - unfold run_first. rewrite Esl. cbn [co_node]. destruct (inval_eqb _ _); [eauto|].
    cbv zeta. destruct (any_dep_failed _ _ _); [eauto|]. destruct (inval_eqb _ _); eauto.
  - pose proof (i_pc _ _ HI) as P; unfold pc_inv in P; rewrite Epc in P; destruct P as [A _].
    assert (Hin : In (Coro n (CWait rec)) (live s)) by (unfold live; rewrite Epc; apply in_app_iff; right; left; exact Esl).
    pose proof (w_fut _ _ _ _ _ _ (a_wait _ _ _ _ _ _ _ _ A n rec Hin)) as Hf.
    unfold run_poll. rewrite Esl. cbn [co_node]. destruct (s_fut s n); eauto; [congruence|rewrite Hd; eauto].
Qed.

Definition slot_weight (s : state) (sl : slot) : nat :=
  match co_st (sl_coro sl) with
  | CFresh => 3
  | CWait _ => match s_fut s (co_node (sl_coro sl)) with FDeferred => 2 | _ => 1 end
  end.
Definition weight (s : state) (l : list slot) : nat := fold_right (fun sl a => slot_weight s sl + a) 0 l.
Definition in_tick (c : config) (s : state) : nat :=
  match s_pc s with
  | Clean _ _ rest => width c + 3 + weight s rest
  | Unwind _ rest => 1 + List.length rest
  | _ => 0
  end.

Lemma weight_le s l : weight s l <= 3 * List.length l.
Proof.
  induction l as [|sl l IH]; [cbn; lia|]. unfold weight in *. cbn [fold_right List.length].
  unfold slot_weight at 1. destruct (co_st _); [lia|]. destruct (s_fut _ _); lia.
Qed.

Lemma weight_ext s s' l : (forall sl, In sl l -> slot_weight s' sl <= slot_weight s sl) -> weight s' l <= weight s l.
Proof.
  induction l as [|sl l IH]; intros H; [cbn; lia|]. unfold weight in *. cbn [fold_right].
  pose proof (H sl (or_introl eq_refl)). specialize (IH (fun x Hx => H x (or_intror Hx))). lia.
Qed.

Lemma in_tick_step c s l s' : wf_dag (c_dag c) -> Inv c s -> inner_label l = true -> step c s l = Some s' ->
  tick_running s = true -> in_tick c s' + (if env_label l then 0 else 1) <= in_tick c s.
Proof.
  intros Hwf HI Hl E Ht. assert (HI' : Inv c s') by (eapply step_inv; eassumption).
  pose proof (k_bound _ _ _ _ (i_core _ _ HI')) as Hlen'. fold (width c) in Hlen'.
  assert (Hund : forall e r, s_pc s' = Unwind e r -> in_tick c s' <= 1 + width c).
  { intros e r Ep. unfold in_tick. rewrite Ep. unfold live in Hlen'. rewrite Ep, map_length in Hlen'. lia. }
  assert (HEnv : forall n f, s' = set_fut s n f \/ (exists e, s' = set_fut (emit s e) n f) -> f <> FDeferred -> in_tick c s' <= in_tick c s).
  { intros n f Hs Hf. assert (Ep : s_pc s' = s_pc s) by (destruct Hs as [->|[e ->]]; reflexivity).
    assert (Ef : forall m, s_fut s' m = s_fut s m \/ s_fut s' m = f).
    { intros m. destruct (upd_cases (s_fut s) n f m) as [[-> H]|[_ H]];
        destruct Hs as [->|[e ->]]; cbn; rewrite H; auto. }
    unfold in_tick. rewrite Ep. destruct (s_pc s); try lia.
    apply Nat.add_le_mono_l, weight_ext. intros sl _. unfold slot_weight. destruct (co_st _); [lia|].
    destruct (Ef (co_node (sl_coro sl))) as [->| ->]; [lia|]. destruct f; try congruence; destruct (s_fut s _); lia. }
  destruct l; try discriminate; cbn [env_label]; rewrite ?Nat.add_0_r; cbn [step] in E.
  - destruct (ctl_cases c s s' HI E) as
      [ph kept sl rest n s' Epc Esl _ Es|ph kept sl rest n s' Epc Esl _ _ Es
      |ph kept sl rest n s1 s' Epc Esl _ _ Es1 Es|ph kept sl rest n rec s' Epc Esl Ef Es
      |ph kept sl rest n rec s' Epc Esl Ef Es|ph kept sl rest n rec o s1 s2 s' Epc Esl Ef Es1 Es2 Es
      |kept s1 s' Epc Es1 Es|kept s1 s' Epc Es1 Es|e s' Epc Es|e sl rest s' Epc _ Es|s' Epc Es|sl rest s' Epc _ Es];
      unfold tick_running in Ht; rewrite Epc in Ht; try discriminate.
    + assert (W : weight s' rest <= weight s rest) by (apply weight_ext; intros; subst s'; apply Nat.le_refl).
      unfold in_tick. rewrite Epc. replace (s_pc s') with (Clean ph kept rest) by (subst s'; reflexivity).
      cbn [weight fold_right]. fold (weight s rest). unfold slot_weight. rewrite Esl. cbn [co_st]. lia.
    + assert (W : weight s' rest <= weight s rest) by (apply weight_ext; intros; subst s'; apply Nat.le_refl).
      unfold in_tick. rewrite Epc. replace (s_pc s') with (Clean ph kept rest) by (subst s'; reflexivity).
      cbn [weight fold_right]. fold (weight s rest). unfold slot_weight. rewrite Esl. cbn [co_st]. lia.
    + pose proof (i_pc _ _ HI) as P; unfold pc_inv in P; rewrite Epc in P; destruct P as [A _].
      pose proof (act_nodup c _ _ _ _ _ _ _ (proj1 Hwf) A) as Hnd.
      apply NoDup_app_iff in Hnd. destruct Hnd as [_ [Hnd _]]. apply NoDup_app_iff in Hnd. destruct Hnd as [Hnd _].
      unfold live in Hnd. rewrite Epc in Hnd. rewrite map_app in Hnd. apply NoDup_app_iff in Hnd.
      destruct Hnd as [_ [Hnd _]]. cbn [map] in Hnd. rewrite Esl in Hnd. cbn [co_node] in Hnd.
      inversion Hnd as [|? ? Hni _]; subst.
      set (s' := set_pc _ _) in *.
      assert (Ef : forall m, m <> n -> s_fut s' m = s_fut s m) by (intros m Hm; cbn; apply upd_other, Hm).
      assert (W : weight s' rest <= weight s rest).
      { apply weight_ext. intros sl' Hin. unfold slot_weight. destruct (co_st (sl_coro sl')); [lia|].
        rewrite Ef; [lia|]. intros He. apply Hni. rewrite <- He. apply in_map, in_map, Hin. }
      unfold in_tick. rewrite Epc. replace (s_pc s') with (Clean ph kept (Slot (sl_node sl) (Coro n (CWait (new_record c n (s_clock s)))) :: rest)) by reflexivity.
      cbn [weight fold_right]. fold (weight s rest) (weight s' rest). unfold slot_weight. rewrite Esl. cbn [co_st sl_coro].
      destruct (s_fut s' _); lia.
    + assert (Ep : s_pc s' = Clean ph kept (sl :: rest)) by (subst s'; exact Epc).
      unfold in_tick. rewrite Ep, Epc.
      assert (W : weight s' rest <= weight s rest).
      { apply weight_ext. intros sl' _. unfold slot_weight. destruct (co_st (sl_coro sl')); [lia|].
        subst s'. cbn. rewrite upd_at. destruct (Nat.eqb _ _); destruct (s_fut s (co_node (sl_coro sl'))); try apply Nat.le_refl; auto with arith. }
      cbn [weight fold_right]. fold (weight s rest) (weight s' rest).
      assert (slot_weight s sl = 2) by (unfold slot_weight; rewrite Esl; cbn; rewrite Ef; reflexivity).
      assert (slot_weight s' sl = 1) by (unfold slot_weight; rewrite Esl; cbn; subst s'; cbn; rewrite upd_same; reflexivity).
      lia.
    + unfold in_tick. rewrite Epc. replace (s_pc s') with (Clean ph (kept ++ [Coro n (CWait rec)]) rest) by (subst s'; reflexivity).
      assert (W : weight s' rest <= weight s rest) by (apply weight_ext; intros; subst s'; apply Nat.le_refl).
      cbn [weight fold_right]. fold (weight s rest). unfold slot_weight. rewrite Esl. cbn [co_st co_node]. destruct (s_fut s n); lia.
    + unfold in_tick. rewrite Epc. replace (s_pc s') with (Clean ph kept rest) by (subst s'; reflexivity).
      assert (Ef' : s_fut s' = s_fut s) by (subst s' s2 s1; destruct (negb _); reflexivity).
      assert (W : weight s' rest <= weight s rest) by (apply weight_ext; intros; unfold slot_weight; rewrite Ef'; apply Nat.le_refl).
      cbn [weight fold_right]. fold (weight s rest). unfold slot_weight. rewrite Esl. cbn [co_st co_node]. rewrite Ef. lia.
    + subst s1. destruct (dispatch_cases c s kept s' Hwf HI Epc Es) as [s' X1 X2 X3 X4|m0 s' X1 X2 X3 X4|s' X1 X2 X3];
          rewrite X1; unfold in_tick; rewrite Epc; cbn; lia.
    + subst s' s1. unfold in_tick; rewrite Epc; cbn; lia.
    + subst s'. unfold in_tick; rewrite Epc; cbn; lia.
    + subst s'. unfold in_tick; rewrite Epc; cbn; lia.
  - destruct (launchfail_cases c s s' HI E) as [ph [kept [sl [rest [n0 [Epc [_ [_ [Ep _]]]]]]]]].
    specialize (Hund _ _ Ep). unfold in_tick at 2. rewrite Epc. lia.
  - destruct (match s_pc s with Created | Suspended _ => tick c s | Clean _ _ _ => ctl c s true | _ => None end) as [s1|] eqn:E1; [|discriminate].
    destruct (visthrow_cases s s1 k s' E) as [es [rest [Es _]]].
    assert (Ep : s_pc s' = Unwind ExcVisitor rest) by (rewrite Es; reflexivity).
    specialize (Hund _ _ Ep). unfold tick_running in Ht. destruct (s_pc s) eqn:Epc; try discriminate.
    unfold in_tick at 2. rewrite Epc. lia.
  - destruct (s_fut s n) eqn:Ef; try discriminate. inversion E; subst. eapply HEnv; [right; eexists; reflexivity|discriminate].
  - destruct (s_fut s n) eqn:Ef; try discriminate. inversion E; subst. eapply HEnv; [right; eexists; reflexivity|discriminate].
  - inversion E; subst. apply Nat.le_refl.
Qed.

Lemma in_tick_run c : wf_dag (c_dag c) -> forall ls s s', Inv c s -> run_labels c s ls = Some s' ->
  (forall p q s'', ls = p ++ q -> q <> [] -> run_labels c s p = Some s'' -> tick_running s'' = true) ->
  in_tick c s' + moves ls <= in_tick c s.
Proof.
  intros Hwf. induction ls as [|l ls IH]; intros s s' HI E Ht.
  - inversion E; subst. unfold moves. cbn. lia.
  - cbn [run_labels] in E. destruct (step c s l) as [s1|] eqn:E1; [|discriminate].
    assert (T : tick_running s = true) by (apply (Ht [] (l :: ls) s); [reflexivity|discriminate|reflexivity]).
    assert (Hl : inner_label l = true).
    { destruct l; try reflexivity; cbn in E1; unfold tick in *; unfold tick_running in T; destruct (s_pc s); discriminate. }
    pose proof (in_tick_step c s l s1 Hwf HI Hl E1 T) as H.
    assert (HI1 : Inv c s1) by (eapply step_inv; eassumption).
    assert (IH' : in_tick c s' + moves ls <= in_tick c s1).
    { apply (IH s1 s' HI1 E). intros p q s2 Hp Hq Hr. apply (Ht (l :: p) q s2); [rewrite Hp; reflexivity|exact Hq|].
      cbn [run_labels]. rewrite E1. exact Hr. }
    unfold moves in *. cbn [filter]. destruct (env_label l); cbn in *; lia.
Qed.

Lemma tick_bounded : forall c z s s1 ls s2,
  wf_dag (c_dag c) -> reachable c z s -> step c s LTick = Some s1 -> run_labels c s1 ls = Some s2 ->
  (forall p q s', ls = p ++ q -> q <> [] -> run_labels c s1 p = Some s' -> tick_running s' = true) ->
  moves ls <= 4 * Nat.max 1 (c_threads c) + 3.
Proof.
  intros c z s s1 ls s2 Hwf HR E1 E2 Ht. pose proof (r_inv c z s Hwf HR) as HI.
  assert (HI1 : Inv c s1) by (eapply step_inv; eassumption).
  pose proof (in_tick_run c Hwf ls s1 s2 HI1 E2 Ht) as H.
  pose proof (k_bound _ _ _ _ (i_core _ _ HI1)) as Hlen. fold (width c) in *.
  assert (in_tick c s1 <= 4 * width c + 3); [|lia].
  unfold in_tick. unfold live in Hlen. destruct (s_pc s1) as [|ph|ph kept rest|e rest|rest| | | |]; try lia.
  - rewrite app_length, map_length in Hlen. pose proof (weight_le s1 rest). lia.
  - rewrite map_length in Hlen. lia.
Qed.
