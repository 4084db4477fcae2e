(** Time stamps of run records (C53). *)
From Coq Require Import Lia String Permutation.
From Verif Require Import Model.Common Model.Records Model.Jobs Model.TaskSet Model.Dag
     Model.Sched Model.Exec Spec.Graph Spec.Trace
     Proofs.Sets Proofs.SchedFacts Proofs.InvalFacts Proofs.TraceFacts Proofs.ExecInv
     Proofs.ExecStep Proofs.ExecCtl Proofs.LogFacts Proofs.ExecProps Proofs.ExecProps2
     Proofs.StepCases Proofs.ExecProps3 Proofs.Ticks.
Open Scope nat_scope.
Open Scope list_scope.

Definition rec_stamps (c : config) (z now : Z) (rs : list run_record) : Prop :=
  (forall r, In r rs -> (z <= r_start r /\ r_start r <= r_end r /\ r_end r <= now)%Z) /\
  (forall ra rb, In ra rs -> In rb rs -> runs_after (c_dag c) (r_node ra) (r_node rb) ->
                 (r_end rb <= r_start ra)%Z).

Definition wait_stamps (c : config) (z : Z) (s : state) : Prop :=
  forall n rec, In (Coro n (CWait rec)) (live s) ->
    (z <= r_start rec /\ r_start rec <= s_clock s)%Z /\
    forall rb, In rb (recs (s_log s)) -> runs_after (c_dag c) n (r_node rb) -> (r_end rb <= r_start rec)%Z.

Definition stamps (c : config) (z : Z) (s : state) : Prop :=
  (z <= s_clock s)%Z /\ rec_stamps c z (s_clock s) (recs (s_log s)) /\
  match s_pc s with Suspended _ | Clean _ _ _ => wait_stamps c z s | _ => True end.

Lemma rec_stamps_sub c z now rs rs' : incl rs' rs -> rec_stamps c z now rs -> rec_stamps c z now rs'.
Proof. intros H [R1 R2]. split; [intros r Hr; apply R1, H, Hr|intros ra rb H1 H2; apply R2; apply H; assumption]. Qed.

Lemma rec_stamps_clock c z now now' rs : (now <= now')%Z -> rec_stamps c z now rs -> rec_stamps c z now' rs.
Proof. intros H [R1 R2]. split; [|exact R2]. intros r Hr. specialize (R1 r Hr). lia. Qed.

(** A record is appended. *)
Lemma rec_stamps_add c z log er r x now : log_ok c (EAfterRun er r x :: log) ->
  rec_stamps c z now (recs log) -> (z <= r_start r /\ r_start r <= r_end r /\ r_end r <= now)%Z ->
  (forall rb, In rb (recs log) -> runs_after (c_dag c) (r_node r) (r_node rb) -> (r_end rb <= r_start r)%Z) ->
  rec_stamps c z now (recs (EAfterRun er r x :: log)).
Proof.
  intros L [R1 R2] Hr Hb. rewrite recs_after. destruct L as [[He _] L]. cbn [ev_cond] in He.
  destruct He as [_ [_ [_ [Hnr [Har _]]]]]. split.
  - intros r' H. apply in_app_iff in H. destruct H as [H|[<-|[]]]; [apply R1, H|exact Hr].
  - intros ra rb Ha H Hab. apply in_app_iff in Ha, H.
    destruct Ha as [Ha|[<-|[]]], H as [H|[<-|[]]].
    + apply R2; assumption.
    + exfalso. apply Hnr. destruct (rec_at c _ _ L Ha) as [l1 [er' [x' [l2 [El [He' _]]]]]].
      cbn [ev_cond] in He'. destruct He' as [_ [_ [_ [_ [Har' _]]]]].
      rewrite El. apply recorded_app, recorded_mono, Har', Hab.
    + apply Hb; assumption.
    + exfalso. apply Hnr, Har, Hab.
Qed.

Lemma wait_stamps_sub c z s s' : s_clock s' = s_clock s -> recs (s_log s') = recs (s_log s) ->
  (forall n rec, In (Coro n (CWait rec)) (live s') -> In (Coro n (CWait rec)) (live s)) ->
  wait_stamps c z s -> wait_stamps c z s'.
Proof. intros E1 E2 H W n rec Hin. rewrite E1, E2. apply W, H, Hin. Qed.

Lemma stamps_step0 c z s l s' : wf_dag (c_dag c) -> Inv c s -> stamps c z s -> step c s l = Some s' ->
  (forall z', l = LClock z' -> (s_clock s <= z')%Z) -> (forall k, l <> LVisThrow k) ->
  stamps c z s'.
Proof.
  intros Hwf HI [Sz [Sr Sw]] E Hcl Hnv. assert (HI' : Inv c s') by (eapply step_inv; eassumption).
  (* completion of the coroutine at the head of rest *)
  assert (HC : forall ph kept sl rest n rec extra s0,
     s_pc s = Clean ph kept (sl :: rest) -> co_node (sl_coro sl) = n -> r_node rec = n ->
     s_log s0 = extra ++ s_log s -> recs (s_log s0) = recs (s_log s) -> s_clock s0 = s_clock s ->
     (z <= r_start rec /\ r_start rec <= r_end rec /\ r_end rec <= s_clock s)%Z ->
     (forall rb, In rb (recs (s_log s)) -> runs_after (c_dag c) n (r_node rb) -> (r_end rb <= r_start rec)%Z) ->
     s' = complete s0 ph kept sl rest rec -> stamps c z s').
  { intros ph kept sl rest n rec extra s0 Epc En Er El Erec Ecl Hr Hb Es.
    assert (Elog : s_log s' = EAfterRun (s_erec s0) rec (sl_node sl) :: s_log s0) by (subst s'; reflexivity).
    assert (Epc' : s_pc s' = Clean ph kept rest) by (subst s'; reflexivity).
    assert (Ecl' : s_clock s' = s_clock s) by (subst s'; exact Ecl).
    pose proof (k_log _ _ _ _ (i_core _ _ HI')) as L'. rewrite Elog in L'.
    split; [rewrite Ecl'; exact Sz|]. split.
    - rewrite Ecl', Elog. apply rec_stamps_add; [exact L'|rewrite Erec; exact Sr|exact Hr|].
      intros rb H1 H2. rewrite Erec in H1. rewrite Er in H2. apply Hb; assumption.
    - rewrite Epc'. rewrite Epc in Sw. intros m rm Hin. rewrite Ecl'.
      assert (Hin0 : In (Coro m (CWait rm)) (live s)).
      { unfold live in *. rewrite Epc' in Hin. rewrite Epc. apply in_app_iff in Hin. apply in_app_iff.
        destruct Hin as [H|H]; [left; exact H|right; right; exact H]. }
      destruct (Sw m rm Hin0) as [W1 W2]. split; [exact W1|]. intros rb Hin' Hab. rewrite Elog, recs_after, Erec in Hin'.
      apply in_app_iff in Hin'. destruct Hin' as [H|[<-|[]]]; [apply W2; assumption|exfalso].
      pose proof (i_pc _ _ HI) as P. unfold pc_inv in P. rewrite Epc in P. destruct P as [A _].
      pose proof (w_after _ _ _ _ _ _ (a_wait _ _ _ _ _ _ _ _ A m rm Hin0)) as Wa.
      destruct L' as [[[_ [_ [_ [Hnr _]]]] _] _]. apply Hnr. rewrite El. apply recorded_app, Wa.
      exact Hab. }
  (* a state in which nothing relevant changed *)
  assert (HS : s_clock s' = s_clock s -> recs (s_log s') = recs (s_log s) ->
     match s_pc s' with Suspended _ | Clean _ _ _ => wait_stamps c z s' | _ => True end -> stamps c z s').
  { intros E1 E2 W. unfold stamps. rewrite E1, E2. auto. }
  assert (Hdt : forall s0, s_clock s0 = s_clock s -> recs (s_log s0) = recs (s_log s) ->
     (forall n rec, In (Coro n (CWait rec)) (map sl_coro (s_coros s0)) -> In (Coro n (CWait rec)) (live s)) ->
     match s_pc s with Suspended _ | Clean _ _ _ => True | _ => s_coros s0 = [] end ->
     s' = drain_top s0 \/ s' = main_top s0 -> stamps c z s').
  { intros s0 E1 E2 Hlv Hpc Hs. assert (Hw : forall ph kept rest lg,
       s' = set_pc (set_log s0 lg) (Clean ph kept rest) -> kept = [] -> rest = s_coros s0 -> recs lg = recs (s_log s0) -> wait_stamps c z s').
    { intros ph kept rest lg Es -> -> Elg n rec Hin. subst s'. unfold live in Hin. cbn in Hin.
      specialize (Hlv n rec Hin). cbn -[recs]. rewrite Elg, E1, E2.
      destruct (s_pc s); try (rewrite Hpc in Hin; destruct Hin); exact (Sw n rec Hlv). }
    assert (Hd : s' = drain_top s0 -> stamps c z s').
    { intros Es. unfold drain_top in Es. destruct (s_coros s0) eqn:Ec.
      - apply HS; subst s'; cbn; [exact E1| |exact I]. rewrite <- E2. apply recs_other. reflexivity.
      - rewrite <- Ec in Es. apply HS; [subst s'; exact E1|subst s'; exact E2|].
        replace (s_pc s') with (Clean PDrain [] (s_coros s0)) by (subst s'; reflexivity).
        eapply (Hw PDrain [] (s_coros s0) (s_log s0)); auto.
 }
    destruct Hs as [Es|Es]; [exact (Hd Es)|]. unfold main_top in Es. destruct (s_todo s0) eqn:Et; [exact (Hd Es)|].
    assert (Elg : recs (EOnTick (s_erec s0) :: s_log s0) = recs (s_log s0)) by (apply recs_other; reflexivity).
    apply HS; [subst s'; exact E1|subst s'; cbn -[recs]; rewrite Elg; exact E2|].
    replace (s_pc s') with (Clean PMain [] (s_coros s0)) by (subst s'; reflexivity).
    eapply (Hw PMain [] (s_coros s0) (EOnTick (s_erec s0) :: s_log s0)); auto. }
  assert (HF : (forall n rec, In (Coro n (CWait rec)) (live s') -> In (Coro n (CWait rec)) (live s)) ->
     s_clock s' = s_clock s -> recs (s_log s') = recs (s_log s) ->
     match s_pc s with Suspended _ | Clean _ _ _ => True | _ => match s_pc s' with Suspended _ | Clean _ _ _ => False | _ => True end end ->
     stamps c z s').
  { intros Hlv E1 E2 Hpc. apply HS; [exact E1|exact E2|].
    destruct (s_pc s') eqn:Ep'; try exact I;
      (destruct (s_pc s); try contradiction; eapply wait_stamps_sub; eassumption). }
  destruct l; cbn [step] in E.
  - unfold tick in E. destruct (s_pc s) as [|ph| | | | | | |] eqn:Epc; try discriminate.
    + inversion E; subst s'. destruct (start_spec c Hwf s HI Epc) as [R [_ [Rc Rk]]].
      pose proof (i_pc _ _ HI) as P. unfold pc_inv in P. rewrite Epc in P.
      destruct P as [_ [_ [_ [_ [_ [_ El0]]]]]].
      inversion R as [? ? cyc L1 L2 L3|? ? m pre post L2 L1 L3 L4 L5 L6 L7|? ? m pre post L2 L1 L3 L4 L5 L6 L7
                 |? ? s1 evd todo Es T1 El Ep Et Hso Ec Eck]; subst.
      * assert (Hrr : recs (s_log (start c s)) = []).
        { rewrite L1. rewrite recs_other by reflexivity. apply startup_recs. 
          eapply Forall_impl; [|apply (proj1 (proj2 (log1_ok c Hwf)))]. intros [] X; try discriminate; reflexivity. }
        apply HS; [exact Rk|rewrite Hrr, El0; reflexivity|rewrite L2; exact I].
      * apply HS; [exact Rk| |rewrite L2; exact I]. rewrite El0.
        assert (Hrr : recs (s_log (start c s)) = []); [|rewrite Hrr; reflexivity].
        pose proof (i_pc _ _ HI') as P. unfold pc_inv in P. rewrite L2 in P. destruct P as [_ [_ [_ P]]].
        apply startup_recs, jobinv_startup, P.
      * apply HS; [exact Rk| |rewrite L2; exact I]. rewrite El0.
        assert (Hrr : recs (s_log (start c s)) = []); [|rewrite Hrr; reflexivity].
        pose proof (i_pc _ _ HI') as P. unfold pc_inv in P. rewrite L2 in P. destruct P as [_ [_ [_ P]]].
        apply startup_recs, jobinv_startup, P.
      * apply (Hdt s1); [exact Eck| |rewrite Ec; intros n rec []|exact Ec|right; exact Es].
        rewrite El0. pose proof (t_act _ _ T1) as A. destruct (a_snap _ _ _ _ _ _ _ _ A) as [Er _].
        rewrite <- Er. pose proof (Permutation_length (a_perm _ _ _ _ _ _ _ _ A)) as Hl.
        destruct (recs (s_log s1)) as [|r0 rs0] eqn:Erc; [cbn in Er; exact Er|exfalso].
        assert (Hb : In r0 (recs (s_log s1))) by (rewrite Erc; left; reflexivity).
        assert (Hrec0 : recorded_l (s_log s1) (r_node r0)) by (exists r0; auto).
        apply (act_recorded c _ _ _ _ _ _ _ A) in Hrec0. pose proof (act_nodup c _ _ _ _ _ _ _ (proj1 Hwf) A) as Hnd.
        rewrite Ec in Hnd. cbn in Hnd. apply NoDup_app_iff in Hnd. destruct Hnd as [_ [_ Hnd]].
        apply (Hnd (r_node r0)); [|exact Hrec0].
        match goal with H : forall n, In n (s_todo s1) <-> _ |- _ => apply H end.
        apply (act_where c _ _ _ _ _ _ _ A). right; right; exact Hrec0.
    + assert (Hl : live s = map sl_coro (s_coros s)) by (unfold live; rewrite Epc; reflexivity).
      destruct ph; inversion E; subst s'; apply (Hdt s); auto; rewrite Hl; auto.
    + inversion E; subst. apply HS; [reflexivity..|exact I].
    + inversion E; subst. apply HS; [reflexivity..|exact I].
  - destruct (s_pc s); try discriminate; inversion E; subst; (apply HS; [reflexivity..|exact I]).
  - destruct (ctl_cases c s s' HI E) as
      [ph kept sl rest n s' Epc Esl _ Es|ph kept sl rest n s' Epc Esl _ _ Es
      |ph kept sl rest n s1 s' Epc Esl _ _ Es1 Es|ph kept sl rest n rec s' Epc Esl _ Es
      |ph kept sl rest n rec s' Epc Esl _ Es|ph kept sl rest n rec o s1 s2 s' Epc Esl _ Es1 Es2 Es
      |kept s1 s' Epc Es1 Es|kept s1 s' Epc Es1 Es|e s' Epc Es|e sl rest s' Epc _ Es|s' Epc Es|sl rest s' Epc _ Es].
    + eapply (HC ph kept sl rest n _ [EBeforeRun (s_erec s) n]); try exact Es; try exact Epc.
      * rewrite Esl. reflexivity.
      * reflexivity.
      * reflexivity.
      * apply recs_other. reflexivity.
      * reflexivity.
      * cbn. lia.
      * intros rb Hb _. cbn. apply Sr, Hb.
    + eapply (HC ph kept sl rest n _ [EBeforeRun (s_erec s) n]); try exact Es; try exact Epc.
      * rewrite Esl. reflexivity.
      * reflexivity.
      * reflexivity.
      * apply recs_other. reflexivity.
      * reflexivity.
      * cbn. lia.
      * intros rb Hb _. cbn. apply Sr, Hb.
    + assert (Erec : recs (s_log s') = recs (s_log s)).
      { subst s' s1. cbn -[recs]. rewrite !recs_other by reflexivity. reflexivity. }
      apply HS; [subst s' s1; reflexivity|exact Erec|].
      rewrite Epc in Sw. subst s' s1. cbn [s_pc set_pc]. intros m rm Hin.
      rewrite Erec. match goal with |- context [s_clock ?x] => change (s_clock x) with (s_clock s) end.
      unfold live in Hin. cbn [s_pc set_pc] in Hin. apply in_app_iff in Hin.
      destruct Hin as [H|[H|H]].
      * apply Sw. unfold live. rewrite Epc. apply in_app_iff. left; exact H.
      * cbn in H. inversion H; subst m rm. cbn. split; [lia|]. intros rb Hb _. apply Sr, Hb.
      * apply Sw. unfold live. rewrite Epc. apply in_app_iff. right; right; exact H.
    + apply HF; [|subst s'; reflexivity|subst s'; apply recs_other; reflexivity|rewrite Epc; exact I].
      subst s'. unfold live. cbn. rewrite Epc. auto.
    + apply HF; [|subst s'; reflexivity|subst s'; apply recs_other; reflexivity|rewrite Epc; exact I].
      subst s'. unfold live. cbn. rewrite Epc. intros m rm Hin. rewrite <- app_assoc in Hin. cbn [map]. rewrite Esl. exact Hin.
    + assert (Hin : In (Coro n (CWait rec)) (live s)).
      { unfold live. rewrite Epc. apply in_app_iff. right. left. exact Esl. }
      pose proof Sw as Sw'. rewrite Epc in Sw'. destruct (Sw' n rec Hin) as [W1 W2].
      pose proof (i_pc _ _ HI) as P. unfold pc_inv in P. rewrite Epc in P. destruct P as [A _].
      destruct (w_rec _ _ _ _ _ _ (a_wait _ _ _ _ _ _ _ _ A n rec Hin)) as [z0 Ez].
      eapply (HC ph kept sl rest n _ [ERunLog n (rr_log (run_lambda o))]); try exact Es; try exact Epc.
      * rewrite Esl. reflexivity.
      * subst rec. reflexivity.
      * subst s1 s2. destruct (negb _); reflexivity.
      * subst s1 s2. destruct (negb _); apply recs_other; reflexivity.
      * subst s1 s2. destruct (negb _); reflexivity.
      * cbn. lia.
      * cbn. exact W2.
    + subst s1. pose proof (i_pc _ _ HI) as P. unfold pc_inv in P. rewrite Epc in P.
      destruct P as [_ [_ [_ [P2 _]]]]. cbn [List.length] in P2.
      assert (Hc : map sl_coro (compact (s_coros s) kept) = kept) by (apply compact_coros; lia).
      assert (Hlive : live s = kept) by (unfold live; rewrite Epc; cbn; apply app_nil_r).
      destruct (dispatch_cases c s kept s' Hwf HI Epc Es) as [s' E1 E2 E3 E4|m0 s' E1 E2 E3 E4|s' E1 E2 E3]; clear Es; subst s'.
      * apply HF; [|reflexivity..|rewrite Epc; exact I]. rewrite Hlive. unfold live. cbn. rewrite Hc. auto.
      * apply HF; [|reflexivity..|rewrite Epc; exact I]. rewrite Hlive. unfold live. cbn. rewrite map_app, Hc.
        intros n rec Hin. apply in_app_iff in Hin. destruct Hin as [H|[H|[]]]; [exact H|discriminate].
      * apply HF; [|reflexivity..|rewrite Epc; exact I]. rewrite Hlive. unfold live. cbn. rewrite Hc. auto.
    + subst s1. pose proof (i_pc _ _ HI) as P. unfold pc_inv in P. rewrite Epc in P.
      destruct P as [_ [_ [_ [P2 _]]]]. cbn [List.length] in P2.
      assert (Hc : map sl_coro (compact (s_coros s) kept) = kept) by (apply compact_coros; lia).
      assert (Hlive : live s = kept) by (unfold live; rewrite Epc; cbn; apply app_nil_r).
      subst s'. apply HF; [|reflexivity..|rewrite Epc; exact I]. rewrite Hlive. unfold live. cbn. rewrite Hc. auto.
    + subst s'. apply HS; [reflexivity..|exact I].
    + subst s'. apply HS; [reflexivity..|exact I].
    + subst s'. apply HS; [reflexivity|apply recs_other; reflexivity|exact I].
    + subst s'. apply HS; [reflexivity..|exact I].
  - destruct (launchfail_cases c s s' HI E) as [ph [kept [sl [rest [n [Epc [_ [_ [Ep [El [_ [Ek _]]]]]]]]]]]].
    apply HS; [exact Ek|rewrite El; apply recs_other; reflexivity|rewrite Ep; exact I].
  - destruct (Hnv k eq_refl).
  - destruct (s_fut s n); try discriminate. inversion E; subst.
    apply HS; [reflexivity|apply recs_other; reflexivity|].
    destruct (s_pc s) eqn:Epc; cbn; rewrite Epc; try exact I;
      (eapply wait_stamps_sub; [| | |exact Sw]; [reflexivity|apply recs_other; reflexivity|unfold live; cbn; rewrite Epc; auto]).
  - destruct (s_fut s n); try discriminate. inversion E; subst.
    apply HS; [reflexivity|apply recs_other; reflexivity|].
    destruct (s_pc s) eqn:Epc; cbn; rewrite Epc; try exact I;
      (eapply wait_stamps_sub; [| | |exact Sw]; [reflexivity|apply recs_other; reflexivity|unfold live; cbn; rewrite Epc; auto]).
  - inversion E; subst. specialize (Hcl now eq_refl). split; [cbn; lia|]. split.
    + cbn. eapply rec_stamps_clock; eassumption.
    + cbn. destruct (s_pc s) eqn:Epc; try exact I; intros m rm Hin;
        (assert (Hin' : In (Coro m (CWait rm)) (live s)) by (revert Hin; unfold live; cbn; rewrite Epc; auto));
        (destruct (Sw m rm Hin') as [W1 W2]; split; [cbn; lia|exact W2]).
Qed.

Lemma step_clock_val c s l s' : wf_dag (c_dag c) -> Inv c s -> step c s l = Some s' ->
  s_clock s' = match l with LClock z' => z' | _ => s_clock s end.
Proof.
  intros Hwf HI E.
  assert (HT : tick c s = Some s' -> s_clock s' = s_clock s).
  { intros E1. unfold tick in E1. destruct (s_pc s) as [|ph|ph kept rest| | | | | |] eqn:Epc; try discriminate.
    - inversion E1. apply (start_spec c Hwf s HI Epc).
    - unfold main_top, drain_top in E1.
      destruct ph; [destruct (s_todo s)|]; try destruct (s_coros s); inversion E1; reflexivity.
    - inversion E1; reflexivity.
    - inversion E1; reflexivity. }
  assert (HC : ctl c s true = Some s' -> s_clock s' = s_clock s).
  { intros E1. destruct (ctl_cases c s s' HI E1) as
      [ph' kept' sl' rest' n s' Epc' Esl _ Es|ph' kept' sl' rest' n s' Epc' Esl _ _ Es
        |ph' kept' sl' rest' n s2 s' Epc' Esl _ _ Es1 Es|ph' kept' sl' rest' n rec s' Epc' Esl _ Es
        |ph' kept' sl' rest' n rec s' Epc' Esl _ Es|ph' kept' sl' rest' n rec o s2 s3 s' Epc' Esl _ Es1 Es2 Es
        |kept' s2 s' Epc' Es1 Es|kept' s2 s' Epc' Es1 Es|e s' Epc' Es|e sl' rest' s' Epc' _ Es|s' Epc' Es|sl' rest' s' Epc' _ Es];
        try (subst s'; try subst s2; reflexivity).
      - subst s' s2 s3. destruct (negb _); reflexivity.
      - subst s2. destruct (dispatch_cases c s kept' s' Hwf HI Epc' Es) as [s' X1 X2 X3 X4|m0 s' X1 X2 X3 X4|s' X1 X2 X3];
          rewrite X1; reflexivity. }
  destruct l; cbn [step] in E.
  - exact (HT E).
  - destruct (s_pc s); try discriminate; inversion E; subst; reflexivity.
  - exact (HC E).
  - destruct (launchfail_cases c s s' HI E) as [ph [kept [sl [rest [n [Epc [_ [_ [Ep [El [_ [Ek _]]]]]]]]]]]]. exact Ek.
  - destruct (match s_pc s with Created | Suspended _ => tick c s | Clean _ _ _ => ctl c s true | _ => None end) as [s1|]; [|discriminate].
    destruct (visthrow_cases s s1 k s' E) as [es [rest [Es _]]]. rewrite Es, emits_eq. destruct s; reflexivity.
  - destruct (s_fut s n); try discriminate. inversion E; reflexivity.
  - destruct (s_fut s n); try discriminate. inversion E; reflexivity.
  - inversion E; reflexivity.
Qed.

Lemma recs_cut a b c0 : incl (recs (rev a ++ c0)) (recs (rev (a ++ b) ++ c0)).
Proof.
  intros r H. apply recs_In in H. destruct H as [er [x H]]. apply recs_In. exists er, x.
  apply in_app_iff in H. apply in_app_iff. rewrite rev_app_distr, in_app_iff. tauto.
Qed.

Lemma stamps_step c z s l s' : wf_dag (c_dag c) -> Inv c s -> stamps c z s -> step c s l = Some s' ->
  (forall z', l = LClock z' -> (s_clock s <= z')%Z) ->
  stamps c z s'.
Proof.
  intros Hwf HI HS E Hcl.
  assert (Hl : (exists k, l = LVisThrow k) \/ forall k, l <> LVisThrow k) by (destruct l; eauto; right; discriminate).
  destruct Hl as [[k ->]|Hl]; [|eapply stamps_step0; eassumption]. cbn [step] in E.
  destruct (match s_pc s with Created | Suspended _ => tick c s | Clean _ _ _ => ctl c s true | _ => None end) as [s1|] eqn:E1; [|discriminate].
  assert (HL : exists l0, step c s l0 = Some s1 /\ (forall z', l0 <> LClock z') /\ (forall k, l0 <> LVisThrow k)).
  { destruct (s_pc s); try discriminate; [exists LTick|exists LTick|exists LCtl]; repeat split; (exact E1 || discriminate). }
  destruct HL as [l0 [El0 [Hnc Hnv]]].
  assert (S1 : stamps c z s1).
  { eapply stamps_step0; try eassumption. intros z' H. destruct (Hnc z' H). }
  destruct (step_log c s l0 s1 Hwf HI El0) as [new En].
  destruct (visthrow_cases s s1 k s' E) as [es [rest [Es [es2 Ees]]]].
  rewrite En, app_length, Nat.add_sub, firstn_app, Nat.sub_diag, firstn_O, app_nil_r, firstn_all in Ees.
  assert (El1 : s_log s1 = rev (es ++ es2) ++ s_log s) by (rewrite <- Ees, rev_involutive; exact En).
  assert (El : s_log s' = rev es ++ s_log s) by (rewrite Es, emits_eq; destruct s; reflexivity).
  assert (Ek : s_clock s' = s_clock s) by (rewrite Es, emits_eq; destruct s; reflexivity).
  assert (Ek1 : s_clock s1 = s_clock s).
  { rewrite (step_clock_val c s l0 s1 Hwf HI El0). destruct l0; try reflexivity. destruct (Hnc now eq_refl). }
  destruct S1 as [Sz [Sr _]]. rewrite Ek1 in Sz, Sr. split; [rewrite Ek; exact Sz|]. split.
  - rewrite Ek, El. eapply rec_stamps_sub; [|exact Sr]. rewrite El1. apply recs_cut.
  - rewrite Es. exact I.
Qed.

Lemma monotone_cons z l ls : monotone_clock z (l :: ls) ->
  monotone_clock (match l with LClock z' => z' | _ => z end) ls /\ forall z', l = LClock z' -> (z <= z')%Z.
Proof.
  destruct l; cbn; intros H; (split; [apply H|]); intros z' Hz; try discriminate. inversion Hz; subst. apply H.
Qed.

Lemma stamps_run c z0 : wf_dag (c_dag c) -> forall ls s s', Inv c s -> stamps c z0 s ->
  monotone_clock (s_clock s) ls -> run_labels c s ls = Some s' -> stamps c z0 s'.
Proof.
  intros Hwf. induction ls as [|l ls IH]; intros s s' HI HS Hm E; [inversion E; subst; exact HS|].
  cbn [run_labels] in E. destruct (step c s l) as [s1|] eqn:E1; [|discriminate].
  apply monotone_cons in Hm. destruct Hm as [Hm1 Hm2].
  apply (IH s1 s'); [eapply step_inv; eassumption|eapply stamps_step; eassumption| |exact E].
  rewrite (step_clock_val c s l s1 Hwf HI E1). exact Hm1.
Qed.

Lemma time_stamps : forall c z ls s,
  wf_dag (c_dag c) -> run_labels c (init z) ls = Some s -> monotone_clock z ls ->
  (forall r, In r (records (trace s)) ->
     (z <= r_start r /\ r_start r <= r_end r /\ r_end r <= s_clock s)%Z) /\
  (forall ra rb, In ra (records (trace s)) -> In rb (records (trace s)) ->
     runs_after (c_dag c) (r_node ra) (r_node rb) -> (r_end rb <= r_start ra)%Z).
Proof.
  intros c z ls s Hwf E Hm.
  assert (S0 : stamps c z (init z)).
  { split; [cbn; lia|]. split; [|exact I]. split; [intros r []|intros ra rb []]. }
  destruct (stamps_run c z Hwf ls (init z) s (inv_init c z) S0 Hm E) as [_ [Sr _]].
  rewrite <- recs_trace. exact Sr.
Qed.
