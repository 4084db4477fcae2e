(** A job runs between the two time stamps of its record (C53), what one step of an
    execution does to records and waiting coroutines. *)
From Coq Require Import Lia String Permutation.
From Verif Require Import Model.Common Model.Records Model.Jobs Model.TaskSet Model.Dag
     Model.Sched Model.Exec Spec.Graph Spec.Trace
     Proofs.Sets Proofs.SchedFacts Proofs.InvalFacts Proofs.TraceFacts Proofs.ExecInv
     Proofs.ExecStep Proofs.ExecCtl Proofs.LogFacts Proofs.ExecProps Proofs.ExecProps2
     Proofs.StepCases Proofs.ExecProps3 Proofs.Ticks Proofs.Stamps.
Open Scope nat_scope.
Open Scope list_scope.

(** [n]'s coroutine polls its job and can still return *)
Definition live_wait (s : state) (n : nid) (rec : run_record) : Prop :=
  match s_pc s with Suspended _ | Clean _ _ _ => In (Coro n (CWait rec)) (live s) | _ => False end.

Definition time_step (s s' : state) : Prop :=
  (forall n rec, live_wait s' n rec -> live_wait s n rec \/ ~ In (ELaunch n) (s_log s)) /\
  (forall r, In r (recs (s_log s')) -> In r (recs (s_log s)) \/ ~ In (ELaunch (r_node r)) (s_log s)
     \/ exists rec, live_wait s (r_node r) rec /\ r_start r = r_start rec /\ r_end r = s_clock s).

Lemma time_step0 c s l s' : wf_dag (c_dag c) -> Inv c s -> step c s l = Some s' ->
  (forall k, l <> LVisThrow k) -> time_step s s'.
Proof.
  intros Hwf HI E Hnv. assert (HI' : Inv c s') by (eapply step_inv; eassumption).
  (* nothing relevant changed *)
  assert (HF : recs (s_log s') = recs (s_log s) ->
     (forall n rec, live_wait s' n rec -> live_wait s n rec) -> time_step s s').
  { intros E1 E2. split; [intros n rec H; left; apply E2, H|intros r H; left; rewrite <- E1; exact H]. }
  assert (HN : recs (s_log s') = recs (s_log s) ->
     match s_pc s' with Suspended _ | Clean _ _ _ => False | _ => True end -> time_step s s').
  { intros E1 E2. apply HF; [exact E1|]. intros n rec H. unfold live_wait in H. destruct (s_pc s'); contradiction. }
  assert (HC : forall ph kept sl rest s0 rec,
     s_pc s = Clean ph kept (sl :: rest) -> recs (s_log s0) = recs (s_log s) ->
     (~ In (ELaunch (r_node rec)) (s_log s) \/
      exists rec0, live_wait s (r_node rec) rec0 /\ r_start rec = r_start rec0 /\ r_end rec = s_clock s) ->
     s' = complete s0 ph kept sl rest rec -> time_step s s').
  { intros ph kept sl rest s0 rec Epc Erec Hr Es. subst s'. split.
    - intros n r0 H. left. unfold live_wait in *. rewrite Epc. cbn in H.
      unfold live in *. rewrite Epc. cbn in H. apply in_app_iff in H. apply in_app_iff.
      destruct H as [H|H]; [left; exact H|right; right; exact H].
    - intros r H. unfold complete, emit in H. cbn [s_log set_pc set_erec set_log] in H.
      rewrite recs_after, Erec in H. apply in_app_iff in H. destruct H as [H|[<-|[]]]; auto. }
  assert (Hdt : forall s0, recs (s_log s0) = recs (s_log s) ->
     (forall n rec, In (Coro n (CWait rec)) (map sl_coro (s_coros s0)) -> live_wait s n rec) ->
     s' = drain_top s0 \/ s' = main_top s0 -> time_step s s').
  { intros s0 E2 Hlv Hs. assert (Hd : s' = drain_top s0 -> time_step s s').
    { intros Es. unfold drain_top in Es. destruct (s_coros s0) eqn:Ec.
      - apply HN; subst s'; cbn -[recs]; [rewrite recs_other by reflexivity; exact E2|exact I].
      - apply HF; subst s'; cbn -[recs live live_wait]; [exact E2|].
        intros n rec H. apply Hlv. unfold live_wait, live in H. cbn in H. exact H. }
    destruct Hs as [Hs|Hs]; [exact (Hd Hs)|]. unfold main_top in Hs. destruct (s_todo s0) eqn:Et; [exact (Hd Hs)|].
    apply HF; subst s'; cbn -[recs live live_wait]; [rewrite recs_other by reflexivity; exact E2|].
    intros m rec H. apply Hlv. unfold live_wait, live in H. cbn in H. exact H. }
  destruct l; cbn [step] in E.
  - unfold tick in E. destruct (s_pc s) as [|ph| | | | | | |] eqn:Epc; try discriminate.
    + inversion E; subst s'. destruct (start_spec c Hwf s HI Epc) as [R [_ [Rc Rk]]].
      pose proof (i_pc _ _ HI) as P. unfold pc_inv in P. rewrite Epc in P.
      destruct P as [_ [_ [_ [_ [_ [_ El0]]]]]].
      split; [|intros r Hr; right; left; rewrite El0; intros []].
      intros n rec H. right. rewrite El0. intros [].
    + assert (Hl : live s = map sl_coro (s_coros s)) by (unfold live; rewrite Epc; reflexivity).
      destruct ph; inversion E; subst s'; (apply (Hdt s); [reflexivity| |auto]);
        intros n rec H; unfold live_wait; rewrite Epc, Hl; exact H.
    + inversion E; subst. apply HN; [reflexivity..|exact I].
    + inversion E; subst. apply HN; [reflexivity..|exact I].
  - destruct (s_pc s); try discriminate; inversion E; subst; (apply HN; [reflexivity..|exact I]).
  - destruct (ctl_cases c s s' HI E) as
      [ph kept sl rest n s' Epc Esl _ Es|ph kept sl rest n s' Epc Esl _ _ Es
      |ph kept sl rest n s1 s' Epc Esl _ _ Es1 Es|ph kept sl rest n rec s' Epc Esl _ Es
      |ph kept sl rest n rec s' Epc Esl _ Es|ph kept sl rest n rec o s1 s2 s' Epc Esl _ Es1 Es2 Es
      |kept s1 s' Epc Es1 Es|kept s1 s' Epc Es1 Es|e s' Epc Es|e sl rest s' Epc _ Es|s' Epc Es|sl rest s' Epc _ Es].
    1,2: eapply HC; [exact Epc| | |exact Es]; [apply recs_other; reflexivity|left; cbn [r_node with_status new_record]];
      pose proof (i_pc _ _ HI) as P; unfold pc_inv in P; rewrite Epc in P; destruct P as [A _];
      assert (Hin : In (Coro n CFresh) (live s)) by (unfold live; rewrite Epc; apply in_app_iff; right; left; exact Esl);
      destruct (a_idle _ _ _ _ _ _ _ _ A n (or_intror Hin)) as [_ [Hf _]];
      pose proof (k_fut _ _ _ _ (i_core _ _ HI) n) as Hk; rewrite Hf in Hk; apply Hk.
    + assert (Hid : ~ In (ELaunch n) (s_log s)).
      { pose proof (i_pc _ _ HI) as P; unfold pc_inv in P; rewrite Epc in P; destruct P as [A _].
        assert (Hin : In (Coro n CFresh) (live s)) by (unfold live; rewrite Epc; apply in_app_iff; right; left; exact Esl).
        destruct (a_idle _ _ _ _ _ _ _ _ A n (or_intror Hin)) as [_ [Hf _]].
        pose proof (k_fut _ _ _ _ (i_core _ _ HI) n) as Hk; rewrite Hf in Hk; apply Hk. }
      split.
      * intros m rm H. unfold live_wait in *. subst s' s1. cbn [s_pc set_pc] in H. rewrite Epc.
        unfold live in *. cbn [s_pc set_pc] in H. rewrite Epc. apply in_app_iff in H.
        destruct H as [H|[H|H]].
        -- left. apply in_app_iff. left; exact H.
        -- right. cbn in H. inversion H; subst. exact Hid.
        -- left. apply in_app_iff. right; right; exact H.
      * intros r H. left. subst s' s1. cbn -[recs] in H. rewrite !recs_other in H by reflexivity. exact H.
    + apply HF; [subst s'; apply recs_other; reflexivity|].
      subst s'. unfold live_wait, live. cbn. rewrite Epc. auto.
    + apply HF; [subst s'; apply recs_other; reflexivity|].
      subst s'. unfold live_wait, live. cbn. rewrite Epc. intros m rm Hin. rewrite <- app_assoc in Hin. cbn [map]. rewrite Esl. exact Hin.
    + assert (Hin : In (Coro n (CWait rec)) (live s)).
      { unfold live. rewrite Epc. apply in_app_iff. right. left. exact Esl. }
      pose proof (i_pc _ _ HI) as P. unfold pc_inv in P. rewrite Epc in P. destruct P as [A _].
      destruct (w_rec _ _ _ _ _ _ (a_wait _ _ _ _ _ _ _ _ A n rec Hin)) as [z0 Ez].
      eapply HC; [exact Epc| | |exact Es].
      * subst s1 s2. destruct (negb _); apply recs_other; reflexivity.
      * right. exists rec. split; [|split; reflexivity]. unfold live_wait. rewrite Epc.
        replace (r_node (finish_record rec (run_lambda o) (s_clock s))) with n by (subst rec; reflexivity). exact Hin.
    + subst s1. pose proof (i_pc _ _ HI) as P. unfold pc_inv in P. rewrite Epc in P.
      destruct P as [_ [_ [_ [P2 _]]]]. cbn [List.length] in P2.
      assert (Hc : map sl_coro (compact (s_coros s) kept) = kept) by (apply compact_coros; lia).
      assert (Hlive : live s = kept) by (unfold live; rewrite Epc; cbn; apply app_nil_r).
      destruct (dispatch_cases c s kept s' Hwf HI Epc Es) as [s' E1 E2 E3 E4|m0 s' E1 E2 E3 E4|s' E1 E2 E3]; clear Es; subst s';
        (apply HF; [reflexivity|]); unfold live_wait; rewrite Epc, Hlive; unfold live; cbn; rewrite ?map_app, ?Hc; auto.
      intros n rec Hin. apply in_app_iff in Hin. destruct Hin as [H|[H|[]]]; [exact H|discriminate].
    + subst s1. pose proof (i_pc _ _ HI) as P. unfold pc_inv in P. rewrite Epc in P.
      destruct P as [_ [_ [_ [P2 _]]]]. cbn [List.length] in P2.
      assert (Hc : map sl_coro (compact (s_coros s) kept) = kept) by (apply compact_coros; lia).
      assert (Hlive : live s = kept) by (unfold live; rewrite Epc; cbn; apply app_nil_r).
      subst s'. apply HF; [reflexivity|]. unfold live_wait; rewrite Epc, Hlive; unfold live; cbn; rewrite ?Hc; auto.
    + subst s'. apply HN; [reflexivity..|exact I].
    + subst s'. apply HN; [reflexivity..|exact I].
    + subst s'. apply HN; [apply recs_other; reflexivity|exact I].
    + subst s'. apply HN; [reflexivity..|exact I].
  - destruct (launchfail_cases c s s' HI E) as [ph [kept [sl [rest [n [Epc [_ [_ [Ep [El [_ [Ek _]]]]]]]]]]]].
    apply HN; [rewrite El; apply recs_other; reflexivity|rewrite Ep; exact I].
  - destruct (Hnv k eq_refl).
  - destruct (s_fut s n); try discriminate. inversion E; subst.
    apply HF; [apply recs_other; reflexivity|]. unfold live_wait, live. cbn. destruct (s_pc s); auto.
  - destruct (s_fut s n); try discriminate. inversion E; subst.
    apply HF; [apply recs_other; reflexivity|]. unfold live_wait, live. cbn. destruct (s_pc s); auto.
  - inversion E; subst. apply HF; [reflexivity|]. unfold live_wait, live. cbn. destruct (s_pc s); auto.
Qed.

Lemma time_step1 c s l s' : wf_dag (c_dag c) -> Inv c s -> step c s l = Some s' -> time_step s s'.
Proof.
  intros Hwf HI E.
  assert (Hl : (exists k, l = LVisThrow k) \/ forall k, l <> LVisThrow k) by (destruct l; eauto; right; discriminate).
  destruct Hl as [[k ->]|Hl]; [|eapply time_step0; eassumption]. cbn [step] in E.
  destruct (match s_pc s with Created | Suspended _ => tick c s | Clean _ _ _ => ctl c s true | _ => None end) as [s1|] eqn:E1; [|discriminate].
  assert (HL : exists l0, step c s l0 = Some s1 /\ (forall k, l0 <> LVisThrow k)).
  { destruct (s_pc s); try discriminate; [exists LTick|exists LTick|exists LCtl]; repeat split; (exact E1 || discriminate). }
  destruct HL as [l0 [El0 Hnv]].
  destruct (time_step0 c s l0 s1 Hwf HI El0 Hnv) as [_ Hr].
  destruct (step_log c s l0 s1 Hwf HI El0) as [new En].
  destruct (visthrow_cases s s1 k s' E) as [es [rest [Es [es2 Ees]]]].
  rewrite En, app_length, Nat.add_sub, firstn_app, Nat.sub_diag, firstn_O, app_nil_r, firstn_all in Ees.
  assert (El1 : s_log s1 = rev (es ++ es2) ++ s_log s) by (rewrite <- Ees, rev_involutive; exact En).
  assert (El : s_log s' = rev es ++ s_log s) by (rewrite Es, emits_eq; destruct s; reflexivity).
  split; [rewrite Es; intros n rec []|].
  intros r H. apply Hr. rewrite El1. rewrite El in H. revert H. apply recs_cut.
Qed.

Lemma nodup_map_eq {A B} (f : A -> B) l x y : NoDup (map f l) -> In x l -> In y l -> f x = f y -> x = y.
Proof.
  induction l as [|a l IH]; intros N Hx Hy E; [destruct Hx|]. inversion N; subst.
  destruct Hx as [->|Hx], Hy as [->|Hy]; [reflexivity| | |apply IH; assumption].
  - destruct H1. rewrite E. apply in_map, Hy.
  - destruct H1. rewrite <- E. apply in_map, Hx.
Qed.

(** * From a moment in which the job runs to its record *)

Definition between (c : config) (n : nid) (t sg : Z) (s : state) : Prop :=
  (t <= s_clock s)%Z /\ In (ELaunch n) (s_log s) /\
  (forall rec, live_wait s n rec -> r_start rec = sg) /\
  (forall r, In r (recs (s_log s)) -> r_node r = n -> r_start r = sg /\ (t <= r_end r)%Z).

Lemma between_run c n t sg : wf_dag (c_dag c) -> forall ls s s', Inv c s -> between c n t sg s ->
  monotone_clock (s_clock s) ls -> run_labels c s ls = Some s' -> between c n t sg s'.
Proof.
  intros Hwf. induction ls as [|l ls IH]; intros s s' HI HS Hm E; [inversion E; subst; exact HS|].
  cbn [run_labels] in E. destruct (step c s l) as [s1|] eqn:E1; [|discriminate].
  apply monotone_cons in Hm. destruct Hm as [Hm1 Hm2].
  pose proof (step_clock_val c s l s1 Hwf HI E1) as Ecl.
  apply (IH s1 s'); [eapply step_inv; eassumption| |rewrite Ecl; exact Hm1|exact E].
  destruct HS as [B1 [B2 [B3 B4]]]. destruct (time_step1 c s l s1 Hwf HI E1) as [W R].
  destruct (step_log c s l s1 Hwf HI E1) as [new En]. split; [|split; [|split]].
  - rewrite Ecl. destruct l; try exact B1. specialize (Hm2 now eq_refl). lia.
  - rewrite En. apply in_app_iff. right. exact B2.
  - intros rec H. destruct (W n rec H) as [H'|H']; [apply B3, H'|destruct (H' B2)].
  - intros r H En'. destruct (R r H) as [H'|[H'|[rec [H' [H1 H2]]]]].
    + apply B4; assumption.
    + rewrite En' in H'. destruct (H' B2).
    + rewrite En' in H'. rewrite H1, H2. split; [apply B3, H'|exact B1].
Qed.

Lemma monotone_app z l1 l2 : monotone_clock z (l1 ++ l2) ->
  monotone_clock z l1.
Proof.
  revert z. induction l1 as [|l l1 IH]; intros z H; [exact I|].
  destruct l; cbn in *; try (apply IH, H). split; [apply H|apply IH, H].
Qed.

Lemma monotone_rest c : wf_dag (c_dag c) -> forall l1 s s' l2, Inv c s -> run_labels c s l1 = Some s' ->
  monotone_clock (s_clock s) (l1 ++ l2) -> monotone_clock (s_clock s') l2.
Proof.
  intros Hwf. induction l1 as [|l l1 IH]; intros s s' l2 HI E H; [inversion E; subst; exact H|].
  cbn [run_labels] in E. destruct (step c s l) as [s1|] eqn:E1; [|discriminate].
  cbn [app] in H. apply monotone_cons in H. destruct H as [H _].
  apply (IH s1 s' l2); [eapply step_inv; eassumption|exact E|].
  rewrite (step_clock_val c s l s1 Hwf HI E1). exact H.
Qed.

Lemma running_between : forall c z ls1 s1 ls2 s2 n r,
  wf_dag (c_dag c) -> run_labels c (init z) ls1 = Some s1 -> run_labels c s1 ls2 = Some s2 ->
  monotone_clock z (ls1 ++ ls2) ->
  In n (running (trace s1)) -> In r (records (trace s2)) -> r_node r = n ->
  (r_start r <= s_clock s1 /\ s_clock s1 <= r_end r)%Z.
Proof.
  intros c z ls1 s1 ls2 s2 n r Hwf E1 E2 Hm Hn Hr En.
  assert (HR : reachable c z s1) by (exists ls1; exact E1).
  assert (HI : Inv c s1) by (apply (r_inv c z s1 Hwf HR)).
  assert (S0 : stamps c z (init z)).
  { split; [cbn; lia|]. split; [|exact I]. split; [intros r' []|intros ra rb []]. }
  destruct (stamps_run c z Hwf ls1 (init z) s1 (inv_init c z) S0 (monotone_app _ _ _ Hm) E1) as [_ [_ Sw]].
  pose proof (i_core _ _ HI) as K.
  assert (Hf : s_fut s1 n = FRunning).
  { apply (k_run _ _ _ _ K). revert Hn. unfold running, trace, run_l. auto. }
  assert (Hu : unfin (s_fut s1 n)) by (rewrite Hf; exact I).
  pose proof (k_fut _ _ _ _ K n) as Hl. rewrite Hf in Hl. destruct Hl as [Hl _].
  destruct (k_ok _ _ _ _ K n Hu) as [Hnr _].
  assert (HB : exists sg, (sg <= s_clock s1)%Z /\ between c n (s_clock s1) sg s1).
  { destruct (k_unfin _ _ _ _ K n Hu) as [rec Hrec].
    exists (match s_pc s1 with Suspended _ | Clean _ _ _ => r_start rec | _ => s_clock s1 end). split.
    - destruct (s_pc s1); try lia; apply (Sw n rec Hrec).
    - split; [lia|]. split; [exact Hl|]. split.
      + intros rec' H. unfold live_wait in H. pose proof (i_pc _ _ HI) as P. unfold pc_inv in P.
        assert (HU : act c s1 -> In (Coro n (CWait rec')) (live s1) -> r_start rec' = r_start rec).
        { intros A H2. pose proof (act_nodup c _ _ _ _ _ _ _ (proj1 Hwf) A) as Hnd.
          apply NoDup_app_iff in Hnd. destruct Hnd as [_ [Hnd _]].
          apply NoDup_app_iff in Hnd. destruct Hnd as [Hnd _].
          assert (Hx : Coro n (CWait rec') = Coro n (CWait rec)) by (eapply nodup_map_eq; eauto).
          congruence. }
        destruct (s_pc s1); try contradiction; apply HU; try exact H; apply P.
      + intros r' Hr' En'. destruct Hnr. exists r'. auto. }
  destruct HB as [sg [Hsg HB]].
  assert (Hm2 : monotone_clock (s_clock s1) ls2) by (eapply (monotone_rest c Hwf ls1 (init z)); [apply inv_init|exact E1|exact Hm]).
  destruct (between_run c n (s_clock s1) sg Hwf ls2 s1 s2 HI HB Hm2 E2) as [_ [_ [_ B]]].
  rewrite <- recs_trace in Hr. destruct (B r Hr En) as [-> H]. auto.
Qed.
