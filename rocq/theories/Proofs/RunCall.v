(** run() can always be completed, whatever the jobs do. *)
From Coq Require Import Lia String Permutation.
From Verif Require Import Model.Common Model.Records Model.Jobs Model.TaskSet Model.Dag
     Model.Sched Model.Exec Spec.Graph Spec.Trace
     Proofs.Sets Proofs.SchedFacts Proofs.InvalFacts Proofs.TraceFacts Proofs.ExecInv
     Proofs.ExecStep Proofs.ExecCtl Proofs.LogFacts Proofs.ExecProps Proofs.ExecProps2
     Proofs.StepCases Proofs.ExecProps3 Proofs.Ticks.
Open Scope nat_scope.
Open Scope list_scope.

Section Completes.
Variables (c : config) (z : Z) (oc : nid -> job_outcome).
Hypothesis Hwf : wf_dag (c_dag c).
Hypothesis Hjobs : forall n, In n (node_ids (c_dag c)) -> node_has_job c n = true.

Definition ended (f : fstate) : Prop := match f with FPending | FRunning => False | _ => True end.
(** [s'] follows [s], jobs that ended in between ended as [oc] says *)
Definition as_told (s s' : state) : Prop :=
  forall n o, In (EEnd n o) (s_log s') -> In (EEnd n o) (s_log s) \/ o = oc n.
Lemma as_told_refl s : as_told s s.
Proof. intros n o H. auto. Qed.
Lemma as_told_trans s1 s2 s3 : as_told s1 s2 -> as_told s2 s3 -> as_told s1 s3.
Proof. intros A B n o H. destruct (B n o H) as [H'|H']; [apply A, H'|auto]. Qed.

Lemma settle_one s n : exists ls s1, forallb env_label ls = true /\ run_labels c s ls = Some s1 /\
  s_pc s1 = s_pc s /\ tmo (s_log s1) = tmo (s_log s) /\ as_told s s1 /\ ended (s_fut s1 n) /\
  (forall m, ended (s_fut s m) -> ended (s_fut s1 m)).
Proof.
  destruct (s_fut s n) eqn:E.
  - exists [], s. repeat split; auto using as_told_refl. rewrite E. exact I.
  - exists [], s. repeat split; auto using as_told_refl. rewrite E. exact I.
  - exists [LBegin n; LEnd n (oc n)]. eexists. split; [reflexivity|].
    split; [cbn; rewrite E; cbn; unfold upd; rewrite Nat.eqb_refl; reflexivity|].
    split; [reflexivity|]. split; [reflexivity|]. split.
    + intros m o H. cbn in H. destruct H as [H|[H|H]]; [injection H as <- <-; auto|discriminate|auto].
    + cbn. unfold upd. rewrite Nat.eqb_refl. split; [exact I|]. intros m Hm. destruct (_ =? _); [exact I|exact Hm].
  - exists [LEnd n (oc n)]. eexists. split; [reflexivity|].
    split; [cbn; rewrite E; reflexivity|].
    split; [reflexivity|]. split; [reflexivity|]. split.
    + intros m o H. cbn in H. destruct H as [H|H]; [injection H as <- <-; auto|auto].
    + cbn. unfold upd. rewrite Nat.eqb_refl. split; [exact I|]. intros m Hm. destruct (_ =? _); [exact I|exact Hm].
  - exists [], s. repeat split; auto using as_told_refl. rewrite E. exact I.
Qed.

Lemma settle : forall l s, exists ls s1, forallb env_label ls = true /\ run_labels c s ls = Some s1 /\
  s_pc s1 = s_pc s /\ tmo (s_log s1) = tmo (s_log s) /\ as_told s s1 /\
  (forall n, In n l -> ended (s_fut s1 n)) /\
  (forall m, ended (s_fut s m) -> ended (s_fut s1 m)).
Proof.
  induction l as [|n l IH]; intros s.
  - exists [], s. repeat split; auto using as_told_refl. intros n [].
  - destruct (settle_one s n) as (l1 & s1 & A1 & A2 & A3 & A4 & A5 & A6 & A7).
    destruct (IH s1) as (l2 & s2 & B1 & B2 & B3 & B4 & B5 & B6 & B7).
    exists (l1 ++ l2), s2. split; [rewrite forallb_app, A1, B1; reflexivity|].
    split; [rewrite run_labels_app, A2; exact B2|]. split; [congruence|]. split; [congruence|].
    split; [eapply as_told_trans; eassumption|].
    split; [|auto]. intros m [<-|Hm]; auto.
Qed.

Definition all_ended (s : state) : Prop := forall n, ended (s_fut s n).

Lemma settle_all s : reachable c z s -> exists ls s1, forallb env_label ls = true /\ run_labels c s ls = Some s1 /\
  s_pc s1 = s_pc s /\ tmo (s_log s1) = tmo (s_log s) /\ as_told s s1 /\ all_ended s1.
Proof.
  intros HR. destruct (settle (node_ids (c_dag c)) s) as (ls & s1 & A1 & A2 & A3 & A4 & A5 & A6 & A7).
  exists ls, s1. repeat (split; [assumption|]). intros n.
  destruct (s_fut s1 n) eqn:E; try exact I;
    (assert (Hn : In n (node_ids (c_dag c))) by
       (apply (k_ids _ _ _ _ (i_core _ _ (r_inv c z s1 Hwf (reachable_run c z s ls s1 HR A2)))); congruence);
     specialize (A6 n Hn); rewrite E in A6; destruct A6).
Qed.

(** what one move of the control thread adds when no job is unfinished *)
Definition adds_nothing (s s' : state) : Prop :=
  tmo (s_log s') = tmo (s_log s) /\ as_told s s'.

Lemma adds_top s0 s s' : s_log s0 = s_log s -> s' = main_top s0 \/ s' = drain_top s0 -> adds_nothing s s'.
Proof.
  intros El H.
  assert (D : adds_nothing s (drain_top s0)).
  { unfold drain_top. destruct (s_coros s0); cbn; (split; [unfold tmo; cbn; rewrite El; reflexivity|]);
      intros m o Hi; cbn in Hi; rewrite ?El in Hi; [destruct Hi as [Hi|Hi]; [discriminate|]|]; auto. }
  destruct H as [-> | ->]; [|exact D]. unfold main_top. destruct (s_todo s0); [exact D|].
  split; [unfold tmo; cbn; rewrite El; reflexivity|].
  intros m o Hi; cbn in Hi. rewrite El in Hi. destruct Hi as [Hi|Hi]; [discriminate|auto].
Qed.

Lemma adds_start s : reachable c z s -> s_pc s = Created -> adds_nothing s (start c s).
Proof.
  intros HR Epc. pose proof (r_inv c z s Hwf HR) as HI.
  destruct (start_spec c Hwf s HI Epc) as (_ & Ef & _ & _).
  pose proof (step_start c Hwf s HI Epc) as HI'.
  pose proof (i_pc _ _ HI) as P. unfold pc_inv in P. rewrite Epc in P. destruct P as (_ & _ & _ & _ & F & _ & El).
  assert (N : forall n, ~ In (ELaunch n) (s_log (start c s)) /\ forall o, ~ In (EEnd n o) (s_log (start c s))).
  { intros n. pose proof (k_fut _ _ _ _ (i_core _ _ HI') n) as G. rewrite Ef, F in G. cbn in G. tauto. }
  split.
  - rewrite El. unfold tmo at 2. cbn. unfold tmo.
    destruct (filter is_timeout (s_log (start c s))) as [|e r] eqn:Ei; [reflexivity|exfalso].
    assert (Hin : In e (filter is_timeout (s_log (start c s)))) by (rewrite Ei; left; reflexivity).
    apply filter_In in Hin. destruct Hin as [Hin Ht]. destruct e; try discriminate.
    pose proof (k_log _ _ _ _ (i_core _ _ HI')) as L.
    destruct (log_in c _ _ L Hin) as (l1 & l2 & E & [He _] & _). cbn in He.
    apply (N n). rewrite E. apply in_app_iff. right. right. apply He.
  - intros n o H. destruct (N n) as [_ G]. destruct (G o H).
Qed.

Lemma adds_ctl s s' : reachable c z s -> all_ended s -> ctl c s true = Some s' -> adds_nothing s s'.
Proof.
  intros HR HA E. pose proof (r_inv c z s Hwf HR) as HI.
  assert (One : forall a log, (forall n, a <> ETimeout n) -> (forall n o, a <> EEnd n o) ->
     tmo (a :: log) = tmo log /\ forall n o, In (EEnd n o) (a :: log) -> In (EEnd n o) log).
  { intros a log H1 H2. split.
    - unfold tmo. cbn. destruct a; try reflexivity. destruct (H1 n eq_refl).
    - intros n o [H|H]; [destruct (H2 _ _ H)|exact H]. }
  assert (G : forall s2 es, s_log s2 = es ++ s_log s ->
     (forall a, In a es -> (forall n, a <> ETimeout n) /\ (forall n o, a <> EEnd n o)) -> adds_nothing s s2).
  { intros s2 es. revert s2. induction es as [|a es IH]; intros s2 El Hes.
    - split; [rewrite El; reflexivity|]. intros n o H. rewrite El in H. auto.
    - destruct (Hes a (or_introl eq_refl)) as [H1 H2].
      destruct (IH (set_log s2 (es ++ s_log s)) eq_refl) as [I1 I2]; [intros b Hb; apply Hes; right; exact Hb|].
      cbn in El. destruct (One a (es ++ s_log s) H1 H2) as [O1 O2]. cbn in I1. split; [rewrite El, O1; exact I1|].
      intros n o H. rewrite El in H. apply I2. cbn. apply O2. exact H. }
  destruct (ctl_cases c s s' HI E) as
      [ph kept sl rest n s' Epc Esl _ Es|ph kept sl rest n s' Epc Esl _ _ Es
      |ph kept sl rest n s1 s' Epc Esl _ _ Es1 Es|ph kept sl rest n rec s' Epc Esl _ Es
      |ph kept sl rest n rec s' Epc Esl Ht Es|ph kept sl rest n rec o s1 s2 s' Epc Esl _ Es1 Es2 Es
      |kept s1 s' Epc Es1 Es|kept s1 s' Epc Es1 Es|e s' Epc Es|e sl rest s' Epc _ Es|s' Epc Es|sl rest s' Epc _ Es].
  - eapply (G _ [_; _]); [subst s'; reflexivity|]. intros a [<-|[<-|[]]]; split; intros; discriminate.
  - eapply (G _ [_; _]); [subst s'; reflexivity|]. intros a [<-|[<-|[]]]; split; intros; discriminate.
  - eapply (G _ [_; _]); [subst s' s1; reflexivity|]. intros a [<-|[<-|[]]]; split; intros; discriminate.
  - eapply (G _ [_]); [subst s'; reflexivity|]. intros a [<-|[]]; split; intros; discriminate.
  - exfalso. specialize (HA n). destruct Ht as [Ht|[Ht _]]; rewrite Ht in HA; exact HA.
  - eapply (G _ [_; _]); [subst s' s1 s2; destruct (negb _); reflexivity|].
    intros a [<-|[<-|[]]]; split; intros; discriminate.
  - apply (G _ []); [|intros a []]. subst s1.
    destruct (dispatch_cases c s kept s' Hwf HI Epc Es) as [s' E1 E2 E3 E4|m0 s' E1 E2 E3 E4|s' E1 E2 E3];
        rewrite E1; reflexivity.
  - apply (G _ []); [subst s' s1; reflexivity|intros a []].
  - apply (G _ []); [subst s'; reflexivity|intros a []].
  - apply (G _ []); [subst s'; reflexivity|intros a []].
  - eapply (G _ [_]); [subst s'; reflexivity|]. intros a [<-|[]]; split; intros; discriminate.
  - apply (G _ []); [subst s'; reflexivity|intros a []].
Qed.

(** no exception is on its way *)
Definition calm (s : state) : Prop := match s_pc s with Failed _ | Unwind _ _ => False | _ => True end.
Definition friendly : Prop :=
  acyclic (c_dag c) /\ forall n, In n (node_ids (c_dag c)) -> c_inval c n <> IvThrow.

Lemma calm_top s0 : calm (main_top s0) /\ calm (drain_top s0).
Proof. unfold main_top, drain_top, calm. destruct (s_todo s0), (s_coros s0); cbn; auto. Qed.

Lemma calm_tick s s' : reachable c z s -> (s_pc s = Created -> friendly) -> done s = false -> tick c s = Some s' -> calm s'.
Proof.
  intros HR HF Hd E. unfold tick in E. unfold done in Hd. destruct (s_pc s) as [|ph| | | | | | |] eqn:Epc; try discriminate.
  - injection E as <-. destruct (HF eq_refl) as [F1 F2].
    destruct (start_spec c Hwf s (r_inv c z s Hwf HR) Epc) as (R & _).
    inversion R as [? ? cyc L1 L2 L3|? ? n pre post L2 L1 L3 L4 L5 L6 L7|? ? n pre post L2 L1 L3 L4 L5 L6 L7 L8
                 |? ? s1 evd todo E T]; subst.
    + destruct F1. exact (is_cycle_has _ _ L3).
    + unfold calm. rewrite L2. exact I.
    + destruct (F2 n); [|exact L5]. apply L4. apply in_app_iff. right. left. reflexivity.
    + match goal with H : start c s = main_top _ |- _ => rewrite H end. apply calm_top.
  - destruct ph; injection E as <-; apply calm_top.
Qed.

Lemma calm_ctl s s' : reachable c z s -> calm s -> ctl c s true = Some s' -> calm s'.
Proof.
  intros HR HC E. pose proof (r_inv c z s Hwf HR) as HI.
  destruct (ctl_cases c s s' HI E) as
      [ph kept sl rest n s' Epc Esl _ Es|ph kept sl rest n s' Epc Esl _ _ Es
      |ph kept sl rest n s1 s' Epc Esl _ _ Es1 Es|ph kept sl rest n rec s' Epc Esl _ Es
      |ph kept sl rest n rec s' Epc Esl Ht Es|ph kept sl rest n rec o s1 s2 s' Epc Esl _ Es1 Es2 Es
      |kept s1 s' Epc Es1 Es|kept s1 s' Epc Es1 Es|e s' Epc Es|e sl rest s' Epc _ Es|s' Epc Es|sl rest s' Epc _ Es];
    unfold calm in *; rewrite Epc in HC; try contradiction; try (subst s'; cbn; rewrite ?Epc; exact I).
  subst s1. destruct (dispatch_cases c s kept s' Hwf HI Epc Es) as [s' E1 E2 E3 E4|m0 s' E1 E2 E3 E4|s' E1 E2 E3];
    rewrite E1; exact I.
Qed.

(** where run() may be called, or is in the middle of a tick *)
Definition usable (s : state) : Prop :=
  match s_pc s with Destroying _ | Destroyed | Bad _ => False | _ => True end.

Lemma usable_ctl s s' : reachable c z s -> usable s -> ctl c s true = Some s' -> usable s'.
Proof.
  intros HR HC E. pose proof (reachable_step c z s LCtl s' HR E) as HR'.
  pose proof (r_inv c z s Hwf HR) as HI.
  destruct (ctl_cases c s s' HI E) as
      [ph kept sl rest n s' Epc Esl _ Es|ph kept sl rest n s' Epc Esl _ _ Es
      |ph kept sl rest n s1 s' Epc Esl _ _ Es1 Es|ph kept sl rest n rec s' Epc Esl _ Es
      |ph kept sl rest n rec s' Epc Esl Ht Es|ph kept sl rest n rec o s1 s2 s' Epc Esl _ Es1 Es2 Es
      |kept s1 s' Epc Es1 Es|kept s1 s' Epc Es1 Es|e s' Epc Es|e sl rest s' Epc _ Es|s' Epc Es|sl rest s' Epc _ Es];
    unfold usable in *; rewrite Epc in HC; try contradiction; try (subst s'; cbn; rewrite ?Epc; exact I).
  subst s1. destruct (dispatch_cases c s kept s' Hwf HI Epc Es) as [s' E1 E2 E3 E4|m0 s' E1 E2 E3 E4|s' E1 E2 E3];
    rewrite E1; exact I.
Qed.

Lemma usable_tick s s' : reachable c z s -> done s = false -> tick c s = Some s' -> usable s'.
Proof.
  intros HR Hd E. pose proof (reachable_step c z s LTick s' HR E) as HR'.
  unfold tick in E. unfold done in Hd.
  assert (T : forall s0, usable (main_top s0) /\ usable (drain_top s0)).
  { intros s0. unfold main_top, drain_top, usable. destruct (s_todo s0), (s_coros s0); cbn; auto. }
  destruct (s_pc s) as [|ph| | | | | | |] eqn:Epc; try discriminate.
  - injection E as <-. destruct (start_spec c Hwf s (r_inv c z s Hwf HR) Epc) as (R & _).
    inversion R as [? ? cyc L1 L2 L3|? ? n pre post L2 L1 L3 L4 L5 L6 L7|? ? n pre post L2 L1 L3 L4 L5 L6 L7 L8
                 |? ? s1 evd todo E T0]; subst.
    + unfold usable. rewrite L2. exact I.
    + rewrite Hjobs in L5; [discriminate|]. apply L4. apply in_app_iff. right. left. reflexivity.
    + unfold usable. rewrite L2. exact I.
    + match goal with H : start c s = main_top _ |- _ => rewrite H end. apply T.
  - destruct ph; injection E as <-; apply T.
Qed.

Definition bound (s : state) : nat :=
  7 * List.length (node_ids (c_dag c)) + 3 * tmo (s_log s) + 2 * Nat.max 1 (c_threads c) + 8.

(** how a call of run() (or the tick it is in) goes on and ends *)
Definition completes (s : state) (Q : result_of -> state -> Prop) : Prop :=
  if tick_running s then
    exists ls s3 r s4, forallb inner_label ls = true /\ run_labels c s ls = Some s3 /\
      tick_running s3 = false /\ run_call c s3 r s4 /\ Q r s4
  else exists r s4, run_call c s r s4 /\ Q r s4.

Definition good (s : state) (r : result_of) (s4 : state) : Prop :=
  as_told s s4 /\ (calm s -> (s_pc s = Created -> friendly) -> exists er, r = RRecord er).

Lemma env_inner ls : forallb env_label ls = true -> forallb inner_label ls = true.
Proof.
  induction ls as [|l ls IH]; [reflexivity|]. cbn. intros H. apply andb_true_iff in H. destruct H as [H1 H2].
  rewrite IH by exact H2. destruct l; try discriminate; reflexivity.
Qed.

Lemma completes_all : forall k s hist, run_labels c (init z) hist = Some s -> usable s ->
  bound s < moves hist + k -> completes s (good s).
Proof.
  induction k as [|k IH]; intros s hist Eh Hu Hb.
  - pose proof (moves_bounded c z hist s Hwf Eh) as B. rewrite timeouts_log in B. unfold bound in Hb. lia.
  - assert (HR : reachable c z s) by (exists hist; exact Eh).
    destruct (done s) eqn:Hd.
    + unfold completes. assert (Ht : tick_running s = false).
      { unfold done in Hd. unfold tick_running. destruct (s_pc s); try discriminate; reflexivity. }
      rewrite Ht. exists (result s), s. split; [constructor; exact Hd|]. split; [apply as_told_refl|].
      unfold calm, result. unfold done in Hd. destruct (s_pc s); try discriminate; [eauto|contradiction].
    + destruct (settle_all s HR) as (ls & s1 & A1 & A2 & A3 & A4 & A5 & A6).
      assert (HR1 : reachable c z s1) by (eapply reachable_run; eassumption).
      assert (Hm : moves ls = 0).
      { clear -A1. unfold moves. induction ls as [|l ls IH]; [reflexivity|]. cbn in *.
        apply andb_true_iff in A1. destruct A1 as [E1 E2]. rewrite E1. cbn. apply IH, E2. }
      assert (Eh1 : run_labels c (init z) (hist ++ ls) = Some s1) by (rewrite run_labels_app, Eh; exact A2).
      assert (Hgo : (exists s2, step c s1 LTick = Some s2) \/ (exists s2, step c s1 LCtl = Some s2)).
      { destruct (no_deadlock c z s1 Hwf HR1) as [H|[H|(n & _ & [[s2 H]|H])]]; auto.
        - rewrite A3. unfold usable in Hu. unfold done in Hd. destruct (s_pc s); auto; discriminate.
        - exfalso. specialize (A6 n). cbn in H. destruct (s_fut s1 n); try discriminate; exact A6.
        - exfalso. specialize (A6 n). destruct (H (oc n)) as [s2 H']. cbn in H'.
          destruct (s_fut s1 n); try discriminate; exact A6. }
      assert (Hu1 : usable s1) by (unfold usable; rewrite A3; exact Hu).
      assert (Hd1 : done s1 = false) by (unfold done; rewrite A3; exact Hd).
      assert (Ht1 : tick_running s1 = tick_running s) by (unfold tick_running; rewrite A3; reflexivity).
      assert (Step : forall l s2, (l = LTick \/ l = LCtl) -> step c s1 l = Some s2 ->
        tmo (s_log s2) = tmo (s_log s1) -> usable s2 -> completes s2 (good s2)).
      { intros l s2 Hl E2 Htm Hu2. apply (IH s2 ((hist ++ ls) ++ [l])); [rewrite run_labels_app, Eh1; cbn [run_labels]; rewrite E2; reflexivity|exact Hu2|].
        rewrite !moves_app, Hm. assert (M1 : moves [l] = 1) by (destruct Hl as [-> | ->]; reflexivity). rewrite M1.
        unfold bound in *. rewrite Htm, A4. lia. }
      destruct (tick_running s) eqn:Ht.
      * (* inside a tick *)
        destruct Hgo as [[s2 E2]|[s2 E2]].
        { exfalso. cbn in E2. unfold tick in E2. unfold tick_running in Ht1. destruct (s_pc s1); discriminate. }
        destruct (adds_ctl s1 s2 HR1 A6 E2) as [B1 B2].
        pose proof (usable_ctl s1 s2 HR1 Hu1 E2) as Hu2.
        pose proof (Step LCtl s2 (or_intror eq_refl) E2 B1 Hu2) as HC.
        assert (Good : forall r s4, good s2 r s4 -> good s r s4).
        { intros r s4 [G1 G2]. split; [eapply as_told_trans; [exact A5|]; eapply as_told_trans; eassumption|].
          intros Hc Hf. apply G2.
          - eapply calm_ctl; [exact HR1| |exact E2]. unfold calm. rewrite A3. exact Hc.
          - intros Ec. exfalso. clear -E2 Ec Ht1 Hwf HR1.
            pose proof (r_inv c z s1 Hwf HR1) as HI.
            destruct (ctl_cases c s1 s2 HI E2) as
              [ph kept sl rest n s' Epc Esl _ Es|ph kept sl rest n s' Epc Esl _ _ Es
              |ph kept sl rest n s1' s' Epc Esl _ _ Es1 Es|ph kept sl rest n rec s' Epc Esl _ Es
              |ph kept sl rest n rec s' Epc Esl Hx Es|ph kept sl rest n rec o s1' s2' s' Epc Esl _ Es1 Es2 Es
              |kept s1' s' Epc Es1 Es|kept s1' s' Epc Es1 Es|e s' Epc Es|e sl rest s' Epc _ Es|s' Epc Es|sl rest s' Epc _ Es];
              try (subst s'; cbn in Ec; congruence); try (subst s' s1'; cbn in Ec; congruence).
            subst s1'. destruct (dispatch_cases c s1 kept s' Hwf HI Epc Es) as [s' E1 E3 E4 E5|m0 s' E1 E3 E4 E5|s' E1 E3 E4];
              rewrite E1 in Ec; discriminate. }
        unfold completes. rewrite Ht. unfold completes in HC. destruct (tick_running s2) eqn:Ht2.
        -- destruct HC as (l2 & s3 & r & s4 & C1 & C2 & C3 & C4 & C5).
           exists (ls ++ LCtl :: l2), s3, r, s4. split; [rewrite forallb_app, env_inner by exact A1; exact C1|].
           split; [rewrite run_labels_app, A2; cbn [run_labels]; rewrite E2; exact C2|]. auto.
        -- destruct HC as (r & s4 & C4 & C5).
           exists (ls ++ [LCtl]), s2, r, s4. split; [rewrite forallb_app, env_inner by exact A1; reflexivity|].
           split; [rewrite run_labels_app, A2; cbn [run_labels]; rewrite E2; reflexivity|]. auto.
      * (* between ticks *)
        destruct Hgo as [[s2 E2]|[s2 E2]].
        2:{ exfalso. cbn in E2. unfold ctl in E2. unfold tick_running in Ht1. unfold usable in Hu1.
            destruct (s_pc s1); try discriminate; contradiction. }
        assert (B : adds_nothing s1 s2).
        { pose proof E2 as E3. cbn in E3. unfold tick in E3. unfold done in Hd1. destruct (s_pc s1) as [|ph| | | | | | |] eqn:Epc; try discriminate.
          - injection E3 as <-. apply adds_start; assumption.
          - destruct ph; injection E3 as <-; eapply (adds_top s1); auto. }
        destruct B as [B1 B2].
        pose proof (usable_tick s1 s2 HR1 Hd1 E2) as Hu2.
        pose proof (Step LTick s2 (or_introl eq_refl) E2 B1 Hu2) as HC.
        assert (Good : forall r s4, good s2 r s4 -> good s r s4).
        { intros r s4 [G1 G2]. split; [eapply as_told_trans; [exact A5|]; eapply as_told_trans; eassumption|].
          intros Hc Hf. apply G2.
          - eapply calm_tick; [exact HR1| |exact Hd1|exact E2]. rewrite A3. exact Hf.
          - intros Ec. exfalso. cbn in E2. unfold tick in E2.
            assert (T : forall s0, s_pc (main_top s0) <> Created /\ s_pc (drain_top s0) <> Created).
            { intros s0. unfold main_top, drain_top. destruct (s_todo s0), (s_coros s0); cbn; split; discriminate. }
            destruct (s_pc s1) as [|ph| | | | | | |] eqn:Epc; try discriminate.
            + injection E2 as <-. destruct (start_spec c Hwf s1 (r_inv c z s1 Hwf HR1) Epc) as (R & _).
              inversion R as [? ? cyc L1 L2 L3|? ? n pre post L2 L1 L3 L4 L5 L6 L7|? ? n pre post L2 L1 L3 L4 L5 L6 L7 L8
                 |? ? s0 evd todo E T0]; subst; try congruence.
              match goal with H : start c s1 = main_top _ |- _ => rewrite H in Ec end. exact (proj1 (T s0) Ec).
            + destruct ph; injection E2 as <-; [exact (proj1 (T s1) Ec)|exact (proj2 (T s1) Ec)].
            + unfold done in Hd1. rewrite Epc in Hd1. discriminate.
            + unfold done in Hd1. rewrite Epc in Hd1. discriminate. }
        unfold completes. rewrite Ht. unfold completes in HC. destruct (tick_running s2) eqn:Ht2.
        -- destruct HC as (l2 & s3 & r & s4 & C1 & C2 & C3 & C4 & C5).
           exists r, s4. split; [|auto].
           eapply (RunTick c s ls s1 LTick s2 l2 s3); eauto.
        -- destruct HC as (r & s4 & C4 & C5).
           exists r, s4. split; [|auto].
           eapply (RunTick c s ls s1 LTick s2 [] s2); eauto.
Qed.
End Completes.

Lemma run_can_return : forall c z s (oc : nid -> job_outcome),
  wf_dag (c_dag c) -> (forall n, In n (node_ids (c_dag c)) -> node_has_job c n = true) ->
  reachable c z s -> match s_pc s with Created | Suspended _ | Finished | Failed _ => True | _ => False end ->
  exists r s', run_call c s r s' /\
    (forall n o, In (EEnd n o) (trace s') -> In (EEnd n o) (trace s) \/ o = oc n) /\
    ((forall e, s_pc s <> Failed e) ->
     (s_pc s = Created -> acyclic (c_dag c) /\ forall n, In n (node_ids (c_dag c)) -> c_inval c n <> IvThrow) ->
     exists er, r = RRecord er).
Proof.
  intros c z s oc Hwf Hj HR Hpc. destruct HR as [hist Eh].
  assert (Hu : usable s) by (unfold usable; destruct (s_pc s); auto).
  assert (Ht : tick_running s = false) by (unfold tick_running; destruct (s_pc s); auto; contradiction).
  pose proof (completes_all c z oc Hwf Hj (S (bound c s)) s hist Eh Hu ltac:(lia)) as HC.
  unfold completes in HC. rewrite Ht in HC. destruct HC as (r & s' & C1 & C2 & C3). exists r, s'.
  split; [exact C1|]. split.
  - intros n o H. apply trace_in in H. destruct (C2 n o H) as [H'|H']; [left; apply trace_in, H'|auto].
  - intros Hf HF. apply C3; [|exact HF]. unfold calm. destruct (s_pc s) eqn:Epc; try exact I; try contradiction. destruct (Hf e eq_refl).
Qed.
